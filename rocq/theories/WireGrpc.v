(** How the programs of WireProg.v for gRPC run (C89; the statements are in PropWire.v). *)
From Coq Require Import String Lia.
From Verif Require Import GoStr GoStrProofs GoMap Strs StrsSpec SvcTypes GoLex GoDecls GoGlue GlueProg WireProg.
From Verif Require Rpc TextProofs Generator Render PropGoFile FileAll FileGrpc FileNats TextFile DecoderTexts HttpTransport PropGlue.
Notation results := PropGlue.results.
Notation after := PropGlue.after.
Notation has_function := PropGlue.has_function.

(** ** Names *)
Lemma tails (a b s t : str) : length s = length t -> s <> t -> str_eqb (a ++ s) (b ++ t) = false.
Proof.
  intros L N. destruct (str_eqb (a ++ s) (b ++ t)) eqn:K; [|reflexivity]. exfalso. apply N. apply str_eqb_eq in K. apply (f_equal (@rev BinNums.N)) in K. rewrite !rev_app_distr in K.
  assert (K2 : rev s = rev t) by (apply (f_equal (firstn (length (rev s)))) in K; rewrite firstn_app, Nat.sub_diag, firstn_all, app_nil_r in K; assert (Q : length (rev s) = length (rev t)) by (rewrite !rev_length; exact L); rewrite Q, firstn_app, Nat.sub_diag, firstn_all, app_nil_r in K; exact K).
  rewrite <- (rev_involutive s), K2. apply rev_involutive.
Qed.
Definition ends (s x : str) : Prop := exists a, x = a ++ s.
Lemma ends_neq s t x y : ends s x -> ends t y -> length s = length t -> s <> t -> str_eqb x y = false. Proof. intros (a & ->) (b & ->). apply tails. Qed.
Lemma same_prefix (p a b : str) : str_eqb (p ++ a) (p ++ b) = str_eqb a b.
Proof. destruct (str_eqb a b) eqn:K; [apply str_eqb_eq in K; subst; apply str_eqb_refl|]. destruct (str_eqb (p ++ a) _) eqn:K2; [|reflexivity]. apply str_eqb_eq in K2. apply app_inv_head in K2. subst. rewrite str_eqb_refl in K. discriminate K. Qed.
Lemma same_suffix (a b s : str) : str_eqb (a ++ s) (b ++ s) = str_eqb a b.
Proof. destruct (str_eqb a b) eqn:K; [apply str_eqb_eq in K; subst; apply str_eqb_refl|]. destruct (str_eqb (a ++ s) _) eqn:K2; [|reflexivity]. apply str_eqb_eq in K2. apply app_inv_tail in K2. subst. rewrite str_eqb_refl in K. discriminate K. Qed.
Lemma same_around (p a b s : str) : str_eqb (p ++ a ++ s) (p ++ b ++ s) = str_eqb a b. Proof. rewrite same_prefix. apply same_suffix. Qed.
(** The functions of a package, by name *)
Definition named (fs : list gfunc) (n : str) : option gfunc := find (fun f => str_eqb (f_name f) n) fs.
Lemma find_app {A} (p : A -> bool) (l l' : list A) : find p (l ++ l') = match find p l with Some x => Some x | None => find p l' end.
Proof. induction l as [|a l IH]; [reflexivity|]. cbn [app find]. destruct (p a); [reflexivity|exact IH]. Qed.
(** A table of functions for each method *)
Lemma named_table (row : smethod -> list gfunc) (rest : list gfunc) (k : smethod -> gfunc) :
  (forall a b, named (row a) (f_name (k b)) = if str_eqb (sm_name a) (sm_name b) then Some (k a) else None) ->
  forall ms m, NoDup (map sm_name ms) -> In m ms -> named (flat_map row ms ++ rest) (f_name (k m)) = Some (k m).
Proof.
  intro H. induction ms as [|a ms IH]; intros m N [].
  - subst a. cbn [flat_map]. unfold named. rewrite <- app_assoc, find_app. specialize (H m m). unfold named in H. rewrite H, str_eqb_refl. reflexivity.
  - inversion N as [|? ? Na Nl]; subst. cbn [flat_map]. unfold named. rewrite <- app_assoc, find_app. specialize (H a m). unfold named in H. rewrite H. destruct (str_eqb (sm_name a) (sm_name m)) eqn:K; [|apply IH; assumption].
    apply str_eqb_eq in K. exfalso. apply Na. rewrite K. apply in_map. assumption.
Qed.
Lemma nodup_lower ms : NoDup (map low ms) -> NoDup (map sm_name ms).
Proof.
  assert (E : map low ms = map to_lower (map sm_name ms)) by (rewrite map_map; reflexivity). rewrite E. apply NoDup_map_inv.
Qed.
Lemma lookup_skip {O} (pre env : genv O) x : (forall p, In p pre -> str_eqb x (fst p) = false) -> lookup O x (pre ++ env) = lookup O x env.
Proof. induction pre as [|[y u] pre IH]; intro H; [reflexivity|]. cbn [app lookup]. pose proof (H (y, u) (or_introl eq_refl)) as K. cbn [fst] in K. rewrite K. apply IH. intros p Hp. apply H. right. exact Hp. Qed.
(** Composite literals *)
Lemma eval_lit {O W X} (lib : golib O W) ty (g : X -> str * gexp) (h : X -> gval O) env w l :
  (forall x, In x l -> eval O W lib (snd (g x)) env w 1 = Some ([h x], w)) -> eval O W lib (ELit ty (map g l)) env w 1 = Some ([VStruct ty (map (fun x => (fst (g x), h x)) l)], w).
Proof.
  intro H. cbn [eval]. match goal with |- match ?F _ w with _ => _ end = _ => set (go := F) end.
  assert (E : go (map g l) w = Some (map (fun x => (fst (g x), h x)) l, w)); [|rewrite E; reflexivity].
  induction l as [|x l IH]; [reflexivity|]. cbn [map]. destruct (g x) as [f e] eqn:G. pose proof (H x (or_introl eq_refl)) as Hx. rewrite G in Hx. cbn [snd] in Hx. unfold go. rewrite Hx. fold go. rewrite IH by (intros y Hy; apply H; right; exact Hy). reflexivity.
Qed.
Lemma lookup_row {O X} (f : X -> str) (h : X -> gval O) l x : NoDup (map f l) -> In x l -> lookup O (f x) (map (fun y => (f y, h y)) l) = Some (h x).
Proof.
  induction l as [|a l IH]; intros N []; cbn [map lookup].
  - subst a. rewrite str_eqb_refl. reflexivity.
  - inversion N as [|? ? Na Nl]; subst. destruct (str_eqb (f x) (f a)) eqn:K; [apply str_eqb_eq in K; exfalso; apply Na; rewrite <- K; apply in_map; assumption|]. apply IH; assumption.
Qed.
Lemma nodup_suffix {X} (f : X -> str) s l : NoDup (map f l) -> NoDup (map (fun x => f x ++ s) l).
Proof. intro N. assert (E : map (fun x => f x ++ s) l = map (fun a => a ++ s) (map f l)) by (rewrite map_map; reflexivity). rewrite E. apply FinFun.Injective_map_NoDup; [|exact N]. intros a b K. apply app_inv_tail in K. exact K. Qed.

(** ** gRPC *)
Section Grpc.
  Variables M E C : Type.                                     (* contents of messages, errors, contexts *)
  Definition gmsg : Type := str * M.                          (* a pointer to a message: its Go type, and what it holds *)
  Definition endpoint : Type := C -> gmsg -> option (option gmsg * option E).  (* response and error; None: it panics *)
  Inductive gopt := Before (f : str) | Other (n : nat).        (* grpctransport.ServerBefore of a function of the package; other options *)
  Inductive gob := GCtx (c : C) | GMsg (m : gmsg) | GErr (e : E) | GEp (f : endpoint) | GFn (name : str) | GOpt (o : gopt) | GConn
    | GServer (ep : endpoint) (dec enc : str) (os : list gopt) | GClient (service method enc dec reply : str) (os : list gopt).
  Definition fails (e : option E) : gval gob := match e with Some e => VObj (GErr e) | None => VNil end.
  Definition sends (m : option gmsg) : gval gob := match m with Some m => VObj (GMsg m) | None => VNil end.
  Definition pointer_to (ty : list token) (x : gval gob) : bool := match ty, x with [Op _; Word n], VObj (GMsg (t, _)) => str_eqb n t | _, _ => false end.
  (** What the server's options do to the context, what the client's do, and what a call of a path gives at the other end of the connection *)
  Variables (on_server on_client : list gopt -> C -> C) (remote : str -> C -> gmsg -> M + E).
  Variable funs : list gfunc.                                  (* the functions of the package *)
  (** The functions that decode and encode use type assertions only. *)
  Definition lib0 : golib gob unit := mkLib _ _ (fun _ _ _ => None) (fun _ _ _ _ => None) (fun _ _ _ => None) (fun _ => None) (fun _ _ => false) (fun _ _ _ => None) pointer_to (fun _ => VNil) (fun _ _ => None) (fun l => l).
  Definition code (f : str) (c : C) (m : option gmsg) : option gmsg :=
    match named funs f with
    | Some f => match results (run_func _ _ lib0 f [] [VObj (GCtx c); sends m] tt) with Some [VObj (GMsg m'); VNil] => Some m' | _ => None end
    | None => None
    end.
  (** go-kit, transport/grpc/server.go, ServeGRPC: the options change the context; decode, endpoint, encode *)
  Definition serve (ep : endpoint) (dec enc : str) (os : list gopt) (c : C) (m : gmsg) : option (option gmsg * option E) :=
    let c' := on_server os c in
    match code dec c' (Some m) with
    | None => None
    | Some q => match ep c' q with
                | None => None
                | Some (_, Some e) => Some (None, Some e)
                | Some (r, None) => match code enc c' r with Some r' => Some (Some r', None) | None => None end
                end
    end.
  (** go-kit, transport/grpc/client.go: encode, Invoke the path "/service/method" with a new message of the reply's type, decode *)
  Definition client (service method enc dec reply : str) (os : list gopt) : endpoint := fun c m =>
    let c' := on_client os c in
    match code enc c' (Some m) with
    | None => None
    | Some q => match remote (T "/" ++ service ++ T "/" ++ method) c' q with
                | inr e => Some (None, Some e)
                | inl x => match code dec c' (Some (reply, x)) with Some r => Some (Some r, None) | None => None end
                end
    end.
  (** A slice of options; nil if there are none *)
  Definition options (os : list gopt) : gval gob := match os with [] => VNil | _ => VList (map (fun o => VObj (GOpt o)) os) end.
  Fixpoint as_options (l : list (gval gob)) : option (list gopt) := match l with [] => Some [] | VObj (GOpt o) :: l' => option_map (cons o) (as_options l') | _ => None end.
  Definition options_in (x : gval gob) : option (list gopt) := match x with VNil => Some [] | VList l => as_options l | _ => None end.
  Definition names (p f : string) (l : list str) : bool := match l with [a; b] => str_eqb a (T p) && str_eqb b (T f) | _ => false end.
  Definition lib : golib gob unit := mkLib _ _
    (fun f args w =>
      if match f with [a] => str_eqb a (T "append") | _ => false end then match args with [VList a; VList b] => Some ([VList (a ++ b)], w) | [VList a; VNil] => Some ([VList a], w) | _ => None end
      else if names "grpctransport" "ServerBefore" f then match args with [VObj (GFn n)] => Some ([VObj (GOpt (Before n))], w) | _ => None end
      else if names "grpctransport" "NewServer" f then
        match args with [VObj (GEp ep); VObj (GFn dec); VObj (GFn enc); os] => match options_in os with Some os => Some ([VObj (GServer ep dec enc os)], w) | None => None end | _ => None end
      else if names "grpctransport" "NewClient" f then
        match args with [VObj GConn; VStr s; VStr m; VObj (GFn enc); VObj (GFn dec); VStruct [Word r] []; os] => match options_in os with Some os => Some ([VObj (GClient s m enc dec r os)], w) | None => None end | _ => None end
      else None)
    (fun n x args w =>
      if str_eqb n (T "ServeGRPC") then match x, args with VObj (GServer ep dec enc os), [VObj (GCtx c); VObj (GMsg m)] => match serve ep dec enc os c m with Some (r, e) => Some ([VObj (GCtx (on_server os c)); sends r; fails e], w) | None => None end | _, _ => None end
      else if str_eqb n (T "Endpoint") then match x, args with VObj (GClient s m enc dec r os), [] => Some ([VObj (GEp (client s m enc dec r os))], w) | _, _ => None end
      else None)
    (fun _ _ _ => None)
    (fun l => match l with [n] => match named funs n with Some _ => Some (VObj (GFn n)) | None => None end | _ => None end)
    (fun _ _ => false)
    (fun x args w => match x, args with GEp ep, [VObj (GCtx c); VObj (GMsg m)] => match ep c m with Some (r, e) => Some ([sends r; fails e], w) | None => None end | _, _ => None end)
    pointer_to (fun _ => VNil) (fun _ _ => None) (fun l => l).
  Notation run := (run_func _ _ lib).

  Variables (svc package : str) (ms : list smethod).
  Definition row (m : smethod) : list gfunc := [grpc_dec_req_fun m; grpc_enc_resp_fun m; grpc_dec_resp_fun m; grpc_enc_req_fun m].
  Hypothesis Hfuns : funs = flat_map row ms ++ [metadata_fun].
  Hypothesis Hlow : NoDup (map low ms).
  Lemma Hnames : NoDup (map sm_name ms). Proof. apply nodup_lower. exact Hlow. Qed.
  Ltac family := intros a b; unfold named, row; cbn [find f_name grpc_dec_req_fun grpc_enc_resp_fun grpc_dec_resp_fun grpc_enc_req_fun pass_fun];
    unfold grpc_dec_req, grpc_enc_resp, grpc_dec_resp, grpc_enc_req.
  Lemma req_resp p (a b : str) : str_eqb (p ++ a ++ T "Request") (p ++ b ++ T "Response") = false.
  Proof. rewrite same_prefix. change (T "Request") with (T "Req" ++ T "uest"). change (T "Response") with (T "Resp" ++ T "onse"). rewrite !app_assoc. apply tails; [reflexivity|intro K; discriminate K]. Qed.
  Lemma resp_req p (a b : str) : str_eqb (p ++ a ++ T "Response") (p ++ b ++ T "Request") = false.
  Proof. rewrite same_prefix. change (T "Request") with (T "Req" ++ T "uest"). change (T "Response") with (T "Resp" ++ T "onse"). rewrite !app_assoc. apply tails; [reflexivity|intro K; discriminate K]. Qed.
  Lemma dec_enc (a b : str) : str_eqb (T "DecodeGRPC" ++ a) (T "EncodeGRPC" ++ b) = false. Proof. reflexivity. Qed.
  Lemma enc_dec (a b : str) : str_eqb (T "EncodeGRPC" ++ a) (T "DecodeGRPC" ++ b) = false. Proof. reflexivity. Qed.
  Ltac looks := rewrite ?dec_enc, ?enc_dec, ?req_resp, ?resp_req, ?same_around; destruct (str_eqb _ _); reflexivity.
  Lemma find_dec_req m : In m ms -> named funs (grpc_dec_req m) = Some (grpc_dec_req_fun m).
  Proof. intro H. rewrite Hfuns. apply (named_table row [metadata_fun] grpc_dec_req_fun); [|exact Hnames|exact H]. family. looks. Qed.
  Lemma find_enc_resp m : In m ms -> named funs (grpc_enc_resp m) = Some (grpc_enc_resp_fun m).
  Proof. intro H. rewrite Hfuns. apply (named_table row [metadata_fun] grpc_enc_resp_fun); [|exact Hnames|exact H]. family. looks. Qed.
  Lemma find_dec_resp m : In m ms -> named funs (grpc_dec_resp m) = Some (grpc_dec_resp_fun m).
  Proof. intro H. rewrite Hfuns. apply (named_table row [metadata_fun] grpc_dec_resp_fun); [|exact Hnames|exact H]. family. looks. Qed.
  Lemma find_enc_req m : In m ms -> named funs (grpc_enc_req m) = Some (grpc_enc_req_fun m).
  Proof. intro H. rewrite Hfuns. apply (named_table row [metadata_fun] grpc_enc_req_fun); [|exact Hnames|exact H]. family. looks. Qed.
  Lemma find_before : named funs (T "GRPCMetadataToContext") = Some metadata_fun.
  Proof. rewrite Hfuns. clear. unfold named. induction ms as [|a l IH]; [reflexivity|]. cbn [flat_map]. unfold row at 1. cbn [app find f_name grpc_dec_req_fun grpc_enc_resp_fun grpc_dec_resp_fun grpc_enc_req_fun pass_fun].
    change (str_eqb (grpc_dec_req a) (T "GRPCMetadataToContext")) with false. change (str_eqb (grpc_enc_resp a) (T "GRPCMetadataToContext")) with false. change (str_eqb (grpc_dec_resp a) (T "GRPCMetadataToContext")) with false. change (str_eqb (grpc_enc_req a) (T "GRPCMetadataToContext")) with false. exact IH. Qed.
  (** The functions that decode and encode hand on messages of their type. *)
  Lemma pass_runs name arg loc ty c t x : (arg = "grpcReq" /\ loc = "req" \/ arg = "response" /\ loc = "resp" \/ arg = "grpcReply" /\ loc = "reply" \/ arg = "request" /\ loc = "req")%string ->
    results (run_func _ _ lib0 (pass_fun name arg loc ty) [] [VObj (GCtx c); VObj (GMsg (t, x))] tt) = if str_eqb ty t then Some [VObj (GMsg (t, x)); VNil] else None.
  Proof. intros [[-> ->]|[[-> ->]|[[-> ->]|[-> ->]]]]; unfold run_func, run_body, pass_fun; cbn; unfold is_type; cbn; destruct (str_eqb ty t); reflexivity. Qed.
  Lemma pass_nil name arg loc ty c : (arg = "grpcReq" /\ loc = "req" \/ arg = "response" /\ loc = "resp" \/ arg = "grpcReply" /\ loc = "reply" \/ arg = "request" /\ loc = "req")%string ->
    results (run_func _ _ lib0 (pass_fun name arg loc ty) [] [VObj (GCtx c); VNil] tt) = None.
  Proof. intros [[-> ->]|[[-> ->]|[[-> ->]|[-> ->]]]]; unfold run_func, run_body, pass_fun; cbn; unfold is_type; cbn; reflexivity. Qed.
  Lemma code_dec_req m c t x : In m ms -> code (grpc_dec_req m) c (Some (t, x)) = if str_eqb (req_name m) t then Some (t, x) else None.
  Proof. intro H. unfold code. rewrite find_dec_req by exact H. cbn [sends]. unfold grpc_dec_req_fun. rewrite pass_runs by tauto. destruct (str_eqb _ _); reflexivity. Qed.
  Lemma code_enc_req m c t x : In m ms -> code (grpc_enc_req m) c (Some (t, x)) = if str_eqb (req_name m) t then Some (t, x) else None.
  Proof. intro H. unfold code. rewrite find_enc_req by exact H. cbn [sends]. unfold grpc_enc_req_fun. rewrite pass_runs by tauto. destruct (str_eqb _ _); reflexivity. Qed.
  Lemma code_dec_resp m c t x : In m ms -> code (grpc_dec_resp m) c (Some (t, x)) = if str_eqb (resp_name m) t then Some (t, x) else None.
  Proof. intro H. unfold code. rewrite find_dec_resp by exact H. cbn [sends]. unfold grpc_dec_resp_fun. rewrite pass_runs by tauto. destruct (str_eqb _ _); reflexivity. Qed.
  Lemma code_enc_resp m c t x : In m ms -> code (grpc_enc_resp m) c (Some (t, x)) = if str_eqb (resp_name m) t then Some (t, x) else None.
  Proof. intro H. unfold code. rewrite find_enc_resp by exact H. cbn [sends]. unfold grpc_enc_resp_fun. rewrite pass_runs by tauto. destruct (str_eqb _ _); reflexivity. Qed.
  Lemma code_enc_nil m c : In m ms -> code (grpc_enc_resp m) c None = None.
  Proof. intro H. unfold code. rewrite find_enc_resp by exact H. cbn [sends]. unfold grpc_enc_resp_fun. rewrite pass_nil by tauto. reflexivity. Qed.
  Lemma options_made os : options_in (options os) = Some os.
  Proof. destruct os as [|o os]; [reflexivity|]. unfold options, options_in. generalize (o :: os). induction l as [|a l IH]; [reflexivity|]. cbn [map as_options]. rewrite IH. reflexivity. Qed.
  (** *** MakeGRPCServer *)
  Variable eps : str -> endpoint.                              (* the endpoint of each method *)
  Definition endpoints : gval gob := VStruct [kw "Endpoints"] (map (fun m => (field m, VObj (GEp (eps (sm_name m))))) ms).
  Definition at_server (os : list gopt) : list gopt := Before (T "GRPCMetadataToContext") :: os.
  Definition server (os : list gopt) : gval gob := VStruct [kw "grpcServer"] (map (fun m => (low m, VObj (GServer (eps (sm_name m)) (grpc_dec_req m) (grpc_enc_resp m) (at_server os)))) ms).
  Lemma nodup_field : NoDup (map field ms). Proof. exact (nodup_suffix sm_name (T "Endpoint") ms Hnames). Qed.
  Definition all_options (os : list gopt) : gval gob := VList (map (fun o => VObj (GOpt o)) (at_server os)).
  Lemma all_options_in os : options_in (all_options os) = Some (at_server os). Proof. exact (options_made (at_server os)). Qed.
  Lemma make_grpc_runs os : results (run (make_grpc_fun svc ms) [] [endpoints; options os] tt) = Some [server os].
  Proof.
    unfold run_func, run_body. cbn [f_recv f_params f_body make_grpc_fun app map fst].
    set (env0 := binds _ _ _ _).
    assert (E0 : env0 = [(T "options", options os); (T "endpoints", endpoints)]) by reflexivity. clearbody env0. subst env0.
    pose (env2 := [(T "serverOptions", all_options os); (T "options", options os); (T "endpoints", endpoints)]).
    assert (S1 : exec _ _ lib (SDef [T "serverOptions"] (EList (slice_ty (sel "grpctransport" "ServerOption")) [ECall (pkg "grpctransport" "ServerBefore") [v "GRPCMetadataToContext"]])) [(T "options", options os); (T "endpoints", endpoints)] tt
      = Next [(T "serverOptions", VList [VObj (GOpt (Before (T "GRPCMetadataToContext")))]); (T "options", options os); (T "endpoints", endpoints)] tt).
    { destruct (named funs (T "GRPCMetadataToContext")) as [f|] eqn:FB; [|rewrite find_before in FB; discriminate FB]. cbn -[named] in FB. cbn -[options endpoints named]. rewrite FB. reflexivity. }
    assert (S2 : exec _ _ lib (SSet [v "serverOptions"] (ECall (v "append") [v "serverOptions"; ESpread (v "options")])) [(T "serverOptions", VList [VObj (GOpt (Before (T "GRPCMetadataToContext")))]); (T "options", options os); (T "endpoints", endpoints)] tt = Next env2 tt).
    { cbn -[options endpoints]. destruct os as [|o os]; reflexivity. }
    unfold with_options. cbn [app]. rewrite (PropGlue.block_step _ _ _ _ _ _ _ _ _ S1), (PropGlue.block_step _ _ _ _ _ _ _ _ _ S2).
    assert (L : eval _ _ lib (ELit [kw "grpcServer"] (map grpc_handler ms)) env2 tt 1 = Some ([server os], tt)).
    { refine (eval_lit lib [kw "grpcServer"] grpc_handler (fun m => VObj (GServer (eps (sm_name m)) (grpc_dec_req m) (grpc_enc_resp m) (at_server os))) env2 tt ms _). intros m Hm. unfold grpc_handler, env2. cbn [snd].
      cbn -[all_options endpoints options field grpc_dec_req grpc_enc_resp named options_in]. unfold endpoints at 1. rewrite (lookup_row field (fun m => VObj (GEp (eps (sm_name m)))) ms m nodup_field Hm).
      change (str_eqb (grpc_dec_req m) _) with false. change (str_eqb (grpc_enc_resp m) _) with false. cbn -[all_options endpoints options field grpc_dec_req grpc_enc_resp named options_in].
      rewrite find_dec_req, find_enc_resp by exact Hm. cbn -[all_options endpoints options field grpc_dec_req grpc_enc_resp named options_in]. rewrite all_options_in. reflexivity. }
    cbn [exec_block block_of exec eval_all]. unfold exec_block. cbn [block_of exec eval_all]. unfold eval1. cbn [eval]. cbn [eval] in L. rewrite L. reflexivity.
  Qed.
  (** *** The methods of the server *)
  Definition served (m : smethod) (r : option (option gmsg * option E)) : option (list (gval gob)) :=
    match r with
    | None => None
    | Some (_, Some e) => Some [VNil; VObj (GErr e)]
    | Some (Some (t, y), None) => if str_eqb (resp_name m) t then Some [VObj (GMsg (t, y)); VNil] else None
    | Some (None, None) => None
    end.
  Lemma method_runs os m c x : In m ms -> results (run (grpc_method_fun m) [server os] [VObj (GCtx c); VObj (GMsg (req_name m, x))] tt) = served m (eps (sm_name m) (on_server (at_server os) c) (req_name m, x)).
  Proof.
    intro Hm. unfold run_func, run_body, grpc_method_fun. cbn -[low server serve resp_name req_name at_server].
    change (server os) with (VStruct [kw "grpcServer"] (map (fun m => (low m, VObj (GServer (eps (sm_name m)) (grpc_dec_req m) (grpc_enc_resp m) (at_server os)))) ms)). cbn -[low serve resp_name req_name at_server grpc_dec_req grpc_enc_resp].
    rewrite (lookup_row low (fun m => VObj (GServer (eps (sm_name m)) (grpc_dec_req m) (grpc_enc_resp m) (at_server os))) ms m Hlow Hm).
    cbn -[low serve resp_name req_name at_server grpc_dec_req grpc_enc_resp]. unfold serve. rewrite code_dec_req, str_eqb_refl by exact Hm. destruct (eps (sm_name m) _ _) as [[r [e|]]|]; [cbn -[resp_name server at_server low]; unfold eval1; cbn -[resp_name server at_server low]; destruct r as [[t y]|]; reflexivity| |reflexivity].
    destruct r as [[t y]|]; [|rewrite code_enc_nil by exact Hm; reflexivity]. rewrite code_enc_resp by exact Hm. unfold served. destruct (str_eqb (resp_name m) t) eqn:K; [|reflexivity].
    cbn -[resp_name]. unfold eval1, is_type. cbn -[resp_name]. rewrite K. reflexivity.
  Qed.
  (** *** NewGRPCClient *)
  Definition grpc_client (os : list gopt) (m : smethod) : endpoint := client (package ++ T "." ++ svc) (sm_name m) (grpc_enc_req m) (grpc_dec_resp m) (resp_name m) os.
  Definition base (os : list gopt) : genv gob := [(T "options", options os); (T "conn", VObj GConn)].
  Definition made (os : list gopt) (l : list smethod) : genv gob := map (fun m => (low_var m, VObj (GEp (grpc_client os m)))) l.
  Lemma made_skip os l x : (forall b, str_eqb x (b ++ T "Endpoint") = false) -> lookup _ x (made os l ++ base os) = lookup _ x (base os).
  Proof. intro H. apply lookup_skip. intros p Hp. apply in_map_iff in Hp. destruct Hp as (y & <- & _). apply H. Qed.
  Lemma not_var (a s b : str) : length s = 2 -> s <> T "nt" -> str_eqb (a ++ s) (b ++ T "Endpoint") = false.
  Proof. intros L N. change (T "Endpoint") with (T "Endpoi" ++ T "nt"). rewrite app_assoc. apply tails; [exact L|exact N]. Qed.
  Lemma endpoint_runs os l m : In m ms -> exec_block _ _ lib (grpc_endpoint svc package m) (made os l ++ base os) tt = Next (made os (m :: l) ++ base os) tt.
  Proof.
    intro Hm. unfold grpc_endpoint.
    assert (S1 : exec _ _ lib (SVar (low_var m) endpoint_ty) (made os l ++ base os) tt = Next ((low_var m, VNil) :: made os l ++ base os) tt).
    { cbn [exec l_zero lib]. unfold bind. assert (K : str_eqb (low_var m) (T "_") = false) by (unfold low_var; change (T "_") with ([] ++ T "_"); change (T "Endpoint") with (T "Endpoin" ++ T "t"); rewrite app_assoc; apply tails; [reflexivity|intro K; discriminate K]). rewrite K. reflexivity. }
    rewrite (PropGlue.block_step _ _ _ _ _ _ _ _ _ S1). clear S1.
    set (env := (low_var m, VNil) :: made os l ++ base os).
    assert (Look : forall x, (forall b, str_eqb x (b ++ T "Endpoint") = false) -> lookup _ x env = lookup _ x (base os)).
    { intros x H. unfold env. cbn [lookup]. unfold low_var at 1. rewrite H. apply made_skip. exact H. }
    assert (L1 : lookup _ (T "grpctransport") env = None) by (rewrite Look; [reflexivity|intro b; exact (not_var (T "grpctranspo") (T "rt") b eq_refl ltac:(intro K; discriminate K))]).
    assert (L2 : lookup _ (T "conn") env = Some (VObj GConn)) by (rewrite Look; [reflexivity|intro b; exact (not_var (T "co") (T "nn") b eq_refl ltac:(intro K; discriminate K))]).
    assert (L3 : lookup _ (T "options") env = Some (options os)) by (rewrite Look; [reflexivity|intro b; exact (not_var (T "optio") (T "ns") b eq_refl ltac:(intro K; discriminate K))]).
    assert (L4 : lookup _ (grpc_enc_req m) env = None).
    { rewrite Look; [reflexivity|]. intro b. unfold grpc_enc_req. change (T "Request") with (T "Reque" ++ T "st"). rewrite !app_assoc. apply not_var; [reflexivity|intro K; discriminate K]. }
    assert (L5 : lookup _ (grpc_dec_resp m) env = None).
    { rewrite Look; [reflexivity|]. intro b. unfold grpc_dec_resp. change (T "Response") with (T "Respon" ++ T "se"). rewrite !app_assoc. apply not_var; [reflexivity|intro K; discriminate K]. }
    assert (V : eval _ _ lib (ECall (ESel (ECallC (pkg "grpctransport" "NewClient")
       [v "conn"; EStr (package ++ T "." ++ svc); EStr (sm_name m); EVar (grpc_enc_req m); EVar (grpc_dec_resp m); ELit [Word (resp_name m)] []; ESpread (v "options")]) (T "Endpoint")) []) env tt 1 = Some ([VObj (GEp (grpc_client os m))], tt)).
    { unfold v, pkg. cbn -[env lookup options named options_in grpc_enc_req grpc_dec_resp resp_name client str_eqb names T l_call]. unfold v. cbn -[env lookup options named options_in grpc_enc_req grpc_dec_resp resp_name client str_eqb names T l_call]. rewrite L1, L2, L3, L4, L5. cbn -[env lookup options named options_in grpc_enc_req grpc_dec_resp resp_name client str_eqb names T l_call]. rewrite find_enc_req, find_dec_resp by exact Hm.
      cbn -[env lookup options named options_in grpc_enc_req grpc_dec_resp resp_name client T l_call]. unfold lib at 1. cbn [l_call]. cbn -[env lookup options named options_in grpc_enc_req grpc_dec_resp resp_name client]. rewrite options_made. reflexivity. }
    unfold exec_block. cbn [block_of exec]. unfold eval_into. cbn [length]. rewrite V. cbn [assigns assign].
    assert (K : str_eqb (low_var m) (T "_") = false) by (unfold low_var; change (T "_") with ([] ++ T "_"); change (T "Endpoint") with (T "Endpoin" ++ T "t"); rewrite app_assoc; apply tails; [reflexivity|intro K; discriminate K]). rewrite K. unfold env. cbn [update]. rewrite str_eqb_refl.
    unfold leave. cbn [length]. rewrite Nat.sub_diag. reflexivity.
  Qed.
  Lemma client_block os : forall todo l rest, incl todo ms -> exec_block _ _ lib (flat_map (grpc_endpoint svc package) todo ++ rest) (made os l ++ base os) tt = exec_block _ _ lib rest (made os (rev todo ++ l) ++ base os) tt.
  Proof.
    induction todo as [|m todo IH]; intros l rest Hi; [reflexivity|]. cbn [flat_map]. rewrite <- app_assoc, PropGlue.block_app, endpoint_runs by (apply Hi; left; reflexivity).
    rewrite IH by (intros y Hy; apply Hi; right; exact Hy). cbn [rev]. rewrite <- app_assoc. reflexivity.
  Qed.
  Lemma nodup_vars : NoDup (map low_var ms). Proof. exact (nodup_suffix low (T "Endpoint") ms Hlow). Qed.
  Definition client_struct (os : list gopt) : gval gob := VStruct [kw "Endpoints"] (map (fun m => (field m, VObj (GEp (grpc_client os m)))) ms).
  Lemma lookup_app {O} x (a b : genv O) u : lookup O x a = Some u -> lookup O x (a ++ b) = Some u.
  Proof. induction a as [|[y w] a IH]; intro H; [discriminate H|]. cbn [app lookup] in *. destruct (str_eqb x y); [exact H|apply IH; exact H]. Qed.
  Lemma new_grpc_runs os : results (run (new_grpc_fun svc package ms) [] [VObj GConn; options os] tt) = Some [client_struct os; VNil].
  Proof.
    unfold run_func, run_body. cbn [f_recv f_params f_body new_grpc_fun app map fst]. set (env0 := binds _ _ _ _). assert (E0 : env0 = made os [] ++ base os) by reflexivity. clearbody env0. subst env0.
    rewrite client_block by apply incl_refl. rewrite app_nil_r.
    assert (L : eval _ _ lib (ELit [kw "Endpoints"] (map endpoint_field ms)) (made os (rev ms) ++ base os) tt 1 = Some ([client_struct os], tt)).
    { refine (eval_lit lib [kw "Endpoints"] endpoint_field (fun m => VObj (GEp (grpc_client os m))) _ tt ms _). intros m Hm. unfold endpoint_field. cbn [snd eval].
      assert (N : NoDup (map low_var (rev ms))) by (rewrite map_rev; apply NoDup_rev; exact nodup_vars).
      rewrite (lookup_app _ _ _ (VObj (GEp (grpc_client os m)))) by (apply (lookup_row low_var (fun m => VObj (GEp (grpc_client os m))) (rev ms) m N); apply in_rev in Hm; exact Hm). reflexivity. }
    unfold exec_block. cbn [block_of exec eval_all]. unfold eval1. cbn [eval]. cbn [eval] in L. rewrite L. reflexivity.
  Qed.
  (** A method of the client *)
  Lemma client_call_runs os m c x : In m ms -> results (run (call_fun m) [client_struct os] [VObj (GCtx c); VObj (GMsg (req_name m, x))] tt) =
    match remote (Rpc.grpc_path package svc (sm_name m)) (on_client os c) (req_name m, x) with inl y => Some [VObj (GMsg (resp_name m, y)); VNil] | inr e => Some [VNil; VObj (GErr e)] end.
  Proof.
    intro Hm. unfold run_func, run_body, call_fun. cbn -[field client_struct client resp_name req_name Rpc.grpc_path].
    change (client_struct os) with (VStruct [kw "Endpoints"] (map (fun m => (field m, VObj (GEp (grpc_client os m)))) ms)). cbn -[field client resp_name req_name Rpc.grpc_path grpc_client].
    rewrite (lookup_row field (fun m => VObj (GEp (grpc_client os m))) ms m nodup_field Hm). cbn -[field client resp_name req_name Rpc.grpc_path grpc_client].
    unfold grpc_client, client. rewrite code_enc_req, str_eqb_refl by exact Hm. change (T "/" ++ (package ++ T "." ++ svc) ++ T "/" ++ sm_name m) with (Rpc.grpc_path package svc (sm_name m)).
    destruct (remote _ _ _) as [y|e]; [|cbn -[resp_name]; unfold eval1; cbn -[resp_name]; reflexivity]. rewrite code_dec_resp, str_eqb_refl by exact Hm. cbn -[resp_name]. unfold eval1, is_type. cbn -[resp_name]. rewrite str_eqb_refl. reflexivity.
  Qed.
End Grpc.
