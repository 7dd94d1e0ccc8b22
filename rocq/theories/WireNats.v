(** How the programs of WireProg.v for NATS run (C89; the statements are in PropWire.v). *)
From Coq Require Import String Lia.
From Verif Require Import GoStr GoStrProofs GoMap Strs StrsSpec SvcTypes GoLex GoDecls GoGlue GlueProg WireProg WireGrpc.
From Verif Require Rpc PropGlue.

(** ** NATS *)
Section Nats.
  Variable P : Type.
  Variables dec_text enc_text : str.                           (* what encoding/json says *)
  Variable struct_of : str -> list (Rpc.jfield P).             (* the fields of the Go types of messages *)
  Definition nmsg : Type := str * Rpc.msg P.
  Definition nendpoint : Type := nmsg -> option (option nmsg * option str).    (* response and text of the error; None: it panics *)
  Definition nhandler : Type := str -> option str.              (* the data of the reply to a message; None: it panics *)
  Inductive nob := NCtx | NMsg (m : nmsg) | NErr (text : str) | NEp (f : nendpoint) | NFn (name : str) | NOpt (n : nat) | NConn | NSubscription | NRaw (data : str)
    | NSubscriber (ep : nendpoint) (dec enc : str) (os : list nat) | NHandler (h : nhandler) | NPublisher (subject enc dec : str) (os : list nat).
  (** The data of the message that is being made, the replies that were sent (where and what), and the subscriptions *)
  Record world := mkWorld { w_data : option str; w_sent : list (str * str); w_subs : list (str * str * nhandler) }.
  Definition w0 : world := mkWorld None [] [].
  Definition nfails (e : option str) : gval nob := match e with Some e => VObj (NErr e) | None => VNil end.
  Definition nsends (m : option nmsg) : gval nob := match m with Some m => VObj (NMsg m) | None => VNil end.
  Definition npointer (ty : list token) (x : gval nob) : bool := match ty, x with [Op _; Word n], VObj (NMsg (t, _)) => str_eqb n t | _, _ => false end.
  Variables (refuses : str -> option str) (network : str -> str -> str + str).   (* does a subscription fail; the reply to a message on a subject, or an error *)
  Variable funs : list gfunc.
  (** encoding/json, and go-kit's EncodeJSONResponse and EncodeJSONRequest *)
  Definition json_of (x : gval nob) : option str := match x with VNil => Some (T "null") | VObj (NMsg (t, m)) => Rpc.marshal P (struct_of t) m | _ => None end.
  Definition nlib0 : golib nob world := mkLib _ _
    (fun f args w =>
      if names "json" "Unmarshal" f then
        match args with [VStr d; VObj (NMsg (t, m))] => match Rpc.unmarshal P (struct_of t) d with Some m' => Some ([VNil; VObj (NMsg (t, m'))], w) | None => Some ([VObj (NErr dec_text); VObj (NMsg (t, m))], w) end | _ => None end
      else if names "natstransport" "EncodeJSONResponse" f then
        match args with [VObj NCtx; VStr to; VObj NConn; x] => match json_of x with Some d => Some ([VNil], mkWorld (w_data w) (w_sent w ++ [(to, d)]) (w_subs w)) | None => Some ([VObj (NErr enc_text)], w) end | _ => None end
      else if names "natstransport" "EncodeJSONRequest" f then
        match args with [VObj NCtx; VObj (NRaw _); x] => match json_of x with Some d => Some ([VNil], mkWorld (Some d) (w_sent w) (w_subs w)) | None => Some ([VObj (NErr enc_text)], w) end | _ => None end
      else None)
    (fun _ _ _ _ => None)
    (fun f x w => match x with VObj (NRaw d) => if str_eqb f (T "Data") then Some (VStr d) else None | _ => None end)
    (fun _ => None) (fun _ _ => false) (fun _ _ _ => None) npointer
    (fun ty => match ty with [Word t] => VObj (NMsg (t, Rpc.zero_msg P (struct_of t))) | _ => VNil end) (fun _ _ => None) (fun l => l).
  Definition decode (f data : str) : option (nmsg + str) :=
    match named funs f with
    | Some f => match results (run_func _ _ nlib0 f [] [VObj NCtx; VObj (NRaw data)] w0) with Some [VObj (NMsg m); VNil] => Some (inl m) | Some [VNil; VObj (NErr e)] => Some (inr e) | _ => None end
    | None => None
    end.
  Definition encode_reply (f : str) (m : option nmsg) (to : str) : option (str + str) :=
    match named funs f with
    | Some f => let r := run_func _ _ nlib0 f [] [VObj NCtx; VStr to; VObj NConn; nsends m] w0 in
                match results r, after r with
                | Some [VNil], Some w => match w_sent w with [(to', d)] => if str_eqb to to' then Some (inl d) else None | _ => None end
                | Some [VObj (NErr e)], _ => Some (inr e)
                | _, _ => None
                end
    | None => None
    end.
  Definition encode_request (f : str) (m : nmsg) : option (str + str) :=
    match named funs f with
    | Some f => let r := run_func _ _ nlib0 f [] [VObj NCtx; VObj (NRaw []); VObj (NMsg m)] w0 in
                match results r, after r with
                | Some [VNil], Some w => match w_data w with Some d => Some (inl d) | None => None end
                | Some [VObj (NErr e)], _ => Some (inr e)
                | _, _ => None
                end
    | None => None
    end.
  (** go-kit, transport/nats/subscriber.go, ServeMsg: decode, endpoint, encode; errors are encoded as {"err": text} *)
  Definition serve_msg (ep : nendpoint) (dec enc : str) : nhandler := fun data =>
    match decode dec data with
    | None => None
    | Some (inr e) => Some (Rpc.err_reply e)
    | Some (inl q) => match ep q with
                      | None => None
                      | Some (_, Some e) => Some (Rpc.err_reply e)
                      | Some (r, None) => match encode_reply enc r (T "reply") with Some (inl d) => Some d | Some (inr e) => Some (Rpc.err_reply e) | None => None end
                      end
    end.
  (** go-kit, transport/nats/publisher.go, Endpoint: encode, ask, decode *)
  Definition publish (subject enc dec : str) : nendpoint := fun m =>
    match encode_request enc m with
    | None => None
    | Some (inr e) => Some (None, Some e)
    | Some (inl d) => match network subject d with
                      | inr e => Some (None, Some e)
                      | inl reply => match decode dec reply with Some (inl r) => Some (Some r, None) | Some (inr e) => Some (None, Some e) | None => None end
                      end
    end.
  Definition noptions (os : list nat) : gval nob := match os with [] => VNil | _ => VList (map (fun o => VObj (NOpt o)) os) end.
  Fixpoint as_noptions (l : list (gval nob)) : option (list nat) := match l with [] => Some [] | VObj (NOpt o) :: l' => option_map (cons o) (as_noptions l') | _ => None end.
  Definition noptions_in (x : gval nob) : option (list nat) := match x with VNil => Some [] | VList l => as_noptions l | _ => None end.
  Definition nlib : golib nob world := mkLib _ _
    (fun f args w =>
      if match f with [a] => str_eqb a (T "append") | _ => false end then match args with [VList a; VList b] => Some ([VList (a ++ b)], w) | [VList a; VNil] => Some ([VList a], w) | _ => None end
      else if names "natstransport" "NewSubscriber" f then
        match args with [VObj (NEp ep); VObj (NFn dec); VObj (NFn enc); os] => match noptions_in os with Some os => Some ([VObj (NSubscriber ep dec enc os)], w) | None => None end | _ => None end
      else if names "natstransport" "NewPublisher" f then
        match args with [VObj NConn; VStr s; VObj (NFn enc); VObj (NFn dec); os] => match noptions_in os with Some os => Some ([VObj (NPublisher s enc dec os)], w) | None => None end | _ => None end
      else None)
    (fun n x args w =>
      if str_eqb n (T "ServeMsg") then match x, args with VObj (NSubscriber ep dec enc os), [VObj NConn] => Some ([VObj (NHandler (serve_msg ep dec enc))], w) | _, _ => None end
      else if str_eqb n (T "QueueSubscribe") then
        match x, args with
        | VObj NConn, [VStr s; VStr q; VObj (NHandler h)] => match refuses s with Some e => Some ([VNil; VObj (NErr e)], w) | None => Some ([VObj NSubscription; VNil], mkWorld (w_data w) (w_sent w) (w_subs w ++ [(s, q, h)])) end
        | _, _ => None
        end
      else if str_eqb n (T "Endpoint") then match x, args with VObj (NPublisher s enc dec os), [] => Some ([VObj (NEp (publish s enc dec))], w) | _, _ => None end
      else None)
    (fun _ _ _ => None)
    (fun l => match l with [n] => match named funs n with Some _ => Some (VObj (NFn n)) | None => None end | _ => None end)
    (fun _ _ => false)
    (fun x args w => match x, args with NEp ep, [VObj NCtx; VObj (NMsg m)] => match ep m with Some (r, e) => Some ([nsends r; nfails e], w) | None => None end | _, _ => None end)
    npointer (fun _ => VNil) (fun _ _ => None) (fun l => l).
  Notation run := (run_func _ _ nlib).

  Variables (svc : str) (ms : list smethod).
  Definition nrow (m : smethod) : list gfunc := [nats_dec_req_fun m; nats_dec_resp_fun m].
  Definition generic : list gfunc := [nats_encode_fun; nats_encode_request_fun].
  Hypothesis Hfuns : funs = flat_map nrow ms ++ generic.
  Hypothesis Hlow : NoDup (map low ms).
  Let Hn : NoDup (map sm_name ms) := nodup_lower ms Hlow.
  Lemma nfind_req m : In m ms -> named funs (nats_dec_req m) = Some (nats_dec_req_fun m).
  Proof. intro H. rewrite Hfuns. apply (named_table nrow generic nats_dec_req_fun); [|exact Hn|exact H]. intros a b; unfold named, nrow; cbn [find f_name nats_dec_req_fun nats_dec_resp_fun nats_decode_fun]; unfold nats_dec_req, nats_dec_resp. rewrite ?req_resp, ?resp_req, ?same_around. destruct (str_eqb _ _); reflexivity. Qed.
  Lemma nfind_resp m : In m ms -> named funs (nats_dec_resp m) = Some (nats_dec_resp_fun m).
  Proof. intro H. rewrite Hfuns. apply (named_table nrow generic nats_dec_resp_fun); [|exact Hn|exact H]. intros a b; unfold named, nrow; cbn [find f_name nats_dec_req_fun nats_dec_resp_fun nats_decode_fun]; unfold nats_dec_req, nats_dec_resp. rewrite ?req_resp, ?resp_req, ?same_around. destruct (str_eqb _ _); reflexivity. Qed.
  Lemma nfind_generic f : In f generic -> named funs (f_name f) = Some f.
  Proof.
    intro H. rewrite Hfuns. clear Hn Hfuns Hlow. unfold named. induction ms as [|a l IH]; [destruct H as [<-|[<-|[]]]; reflexivity|]. cbn [flat_map]. unfold nrow at 1. cbn [app find f_name nats_dec_req_fun nats_dec_resp_fun nats_decode_fun].
    assert (K : str_eqb (nats_dec_req a) (f_name f) = false /\ str_eqb (nats_dec_resp a) (f_name f) = false) by (destruct H as [<-|[<-|[]]]; split; reflexivity). destruct K as [-> ->]. exact IH.
  Qed.
  Lemma nats_decode_runs name x ty d : (x = "req" \/ x = "resp")%string ->
    results (run_func _ _ nlib0 (nats_decode_fun name x ty) [] [VObj NCtx; VObj (NRaw d)] w0) = match Rpc.unmarshal P (struct_of ty) d with Some m => Some [VObj (NMsg (ty, m)); VNil] | None => Some [VNil; VObj (NErr dec_text)] end.
  Proof. intros [->| ->]; unfold run_func, run_body, nats_decode_fun; cbn -[Rpc.unmarshal Rpc.zero_msg]; destruct (Rpc.unmarshal _ _ _); reflexivity. Qed.
  Lemma decode_req m d : In m ms -> decode (nats_dec_req m) d = Some match Rpc.unmarshal P (struct_of (req_name m)) d with Some q => inl (req_name m, q) | None => inr dec_text end.
  Proof. intro H. unfold decode. rewrite nfind_req by exact H. unfold nats_dec_req_fun. rewrite nats_decode_runs by tauto. destruct (Rpc.unmarshal _ _ _); reflexivity. Qed.
  Lemma decode_resp m d : In m ms -> decode (nats_dec_resp m) d = Some match Rpc.unmarshal P (struct_of (resp_name m)) d with Some q => inl (resp_name m, q) | None => inr dec_text end.
  Proof. intro H. unfold decode. rewrite nfind_resp by exact H. unfold nats_dec_resp_fun. rewrite nats_decode_runs by tauto. destruct (Rpc.unmarshal _ _ _); reflexivity. Qed.
  Lemma encode_reply_runs t m to : encode_reply (T "EncodeNATSGenericResponse") (Some (t, m)) to = Some match Rpc.marshal P (struct_of t) m with Some d => inl d | None => inr enc_text end.
  Proof.
    unfold encode_reply. pose proof (nfind_generic nats_encode_fun (or_introl eq_refl)) as K; cbn [f_name nats_encode_fun] in K; rewrite K; clear K. unfold run_func, run_body, nats_encode_fun. cbn -[Rpc.marshal str_eqb T]. unfold v, pkg. cbn -[Rpc.marshal]. destruct (Rpc.marshal _ _ _); cbn; [rewrite str_eqb_refl|]; reflexivity.
  Qed.
  Lemma encode_request_runs t m : encode_request (T "EncodeNATSGenericRequest") (t, m) = Some match Rpc.marshal P (struct_of t) m with Some d => inl d | None => inr enc_text end.
  Proof.
    unfold encode_request. pose proof (nfind_generic nats_encode_request_fun (or_intror (or_introl eq_refl))) as K; cbn [f_name nats_encode_request_fun] in K; rewrite K; clear K. unfold run_func, run_body, nats_encode_request_fun. cbn -[Rpc.marshal]. destruct (Rpc.marshal _ _ _); reflexivity.
  Qed.
  Lemma noptions_made os : noptions_in (noptions os) = Some os.
  Proof. destruct os as [|o os]; [reflexivity|]. unfold noptions, noptions_in. generalize (o :: os). induction l as [|a l IH]; [reflexivity|]. cbn [map as_noptions]. rewrite IH. reflexivity. Qed.
  (** *** MakeNATSServer *)
  Variable eps : str -> nendpoint.
  Definition nendpoints : gval nob := VStruct [kw "Endpoints"] (map (fun m => (field m, VObj (NEp (eps (sm_name m))))) ms).
  Definition subscriber (os : list nat) (m : smethod) : gval nob := VObj (NSubscriber (eps (sm_name m)) (nats_dec_req m) (T "EncodeNATSGenericResponse") os).
  Definition nserver (os : list nat) : gval nob := VStruct [kw "natsServer"] (map (fun m => (sm_name m, subscriber os m)) ms).
  Lemma nnodup_field : NoDup (map field ms). Proof. exact (nodup_suffix sm_name (T "Endpoint") ms Hn). Qed.
  Definition nall (os : list nat) : gval nob := VList (map (fun o => VObj (NOpt o)) os).
  Lemma nall_in os : noptions_in (nall os) = Some os. Proof. unfold nall, noptions_in. induction os as [|a l IH]; [reflexivity|]. cbn [map as_noptions]. rewrite IH. reflexivity. Qed.
  Lemma make_nats_runs os w : results (run (make_nats_fun ms) [] [nendpoints; noptions os] w) = Some [nserver os].
  Proof.
    unfold run_func, run_body. cbn [f_recv f_params f_body make_nats_fun app map fst].
    set (env0 := binds _ _ _ _).
    assert (E0 : env0 = [(T "options", noptions os); (T "endpoints", nendpoints)]) by reflexivity. clearbody env0. subst env0.
    pose (env2 := [(T "serverOptions", nall os); (T "options", noptions os); (T "endpoints", nendpoints)]).
    assert (S1 : exec _ _ nlib (SDef [T "serverOptions"] (EList (slice_ty (sel "natstransport" "SubscriberOption")) [])) [(T "options", noptions os); (T "endpoints", nendpoints)] w
      = Next [(T "serverOptions", VList []); (T "options", noptions os); (T "endpoints", nendpoints)] w) by reflexivity.
    assert (S2 : exec _ _ nlib (SSet [v "serverOptions"] (ECall (v "append") [v "serverOptions"; ESpread (v "options")])) [(T "serverOptions", VList []); (T "options", noptions os); (T "endpoints", nendpoints)] w = Next env2 w).
    { cbn -[noptions nendpoints]. destruct os as [|o os]; reflexivity. }
    unfold with_options. cbn [app]. rewrite (PropGlue.block_step _ _ _ _ _ _ _ _ _ S1), (PropGlue.block_step _ _ _ _ _ _ _ _ _ S2).
    assert (L : eval _ _ nlib (ELit [kw "natsServer"] (map nats_handler ms)) env2 w 1 = Some ([nserver os], w)).
    { refine (eval_lit nlib [kw "natsServer"] nats_handler (subscriber os) env2 w ms _). intros m Hm. unfold nats_handler, env2. cbn [snd].
      destruct (named funs (T "EncodeNATSGenericResponse")) as [f|] eqn:FB; [|pose proof (nfind_generic nats_encode_fun (or_introl eq_refl)) as K; cbn [f_name nats_encode_fun] in K; rewrite K in FB; discriminate FB]. cbn -[named] in FB.
      cbn -[nall nendpoints noptions field nats_dec_req named noptions_in]. unfold nendpoints at 1. rewrite (lookup_row field (fun m => VObj (NEp (eps (sm_name m)))) ms m nnodup_field Hm).
      change (str_eqb (nats_dec_req m) _) with false. cbn -[nall nendpoints noptions field nats_dec_req named noptions_in].
      rewrite nfind_req by exact Hm. cbn -[nall nendpoints noptions field nats_dec_req named noptions_in]. rewrite FB. cbn -[nall nendpoints noptions field nats_dec_req named noptions_in]. rewrite nall_in. reflexivity. }
    unfold exec_block. cbn [block_of exec eval_all]. unfold eval1. cbn [eval]. cbn [eval] in L. rewrite L. reflexivity.
  Qed.
  (** *** ServeNATS *)
  Definition subscribed (m : smethod) : str * str * nhandler := (Rpc.nats_subject svc (sm_name m), svc, serve_msg (eps (sm_name m)) (nats_dec_req m) (T "EncodeNATSGenericResponse")).
  Definition add (w : world) (l : list smethod) : world := mkWorld (w_data w) (w_sent w) (w_subs w ++ map subscribed l).
  Definition sbase (os : list nat) : genv nob := [(T "srv", nserver os); (T "conn", VObj NConn)].
  Definition sub_env (pre : genv nob) : Prop := forall p, In p pre -> fst p = T "err" \/ ends (T "ub") (fst p).
  Lemma sub_skip pre os (a s : str) : sub_env pre -> length s = 2 -> s <> T "ub" -> a ++ s <> T "err" -> lookup _ (a ++ s) (pre ++ sbase os) = lookup _ (a ++ s) (sbase os).
  Proof.
    intros Hp L N1 N2. apply lookup_skip. intros p Hin. destruct (Hp p Hin) as [-> | (b & ->)]; [|apply tails; [exact L|exact N1]]. destruct (str_eqb (a ++ s) (T "err")) eqn:K; [apply str_eqb_eq in K; contradiction|reflexivity].
  Qed.
  Lemma low_sub_ends m : ends (T "ub") (low_sub m). Proof. exists (low m ++ T "S"). unfold low_sub. rewrite <- app_assoc. reflexivity. Qed.
  Lemma subscribe_runs os pre m w : In m ms -> sub_env pre ->
    match refuses (Rpc.nats_subject svc (sm_name m)) with
    | None => exists pre', sub_env pre' /\ exec_block _ _ nlib (nats_subscribe svc m) (pre ++ sbase os) w = Next (pre' ++ sbase os) (add w [m])
    | Some e => exists env, exec_block _ _ nlib (nats_subscribe svc m) (pre ++ sbase os) w = Return [VObj (NErr e)] env w
    end.
  Proof.
    intros Hm Hp. set (env := pre ++ sbase os).
    assert (L1 : lookup _ (T "conn") env = Some (VObj NConn)) by (exact (eq_trans (sub_skip pre os (T "co") (T "nn") Hp eq_refl ltac:(intro K; discriminate K) ltac:(intro K; discriminate K)) eq_refl)).
    assert (L2 : lookup _ (T "srv") env = Some (nserver os)) by (exact (eq_trans (sub_skip pre os (T "s") (T "rv") Hp eq_refl ltac:(intro K; discriminate K) ltac:(intro K; discriminate K)) eq_refl)).
    assert (V : eval _ _ nlib (ECall (pkg "conn" "QueueSubscribe") [EStr (svc ++ T "." ++ sm_name m); EStr svc; ECall (ESel (ESel (v "srv") (sm_name m)) (T "ServeMsg")) [v "conn"]]) env w 2 =
      match refuses (Rpc.nats_subject svc (sm_name m)) with Some e => Some ([VNil; VObj (NErr e)], w) | None => Some ([VObj NSubscription; VNil], add w [m]) end).
    { unfold v, pkg. cbn -[env lookup T l_call l_meth serve_msg nserver]. unfold v. cbn -[env lookup T l_call l_meth serve_msg nserver]. rewrite L1, L2. change (nserver os) with (VStruct [kw "natsServer"] (map (fun m => (sm_name m, subscriber os m)) ms)). cbv iota.
      rewrite (lookup_row sm_name (subscriber os) ms m Hn Hm). unfold nlib, subscriber. cbn -[env lookup serve_msg Rpc.nats_subject]. change (svc ++ 46%N :: sm_name m) with (Rpc.nats_subject svc (sm_name m)). destruct (refuses _); reflexivity. }
    assert (K1 : str_eqb (low_sub m) (T "_") = false) by (destruct (low_sub_ends m) as (a & ->); change (T "_") with ([] ++ T "_"); change (T "ub") with (T "u" ++ T "b"); rewrite app_assoc; apply tails; [reflexivity|intro K; discriminate K]).
    assert (K2 : str_eqb (low_sub m) (T "err") = false) by (destruct (low_sub_ends m) as (a & ->); exact (tails a (T "e") (T "ub") (T "rr") eq_refl ltac:(intro K; discriminate K))).
    unfold nats_subscribe.
    assert (S1 : forall x y w1, eval _ _ nlib (ECall (pkg "conn" "QueueSubscribe") [EStr (svc ++ T "." ++ sm_name m); EStr svc; ECall (ESel (ESel (v "srv") (sm_name m)) (T "ServeMsg")) [v "conn"]]) env w 2 = Some ([x; y], w1) ->
      exec _ _ nlib (SDef [low_sub m; T "err"] (ECall (pkg "conn" "QueueSubscribe") [EStr (svc ++ T "." ++ sm_name m); EStr svc; ECall (ESel (ESel (v "srv") (sm_name m)) (T "ServeMsg")) [v "conn"]])) env w = Next ((T "err", y) :: (low_sub m, x) :: env) w1).
    { intros x y w1 H. cbn [exec length eval_into]. rewrite H. cbn [binds]. unfold bind. rewrite K1. reflexivity. }
    destruct (refuses _) as [e|].
    - eexists. rewrite (PropGlue.block_step _ _ _ _ _ _ _ _ _ (S1 _ _ _ V)). apply (PropGlue.block_return _ _ nlib). unfold if_err. rewrite PropGlue.exec_if. cbn -[env low_sub skipn Nat.sub]. unfold eval1. cbn -[env low_sub skipn Nat.sub]. reflexivity.
    - exists ((T "err", VNil) :: (low_sub m, VObj NSubscription) :: pre). split.
      + intros p [<-|[<-|Hin]]; [left; reflexivity|right; apply low_sub_ends|apply Hp; exact Hin].
      + rewrite (PropGlue.block_step _ _ _ _ _ _ _ _ _ (S1 _ _ _ V)).
        assert (S2 : exec _ _ nlib (if_err [v "err"]) ((T "err", VNil) :: (low_sub m, VObj NSubscription) :: env) (add w [m]) = Next ((T "err", VNil) :: (low_sub m, VObj NSubscription) :: env) (add w [m])).
        { unfold if_err. rewrite PropGlue.exec_if. cbn -[env low_sub skipn Nat.sub add]. rewrite Nat.sub_diag. reflexivity. }
        rewrite (PropGlue.block_step _ _ _ _ _ _ _ _ _ S2). unfold exec_block. cbn [block_of exec eval_into length eval lookup]. rewrite K2, str_eqb_refl. reflexivity.
  Qed.
  Lemma serve_block os rest : forall todo pre w, incl todo ms -> sub_env pre -> (forall m, In m todo -> refuses (Rpc.nats_subject svc (sm_name m)) = None) ->
    exists pre', sub_env pre' /\ exec_block _ _ nlib (flat_map (nats_subscribe svc) todo ++ rest) (pre ++ sbase os) w = exec_block _ _ nlib rest (pre' ++ sbase os) (add w todo).
  Proof.
    induction todo as [|m todo IH]; intros pre w Hi Hp Hr.
    - exists pre. split; [exact Hp|]. unfold add. cbn [map flat_map app]. rewrite app_nil_r. destruct w; reflexivity.
    - pose proof (subscribe_runs os pre m w (Hi m (or_introl eq_refl)) Hp) as R. rewrite (Hr m (or_introl eq_refl)) in R. destruct R as (p1 & H1 & R).
      destruct (IH p1 (add w [m]) (fun y Hy => Hi y (or_intror Hy)) H1 (fun y Hy => Hr y (or_intror Hy))) as (p2 & H2 & R2). exists p2. split; [exact H2|]. cbn [flat_map]. rewrite <- app_assoc, PropGlue.block_app, R, R2. unfold add. cbn [w_data w_sent w_subs map]. rewrite <- app_assoc. reflexivity.
  Qed.
  Lemma serve_all os w : (forall m, In m ms -> refuses (Rpc.nats_subject svc (sm_name m)) = None) ->
    let r := run (serve_nats_fun svc ms) [] [VObj NConn; nserver os] w in results r = Some [VNil] /\ after r = Some (add w ms).
  Proof.
    intros Hr r. destruct (serve_block os [SRet [ENil]] ms [] w (incl_refl _) (fun p H => match H with end) Hr) as (pre & _ & R). unfold r, run_func, run_body. cbn [f_recv f_params f_body serve_nats_fun app map fst].
    change (binds nob _ _ _) with (sbase os). cbn [app] in R. rewrite R. split; reflexivity.
  Qed.
  Lemma serve_refused os w l m l' e : ms = l ++ m :: l' -> (forall x, In x l -> refuses (Rpc.nats_subject svc (sm_name x)) = None) -> refuses (Rpc.nats_subject svc (sm_name m)) = Some e ->
    let r := run (serve_nats_fun svc ms) [] [VObj NConn; nserver os] w in results r = Some [VObj (NErr e)] /\ after r = Some (add w l).
  Proof.
    intros Em Hl He r. assert (I : incl l ms) by (intros y Hy; rewrite Em; apply in_or_app; left; exact Hy). assert (Im : In m ms) by (rewrite Em; apply in_or_app; right; left; reflexivity).
    destruct (serve_block os (nats_subscribe svc m ++ flat_map (nats_subscribe svc) l' ++ [SRet [ENil]]) l [] w I (fun p H => match H with end) Hl) as (pre & Hp & R).
    pose proof (subscribe_runs os pre m (add w l) Im Hp) as R2. rewrite He in R2. destruct R2 as (env & R2).
    unfold r, run_func, run_body. cbn [f_recv f_params f_body serve_nats_fun app map fst]. change (binds nob _ _ _) with (sbase os).
    assert (Q : flat_map (nats_subscribe svc) ms ++ [SRet [ENil]] = flat_map (nats_subscribe svc) l ++ nats_subscribe svc m ++ flat_map (nats_subscribe svc) l' ++ [SRet [ENil]]) by (rewrite Em, flat_map_app; cbn [flat_map]; rewrite <- !app_assoc; reflexivity).
    rewrite Q. cbn [app] in R. rewrite R, PropGlue.block_app, R2. split; reflexivity.
  Qed.
  (** What is subscribed answers as Rpc.v says: [f] is the method of the service. *)
  Definition ep_of (ty : str) (f : Rpc.msg P -> Rpc.msg P * option str) : nendpoint := fun q => match f (snd q) with (_, Some e) => Some (None, Some e) | (r, None) => Some (Some (ty, r), None) end.
  Lemma handler_answers m f d : In m ms -> eps (sm_name m) = ep_of (resp_name m) f ->
    snd (subscribed m) d = Some (Rpc.nats_serve P dec_text enc_text (struct_of (req_name m)) (struct_of (resp_name m)) f d).
  Proof.
    intros Hm He. unfold subscribed, serve_msg. cbn [snd]. rewrite decode_req by exact Hm. unfold Rpc.nats_serve. destruct (Rpc.unmarshal _ _ _) as [q|]; [|reflexivity]. rewrite He. unfold ep_of. cbn [snd].
    destruct (f q) as [r [e|]]; [reflexivity|]. rewrite encode_reply_runs. destruct (Rpc.marshal _ _ _); reflexivity.
  Qed.
  (** *** NewNATSClient *)
  Definition nats_client (m : smethod) : nendpoint := publish (Rpc.nats_subject svc (sm_name m)) (T "EncodeNATSGenericRequest") (nats_dec_resp m).
  Definition nbase (os : list nat) : genv nob := [(T "options", noptions os); (T "conn", VObj NConn)].
  Definition nmade (l : list smethod) : genv nob := map (fun m => (low_var m, VObj (NEp (nats_client m)))) l.
  Lemma nendpoint_runs os l m w : In m ms -> exec_block _ _ nlib (nats_endpoint svc m) (nmade l ++ nbase os) w = Next (nmade (m :: l) ++ nbase os) w.
  Proof.
    intro Hm. unfold nats_endpoint.
    assert (K : str_eqb (low_var m) (T "_") = false) by (unfold low_var; change (T "_") with ([] ++ T "_"); change (T "Endpoint") with (T "Endpoin" ++ T "t"); rewrite app_assoc; apply tails; [reflexivity|intro K; discriminate K]).
    assert (S1 : exec _ _ nlib (SVar (low_var m) endpoint_ty) (nmade l ++ nbase os) w = Next ((low_var m, VNil) :: nmade l ++ nbase os) w) by (cbn [exec l_zero nlib]; unfold bind; rewrite K; reflexivity).
    rewrite (PropGlue.block_step _ _ _ _ _ _ _ _ _ S1). clear S1.
    set (env := (low_var m, VNil) :: nmade l ++ nbase os).
    assert (Look : forall x, (forall b, str_eqb x (b ++ T "Endpoint") = false) -> lookup _ x env = lookup _ x (nbase os)).
    { intros x H. unfold env. cbn [lookup]. unfold low_var at 1. rewrite H. apply lookup_skip. intros p Hp. apply in_map_iff in Hp. destruct Hp as (y & <- & _). apply H. }
    assert (L1 : lookup _ (T "natstransport") env = None) by (rewrite Look; [reflexivity|intro b; exact (not_var (T "natstranspo") (T "rt") b eq_refl ltac:(intro Q; discriminate Q))]).
    assert (L2 : lookup _ (T "conn") env = Some (VObj NConn)) by (rewrite Look; [reflexivity|intro b; exact (not_var (T "co") (T "nn") b eq_refl ltac:(intro Q; discriminate Q))]).
    assert (L3 : lookup _ (T "options") env = Some (noptions os)) by (rewrite Look; [reflexivity|intro b; exact (not_var (T "optio") (T "ns") b eq_refl ltac:(intro Q; discriminate Q))]).
    assert (L4 : lookup _ (T "EncodeNATSGenericRequest") env = None) by (rewrite Look; [reflexivity|intro b; exact (not_var (T "EncodeNATSGenericReque") (T "st") b eq_refl ltac:(intro Q; discriminate Q))]).
    assert (L5 : lookup _ (nats_dec_resp m) env = None).
    { rewrite Look; [reflexivity|]. intro b. unfold nats_dec_resp. change (T "Response") with (T "Respon" ++ T "se"). rewrite !app_assoc. apply not_var; [reflexivity|intro Q; discriminate Q]. }
    pose proof (nfind_generic nats_encode_request_fun (or_intror (or_introl eq_refl))) as G; cbn [f_name nats_encode_request_fun] in G.
    assert (V : eval _ _ nlib (ECall (ESel (ECallC (pkg "natstransport" "NewPublisher")
       [v "conn"; EStr (svc ++ T "." ++ sm_name m); v "EncodeNATSGenericRequest"; EVar (nats_dec_resp m); ESpread (v "options")]) (T "Endpoint")) []) env w 1 = Some ([VObj (NEp (nats_client m))], w)).
    { unfold v, pkg. cbn -[env lookup noptions named noptions_in nats_dec_resp publish str_eqb names T l_call nats_encode_request_fun]. unfold v. cbn -[env lookup noptions named noptions_in nats_dec_resp publish str_eqb names T l_call nats_encode_request_fun]. rewrite L1, L2, L3, L4, L5. cbn -[env lookup noptions named noptions_in nats_dec_resp publish str_eqb names T l_call nats_encode_request_fun]. rewrite G, nfind_resp by exact Hm.
      cbn -[env lookup noptions named noptions_in nats_dec_resp publish T l_call]. unfold nlib at 1. cbn [l_call]. cbn -[env lookup noptions named noptions_in nats_dec_resp publish]. rewrite noptions_made. reflexivity. }
    unfold exec_block. cbn [block_of exec]. unfold eval_into. cbn [length]. rewrite V. cbn [assigns assign]. rewrite K. unfold env. cbn [update]. rewrite str_eqb_refl.
    unfold leave. cbn [length]. rewrite Nat.sub_diag. reflexivity.
  Qed.
  Lemma nclient_block os w : forall todo l rest, incl todo ms -> exec_block _ _ nlib (flat_map (nats_endpoint svc) todo ++ rest) (nmade l ++ nbase os) w = exec_block _ _ nlib rest (nmade (rev todo ++ l) ++ nbase os) w.
  Proof.
    induction todo as [|m todo IH]; intros l rest Hi; [reflexivity|]. cbn [flat_map]. rewrite <- app_assoc, PropGlue.block_app, nendpoint_runs by (apply Hi; left; reflexivity).
    rewrite IH by (intros y Hy; apply Hi; right; exact Hy). cbn [rev]. rewrite <- app_assoc. reflexivity.
  Qed.
  Definition nclient_struct : gval nob := VStruct [kw "Endpoints"] (map (fun m => (field m, VObj (NEp (nats_client m)))) ms).
  Lemma new_nats_runs os w : results (run (new_nats_fun svc ms) [] [VObj NConn; noptions os] w) = Some [nclient_struct; VNil].
  Proof.
    unfold run_func, run_body. cbn [f_recv f_params f_body new_nats_fun app map fst]. set (env0 := binds _ _ _ _). assert (E0 : env0 = nmade [] ++ nbase os) by reflexivity. clearbody env0. subst env0.
    rewrite nclient_block by apply incl_refl. rewrite app_nil_r.
    assert (L : eval _ _ nlib (ELit [kw "Endpoints"] (map endpoint_field ms)) (nmade (rev ms) ++ nbase os) w 1 = Some ([nclient_struct], w)).
    { refine (eval_lit nlib [kw "Endpoints"] endpoint_field (fun m => VObj (NEp (nats_client m))) _ w ms _). intros m Hm. unfold endpoint_field. cbn [snd eval].
      assert (N : NoDup (map low_var (rev ms))) by (rewrite map_rev; apply NoDup_rev; exact (nodup_suffix low (T "Endpoint") ms Hlow)).
      rewrite (lookup_app _ _ _ (VObj (NEp (nats_client m)))) by (apply (lookup_row low_var (fun m => VObj (NEp (nats_client m))) (rev ms) m N); apply in_rev in Hm; exact Hm). reflexivity. }
    unfold exec_block. cbn [block_of exec eval_all]. unfold eval1. cbn [eval]. cbn [eval] in L. rewrite L. reflexivity.
  Qed.
  (** A method of the client *)
  Definition answered (m : smethod) (d : str) : option (list (gval nob)) :=
    match network (Rpc.nats_subject svc (sm_name m)) d with
    | inr e => Some [VNil; VObj (NErr e)]
    | inl reply => match Rpc.unmarshal P (struct_of (resp_name m)) reply with Some r => Some [VObj (NMsg (resp_name m, r)); VNil] | None => Some [VNil; VObj (NErr dec_text)] end
    end.
  Lemma nclient_call_runs m x w : In m ms -> results (run (call_fun m) [nclient_struct] [VObj NCtx; VObj (NMsg (req_name m, x))] w) =
    match Rpc.marshal P (struct_of (req_name m)) x with None => Some [VNil; VObj (NErr enc_text)] | Some d => answered m d end.
  Proof.
    intro Hm. unfold run_func, run_body, call_fun. cbn -[field nclient_struct publish resp_name req_name].
    change nclient_struct with (VStruct (O := nob) [kw "Endpoints"] (map (fun m => (field m, VObj (NEp (nats_client m)))) ms)). cbn -[field publish resp_name req_name nats_client].
    rewrite (lookup_row field (fun m => VObj (NEp (nats_client m))) ms m nnodup_field Hm). cbn -[field publish resp_name req_name nats_client].
    unfold nats_client, publish, answered. rewrite encode_request_runs. destruct (Rpc.marshal _ _ _) as [d|]; [|cbn -[resp_name]; unfold eval1; cbn -[resp_name]; reflexivity].
    destruct (network _ _) as [y|e]; [|cbn -[resp_name]; unfold eval1; cbn -[resp_name]; reflexivity]. rewrite decode_resp by exact Hm. destruct (Rpc.unmarshal _ _ _); [|cbn -[resp_name]; unfold eval1; cbn -[resp_name]; reflexivity].
    cbn -[resp_name]. unfold eval1, is_type. cbn -[resp_name]. rewrite str_eqb_refl. reflexivity.
  Qed.
End Nats.
