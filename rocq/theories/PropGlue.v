(** C87: the functions of the generated baron file around the endpoints and the context do what the models of C32, C33, C53, C54 and C55 say: read as Go (GoLex.v, GoDecls.v) they are programs of GoGlue.v,
    and these compute what Middleware.v and Context.v compute. *)
From Coq Require Import String Lia Permutation.
From Verif Require Import GoStr GoStrProofs GoMap Strs StrsSpec SvcTypes GoLex GoDecls GoGlue GlueProg.
From Verif Require TextProofs Middleware Context PropMiddleware Generator Render PropGoFile FileAll FileHead FileHttp FileGrpc TextFile DecoderTexts HttpTransport.

(** ** Steps of the semantics *)
Section Steps.
  Variables O W : Type.
  Variable lib : golib O W.
  Notation exec := (exec O W lib).
  Notation exec_block := (exec_block O W lib).
  Notation loop := (loop_of O W exec).
  Lemma exec_range xs e body env w : exec (SRange xs e body) env w =
    match eval O W lib e env w 1 with Some ([x], w1) => match visits O W lib x w1 with Some l => loop xs body l env w1 | None => Panic end | _ => Panic end.
  Proof. reflexivity. Qed.
  Lemma exec_if i c body env w : exec (SIf i c body) env w =
    leave O W env (match (match i with Some s => exec s env w | None => Next env w end) with
      | Next env1 w1 => match eval O W lib c env1 w1 1 with Some ([VBool true], w2) => exec_block body env1 w2 | Some ([VBool false], w2) => Next env1 w2 | _ => Panic end
      | r => r end).
  Proof. reflexivity. Qed.
  Lemma block_app a b env w : exec_block (a ++ b) env w = match exec_block a env w with Next env1 w1 => exec_block b env1 w1 | r => r end.
  Proof. revert env w. induction a as [|s a IH]; intros env w; [reflexivity|]. unfold GoGlue.exec_block in *. cbn [app block_of]. destruct (exec s env w); [apply IH|reflexivity|reflexivity]. Qed.
  Lemma block_step s l env w env1 w1 : exec s env w = Next env1 w1 -> exec_block (s :: l) env w = exec_block l env1 w1. Proof. intro H. unfold GoGlue.exec_block. cbn [block_of]. rewrite H. reflexivity. Qed.
  Lemma block_panic s l env w : exec s env w = Panic -> exec_block (s :: l) env w = Panic. Proof. intro H. unfold GoGlue.exec_block. cbn [block_of]. rewrite H. reflexivity. Qed.
  Lemma block_return s l env w vs env1 w1 : exec s env w = Return vs env1 w1 -> exec_block (s :: l) env w = Return vs env1 w1. Proof. intro H. unfold GoGlue.exec_block. cbn [block_of]. rewrite H. reflexivity. Qed.
  Lemma range_runs xs e body env w x w1 l : eval O W lib e env w 1 = Some ([x], w1) -> visits O W lib x w1 = Some l -> exec (SRange xs e body) env w = loop xs body l env w1.
  Proof. intros H1 H2. rewrite exec_range, H1, H2. reflexivity. Qed.
End Steps.

(** What a call returns; None is a panic. *)
Definition results {O W} (f : flow O W) : option (list (gval O)) := match f with Return vs _ _ => Some vs | _ => None end.
(** The parameters after it, and the library's state *)
Definition param {O W} (x : str) (f : flow O W) : option (gval O) := match f with Return _ env _ => lookup O x env | _ => None end.
Definition after {O W} (f : flow O W) : option W := match f with Return _ _ w => Some w | _ => None end.

(** ** Endpoints (C53) *)
Section Endpoints.
  Variables Req Resp Err : Type.
  Variable m : smethod.
  Variable svc : str.
  Inductive ob := OCtx | OReq (r : Req) | OResp (r : Resp) | OErr (e : Err) | OEndpoint (ep : Middleware.endpoint Req Resp Err) | OService (s : Req -> Resp * option Err).
  Definition some_err (e : option Err) : gval ob := match e with Some e => VObj (OErr e) | None => VNil end.
  (** The service has the method, an endpoint can be called, and pointers to the two messages have their types. *)
  Definition lib1 : golib ob unit := mkLib _ _
    (fun _ _ _ => None)
    (fun n x args w => match x, args with VObj (OService s), [VObj OCtx; VObj (OReq r)] => if str_eqb n (sm_name m) then Some ([VObj (OResp (fst (s r))); some_err (snd (s r))], w) else None | _, _ => None end)
    (fun _ _ _ => None) (fun _ => None) (fun _ _ => false)
    (fun x args w => match x, args with OEndpoint ep, [VObj OCtx; VObj (OReq r)] => Some ([match fst (ep r) with Some v => VObj (OResp v) | None => VNil end; some_err (snd (ep r))], w) | _, _ => None end)
    (fun ty x => match ty, x with [Op _; Word n], VObj (OReq _) => str_eqb n (req_name m) | [Op _; Word n], VObj (OResp _) => str_eqb n (resp_name m) | _, _ => false end)
    (fun _ => VNil) (fun _ _ => None) (fun l => l).
  (** The method of Endpoints: it calls the endpoint in its field. *)
  Lemma call_runs ty fs (ep : Req -> option Resp * option Err) r : lookup _ (field m) fs = Some (VObj (OEndpoint ep)) ->
    results (run_func _ _ lib1 (call_fun m) [VStruct ty fs] [VObj OCtx; VObj (OReq r)] tt) =
    match ep r with (_, Some e) => Some [VNil; VObj (OErr e)] | (Some x, None) => Some [VObj (OResp x); VNil] | (None, None) => None end.
  Proof.
    intro F. unfold run_func, run_body, call_fun. cbn -[field resp_name req_name]. rewrite F. destruct (ep r) as [[x|] [e|]]; cbn -[field resp_name req_name]; rewrite ?str_eqb_refl; cbn -[field resp_name req_name]; unfold eval1, is_type; cbn -[field resp_name req_name]; rewrite ?str_eqb_refl; reflexivity.
  Qed.
  (** Make...Endpoint: what it returns, called, calls the service. *)
  Lemma make_runs s : exists f, results (run_func _ _ lib1 (make_fun svc m) [] [VObj (OService s)] tt) = Some [f] /\ forall r,
    results (run_closure _ _ lib1 f [VObj OCtx; VObj (OReq r)] tt) = match s r with (_, Some e) => Some [VNil; VObj (OErr e)] | (x, None) => Some [VObj (OResp x); VNil] end.
  Proof.
    eexists. split; [reflexivity|]. intro r. unfold run_closure, run_body. cbn -[req_name resp_name]. unfold is_type. cbn -[req_name resp_name]. rewrite str_eqb_refl. cbn -[req_name resp_name].
    rewrite str_eqb_refl. destruct (s r) as [x [e|]]; cbn; reflexivity.
  Qed.
End Endpoints.

(** ** Middlewares (C32) *)
Section Wrap.
  Variable E : Type.
  Inductive ob2 := OEp (x : E) | OMiddleware (mw : E -> E) | OLabeled (mw : str -> E -> E).
  (** panic, fmt.Sprintf, and calls of a middleware; [order]: how the map is visited *)
  Definition lib2 (order : list str -> list str) : golib ob2 unit := mkLib _ _
    (fun f _ w => if list_eq_dec (list_eq_dec N.eq_dec) f [T "fmt"; T "Sprintf"] then Some ([VStr []], w) else None)
    (fun _ _ _ _ => None) (fun _ _ _ => None) (fun _ => None) (fun _ _ => false)
    (fun x args w => match x, args with OMiddleware mw, [VObj (OEp y)] => Some ([VObj (OEp (mw y))], w) | OLabeled mw, [VStr n; VObj (OEp y)] => Some ([VObj (OEp (mw n y))], w) | _, _ => None end)
    (fun _ _ => false) (fun _ => VNil) (fun _ _ => None) order.
  (** The struct of endpoints *)
  Definition fields (names : list str) (e : Middleware.endpoints E) : list (str * gval ob2) := map (fun n => (n ++ T "Endpoint", VObj (OEp (e n)))) names.
  Lemma same_field a b : str_eqb (a ++ T "Endpoint") (b ++ T "Endpoint") = str_eqb a b.
  Proof. destruct (str_eqb a b) eqn:K; [apply str_eqb_eq in K; subst; apply str_eqb_refl|]. destruct (str_eqb (a ++ _) (b ++ _)) eqn:K2; [|reflexivity]. apply str_eqb_eq in K2. apply app_inv_tail in K2. subst. rewrite str_eqb_refl in K. discriminate K. Qed.
  Lemma get_field names e n : In n names -> lookup _ (n ++ T "Endpoint") (fields names e) = Some (VObj (OEp (e n))).
  Proof.
    induction names as [|a l IH]; intros []; cbn [fields map lookup]; rewrite same_field.
    - subst a. rewrite str_eqb_refl. reflexivity.
    - destruct (str_eqb n a) eqn:K; [apply str_eqb_eq in K; subst; reflexivity|]. apply IH. assumption.
  Qed.
  Lemma put_field names e n y : NoDup names -> update _ (n ++ T "Endpoint") (VObj (OEp y)) (fields names e) = fields names (Middleware.set_endpoint E e n y).
  Proof.
    induction names as [|a l IH]; intro H; [reflexivity|]. inversion H as [|? ? Ha Hl]; subst. cbn [fields map update]. rewrite same_field. unfold Middleware.set_endpoint at 1. destruct (str_eqb n a) eqn:K.
    - apply str_eqb_eq in K. subst a. rewrite str_eqb_refl. f_equal. apply map_ext_in. intros b Hb. unfold Middleware.set_endpoint. destruct (str_eqb b n) eqn:K; [apply str_eqb_eq in K; subst; contradiction|reflexivity].
    - assert (K2 : str_eqb a n = false) by (destruct (str_eqb a n) eqn:K2; [apply str_eqb_eq in K2; subst; rewrite str_eqb_refl in K; discriminate K|reflexivity]). rewrite K2. f_equal. apply IH. exact Hl.
  Qed.
  Variable order : list str -> list str.
  Notation lib := (lib2 order).
  Variable ty : list token.
  Variables (labeled : bool) (names : list str) (mwo : ob2) (mw : str -> E -> E) (excluded : gval ob2).
  Hypothesis Hmw : match mwo with OMiddleware f => labeled = false /\ mw = (fun _ => f) | OLabeled f => labeled = true /\ mw = f | OEp _ => False end.
  Hypothesis Hn : NoDup names.
  Definition inside (m : gomap unit) (e : Middleware.endpoints E) : genv ob2 := [(T "included", VKeys m); (T "excluded", excluded); (T "middleware", VObj mwo); (T "e", VStruct ty (fields names e))].
  Lemma exclude_loop xs : forall m e, loop_of _ _ (exec _ _ lib) [T "_"; T "ex"]
     (match nth 1 (f_body (wrap_fun labeled names)) (SRet []) with SRange _ _ b => b | _ => [] end) (map (fun s => (VNil, VStr s)) xs) (inside m e) tt =
     match Middleware.exclude m xs with Some m' => Next (inside m' e) tt | None => Panic end.
  Proof.
    induction xs as [|x xs IH]; intros m e; [reflexivity|]. cbn [nth f_body wrap_fun map loop_of Middleware.exclude]. specialize (IH (mdel m x) e). cbn [nth f_body wrap_fun] in IH. destruct (mget m x) eqn:Em.
    - match goal with |- match ?a with _ => _ end = _ => assert (A : a = Next (inside (mdel m x) e) tt) end; [|rewrite A; exact IH]. cbn. rewrite Em. reflexivity.
    - cbn. rewrite Em. reflexivity.
  Qed.
  Lemma wrap_one_runs m k e n : In n names -> exec _ _ lib (wrap_one labeled n) ((T "inc", VStr k) :: inside m e) tt = Next ((T "inc", VStr k) :: inside m (if str_eqb k n then Middleware.set_endpoint E e n (mw n (e n)) else e)) tt.
  Proof.
    intro Hin. unfold wrap_one. rewrite exec_if. unfold inside. cbn -[fields app]. destruct (str_eqb k n); [|reflexivity].
    destruct mwo as [x|f|f]; [destruct Hmw| |]; destruct Hmw as [-> ->]; cbn -[fields app]; cbn [app]; cbn -[fields app]; rewrite get_field by exact Hin; cbn -[fields app]; rewrite put_field by exact Hn; reflexivity.
  Qed.
  Lemma wrap_key_runs m k e : exec_block _ _ lib (map (wrap_one labeled) names) ((T "inc", VStr k) :: inside m e) tt = Next ((T "inc", VStr k) :: inside m (Middleware.wrap_key E names mw e k)) tt.
  Proof.
    assert (G : forall ns e, incl ns names -> exec_block _ _ lib (map (wrap_one labeled) ns) ((T "inc", VStr k) :: inside m e) tt = Next ((T "inc", VStr k) :: inside m (Middleware.wrap_key E ns mw e k)) tt); [|apply G; apply incl_refl].
    induction ns as [|n ns IH]; intros e0 Hi; [reflexivity|]. cbn [map]. unfold exec_block in *. cbn [block_of]. rewrite wrap_one_runs by (apply Hi; left; reflexivity). rewrite IH by (intros a Ha; apply Hi; right; exact Ha). reflexivity.
  Qed.
  Lemma include_loop ks : forall m e, loop_of _ _ (exec _ _ lib) [T "inc"] (map (wrap_one labeled) names) (map (fun s => (VStr s, VNil)) ks) (inside m e) tt = Next (inside m (fold_left (Middleware.wrap_key E names mw) ks e)) tt.
  Proof.
    induction ks as [|k ks IH]; intros m e; [reflexivity|]. cbn [map loop_of fold_left]. 
    change (block_of ob2 unit (exec ob2 unit lib) (map (wrap_one labeled) names) (binds ob2 [T "inc"] [VStr k; VNil] (inside m e)) tt) with (exec_block _ _ lib (map (wrap_one labeled) names) ((T "inc", VStr k) :: inside m e) tt).
    rewrite wrap_key_runs. exact (IH m (Middleware.wrap_key E names mw e k)).
  Qed.
End Wrap.
(** A slice of strings, as the arguments of a variadic parameter: nil if there are none *)
Definition slice {O} (l : list str) : gval O := match l with [] => VNil | _ => VStrs l end.
Lemma slice_visits {O W} (lib : golib O W) l w : visits O W lib (slice l) w = Some (map (fun s => (VNil, VStr s)) l). Proof. destruct l; reflexivity. Qed.
Lemma wrap_runs E order ty labeled names mwo mw xs e :
  match mwo with OMiddleware _ f => labeled = false /\ mw = (fun _ => f) | OLabeled _ f => labeled = true /\ mw = f | OEp _ _ => False end -> NoDup names ->
  run_func _ _ (lib2 E order) (wrap_fun labeled names) [VStruct ty (fields E names e)] [VObj mwo; slice xs] tt =
  match Middleware.exclude (Middleware.included names) xs with
  | None => Panic
  | Some m => Return [] (inside E ty names mwo (slice xs) m (fold_left (Middleware.wrap_key E names mw) (order (keys m)) e)) tt
  end.
Proof.
  intros Hmw Hn. unfold run_func, run_body. cbn [wrap_fun f_recv f_params f_body app map fst binds]. 
  change (binds (ob2 E) [T "e"; T "middleware"; T "excluded"] [VStruct ty (fields E names e); VObj mwo; slice xs] []) with [(T "excluded", slice xs); (T "middleware", VObj mwo); (T "e", VStruct ty (fields E names e))].
  rewrite (block_step _ _ (lib2 E order) _ _ _ _ (inside E ty names mwo (slice xs) (Middleware.included names) e) tt) by reflexivity.
  pose proof (exclude_loop E order ty labeled names mwo (slice xs) xs (Middleware.included names) e) as X. cbn [nth f_body wrap_fun] in X. rewrite <- (range_runs _ _ _ _ (v "excluded") _ _ tt (slice xs)) in X by (try reflexivity; apply slice_visits).
  destruct (Middleware.exclude (Middleware.included names) xs) as [m|]; [|rewrite (block_panic _ _ _ _ _ _ _ X); reflexivity]. rewrite (block_step _ _ _ _ _ _ _ _ _ X).
  pose proof (include_loop E order ty labeled names mwo mw (slice xs) Hmw Hn (order (keys m)) m e) as Y. rewrite <- (range_runs _ _ _ _ (v "included") _ _ tt (VKeys m)) in Y by reflexivity.
  rewrite (block_step _ _ _ _ _ _ _ _ _ Y). reflexivity.
Qed.

(** ** The context (C33, C54, C55) *)
Section Ctx.
  Inductive ob3 := OCtx3 (c : Context.ctx) | OOther (n : nat) | ORequest (path : str) | OHeader | OUrl (path : str) | OMd (md : Context.metadata).
  Definition cval_of (x : option Context.cval) : gval ob3 := match x with None => VNil | Some (Context.VStr s) => VStr s | Some (Context.VOther n) => VObj (OOther n) end.
  Definition strs_of (x : gval ob3) : option (list str) := match x with VNil => Some [] | VStrs l => Some l | _ => None end.
  Fixpoint str_args (l : list (gval ob3)) : option (list str) := match l with [] => Some [] | VStr s :: l' => option_map (cons s) (str_args l') | _ => None end.
  Fixpoint pair_up (l : list str) : option (list (str * str)) := match l with [] => Some [] | a :: b :: l' => option_map (cons (a, b)) (pair_up l') | _ => None end.
  Definition is_fun (f : list str) (p n : string) : bool := if list_eq_dec (list_eq_dec N.eq_dec) f [T p; T n] then true else false.
  (** The library on contexts, headers and metadata, as Context.v has it.  The headers of the request are what can change; [order]: how maps are visited.
      An option of the client holds the function that it calls with each request before it is sent. *)
  Variable order : list str -> list str.
  Definition lib3 : golib ob3 Context.header := mkLib _ _
    (fun f args w =>
       if is_fun f "context" "WithValue" then match args with [VObj (OCtx3 c); VStr k; VStr x] => Some ([VObj (OCtx3 (Context.with_value c (Context.KStr k) (Context.VStr x)))], w) | _ => None end
       else if is_fun f "strings" "ToLower" then match args with [VStr k] => Some ([VStr (to_lower k)], w) | _ => None end
       else if is_fun f "http" "CanonicalHeaderKey" then match args with [VStr k] => Some ([VStr (Context.canonical k)], w) | _ => None end
       else if is_fun f "httptransport" "ClientBefore" then match args with [g] => Some ([VStruct [kw "ClientOption"] [(T "before", g)]], w) | _ => None end
       else if is_fun f "metadata" "Pairs" then match args with [x] => match strs_of x with Some l => match pair_up l with Some ps => Some ([VObj (OMd (Context.md_pairs ps))], w) | None => None end | None => None end | _ => None end
       else if is_fun f "metadata" "Join" then match args with [VObj (OMd a); VObj (OMd b)] => Some ([VObj (OMd (Context.md_join a b))], w) | _ => None end
       else match f, args with
            | [g], x :: more => if str_eqb g (T "append") then match strs_of x, str_args more with Some l, Some ys => Some ([slice (l ++ ys)], w) | _, _ => None end else None
            | _, _ => None
            end)
    (fun n x args w => match x, args with
       | VObj (OCtx3 c), [VStr k] => if str_eqb n (T "Value") then Some ([cval_of (Context.value c (Context.KStr k))], w) else None
       | VObj OHeader, [VStr k] => if str_eqb n (T "Get") then Some ([VStr (Context.h_get w k)], w) else None
       | VObj OHeader, [VStr k; VStr x] => if str_eqb n (T "Set") then Some ([], Context.h_set w k x) else None
       | _, _ => None end)
    (fun f x _ => match x with
       | VObj (ORequest p) => if str_eqb f (T "Header") then Some (VObj OHeader) else if str_eqb f (T "URL") then Some (VObj (OUrl p)) else None
       | VObj (OUrl p) => if str_eqb f (T "Path") then Some (VStr p) else None
       | _ => None end)
    (fun _ => None) (fun _ _ => false)
    (fun _ _ _ => None)
    (fun ty x => match ty, x with [Word n], VStr _ => str_eqb n (T "string") | _, _ => false end)
    (fun ty => match ty with [Word n] => if str_eqb n (T "string") then VStr [] else VNil | _ => VNil end)
    (fun x w => match x with
       | VObj OHeader => Some (map (fun k => (VStr k, match mget w k with Some l => VStrs l | None => VNil end)) (order (keys w)))
       | VObj (OMd md) => Some (map (fun k => (VStr k, match mget md k with Some (Some l) => VStrs l | _ => VNil end)) (order (keys md)))
       | _ => None end)
    order.
  Notation run := (run_func _ _ lib3).
  (** *** HTTPHeadersToContext *)
  Definition head_env (p : str) (c : Context.ctx) : genv ob3 := [(T "r", VObj (ORequest p)); (T "ctx", VObj (OCtx3 c))].
  Lemma headers_loop p h g ks : forall c, loop_of _ _ (exec _ _ lib3) [T "k"] (match nth 0 (f_body headers_fun) (SRet []) with SRange _ _ b => b | _ => [] end) (map (fun k => (VStr k, g k)) ks) (head_env p c) h =
    Next (head_env p (fold_left (Context.header_to_ctx h) ks c)) h.
  Proof.
    induction ks as [|k ks IH]; intro c; [reflexivity|]. cbn [nth f_body headers_fun map loop_of fold_left]. specialize (IH (Context.header_to_ctx h c k)). cbn [nth f_body headers_fun] in IH.
    match goal with |- match ?a with _ => _ end = _ => assert (A : a = Next (head_env p (Context.header_to_ctx h c k)) h) end; [|rewrite A; exact IH]. reflexivity.
  Qed.
  Lemma headers_run p h c : exists env, run headers_fun [] [VObj (OCtx3 c); VObj (ORequest p)] h = Return [VObj (OCtx3 (Context.http_headers_to_context (order (keys h)) h p c))] env h.
  Proof.
    unfold run_func, run_body. pose proof (headers_loop p h (fun k => match mget h k with Some l => VStrs l | None => VNil end) (order (keys h)) c) as X. cbn [nth f_body headers_fun] in X.
    rewrite <- (range_runs _ _ _ _ (ESel (v "r") (T "Header")) _ _ h (VObj OHeader)) in X by reflexivity. eexists.
    change (binds ob3 _ _ []) with (head_env p c). cbn [f_body headers_fun]. rewrite (block_step _ _ _ _ _ _ _ _ _ X). reflexivity.
  Qed.
  (** *** CtxValuesToSend *)
  Definition send_env (ks : list str) p (c : Context.ctx) : genv ob3 := [(T "r", VObj (ORequest p)); (T "ctx", VObj (OCtx3 c)); (T "keys", slice ks)].
  Definition before_body : list gstm := match f_body send_fun with [SRet [ECall _ [EFun _ _ b]]] => b | _ => [] end.
  Definition loop_body (l : list gstm) (n : nat) : list gstm := match nth n l (SRet []) with SRange _ _ b => b | _ => [] end.
  Lemma send_loop all p c ks : forall h, loop_of _ _ (exec _ _ lib3) [T "_"; T "k"] (loop_body before_body 0) (map (fun k => (VNil, VStr k)) ks) (send_env all p c) h = Next (send_env all p c) (Context.ctx_values_to_send ks c h).
  Proof.
    unfold Context.ctx_values_to_send. induction ks as [|k ks IH]; intro h; [reflexivity|]. cbn [map loop_of fold_left]. rewrite <- IH.
    match goal with |- match ?a with _ => _ end = loop_of _ _ _ _ _ _ _ ?h' => assert (A : a = Next (send_env all p c) h') end; [|rewrite A; reflexivity].
    unfold Context.string_value. cbn. destruct (Context.value c (Context.KStr k)) as [[s|n]|]; reflexivity.
  Qed.
  Lemma send_run ks h0 : exists f env w, run send_fun [] [slice ks] h0 = Return [VStruct [kw "ClientOption"] [(T "before", f)]] env w /\
    forall p h c, exists env', run_closure _ _ lib3 f [VObj (OCtx3 c); VObj (ORequest p)] h = Return [VObj (OCtx3 c)] env' (Context.ctx_values_to_send ks c h).
  Proof.
    eexists; eexists; eexists. split; [reflexivity|]. intros p h' c'. eexists. unfold run_closure, run_body.
    change (binds ob3 _ _ _) with (send_env ks p c'). pose proof (send_loop ks p c' ks h') as X. rewrite <- (range_runs _ _ _ _ (v "keys") _ _ h' (slice ks)) in X by (try reflexivity; apply slice_visits).
    cbn [loop_body before_body nth f_body send_fun] in X. rewrite (block_step _ _ _ _ _ _ _ _ _ X). reflexivity.
  Qed.
  (** *** GRPCMetadataToContext *)
  Definition md_env (md : Context.metadata) (c : Context.ctx) : genv ob3 := [(T "md", VObj (OMd md)); (T "ctx", VObj (OCtx3 c))].
  Lemma md_none md ks : fold_left (Context.md_to_ctx md) ks None = None. Proof. induction ks as [|k ks IH]; [reflexivity|exact IH]. Qed.
  Lemma md_loop md h ks : forall c, loop_of _ _ (exec _ _ lib3) [T "k"; T "v"] (loop_body (f_body metadata_fun) 0) (map (fun k => (VStr k, match mget md k with Some (Some l) => VStrs l | _ => VNil end)) ks) (md_env md c) h =
    match Context.grpc_metadata_to_context ks md c with Some c' => Next (md_env md c') h | None => Panic end.
  Proof.
    unfold Context.grpc_metadata_to_context. induction ks as [|k ks IH]; intro c; [reflexivity|]. cbn [map loop_of fold_left Context.md_to_ctx]. destruct (mget md k) as [[[|x l]|]|] eqn:E.
    - rewrite md_none. reflexivity.
    - rewrite <- IH. reflexivity.
    - rewrite <- IH. reflexivity.
    - rewrite <- IH. reflexivity.
  Qed.
  Lemma metadata_run md h c : match Context.grpc_metadata_to_context (order (keys md)) md c with
    | Some c' => exists env, run metadata_fun [] [VObj (OCtx3 c); VObj (OMd md)] h = Return [VObj (OCtx3 c')] env h
    | None => run metadata_fun [] [VObj (OCtx3 c); VObj (OMd md)] h = Panic
    end.
  Proof.
    unfold run_func, run_body. change (binds ob3 _ _ []) with (md_env md c). pose proof (md_loop md h (order (keys md)) c) as X. cbn [nth f_body metadata_fun loop_body] in X.
    rewrite <- (range_runs _ _ _ _ (v "md") _ _ h (VObj (OMd md))) in X by reflexivity. cbn [f_body metadata_fun]. destruct (Context.grpc_metadata_to_context _ _ _) as [c'|].
    - eexists. rewrite (block_step _ _ _ _ _ _ _ _ _ X). reflexivity.
    - rewrite (block_panic _ _ _ _ _ _ _ X). reflexivity.
  Qed.
  (** *** ContextValuesToGRPCMetadata *)
  Definition to_env (l : list str) md (c : Context.ctx) (ks : list str) : genv ob3 := [(T "pairs", slice l); (T "md", VObj (OMd md)); (T "ctx", VObj (OCtx3 c)); (T "keys", slice ks)].
  Definition to_body : list gstm := match f_body to_metadata_fun with [SRet [EFun _ _ b]] => b | _ => [] end.
  Definition flat (ps : list (str * str)) : list str := flat_map (fun p => [fst p; snd p]) ps.
  Lemma flat_pairs ps : pair_up (flat ps) = Some ps. Proof. induction ps as [|[a b] ps IH]; [reflexivity|]. unfold flat in *. cbn [flat_map app pair_up fst snd]. rewrite IH. reflexivity. Qed.
  Lemma to_loop md c all h ks : forall ps, loop_of _ _ (exec _ _ lib3) [T "_"; T "k"] (loop_body to_body 1) (map (fun k => (VNil, VStr k)) ks) (to_env (flat ps) md c all) h = Next (to_env (flat (ps ++ Context.ctx_pairs ks c)) md c all) h.
  Proof.
    unfold Context.ctx_pairs. induction ks as [|k ks IH]; intro ps; [cbn [flat_map map loop_of]; rewrite app_nil_r; reflexivity|]. cbn [map loop_of flat_map]. rewrite app_assoc. rewrite <- IH.
    match goal with |- match ?a with _ => _ end = loop_of _ _ _ _ _ _ ?e' _ => assert (A : a = Next e' h) end; [|rewrite A; reflexivity].
    unfold Context.string_value. cbn -[flat slice]. destruct (Context.value c (Context.KStr k)) as [[s|n]|]; cbn -[flat slice]; unfold is_type; cbn -[flat slice]; [|rewrite app_nil_r; reflexivity|rewrite app_nil_r; reflexivity].
    assert (E : strs_of (slice (flat ps)) = Some (flat ps)) by (destruct (flat ps); reflexivity). rewrite E. unfold to_env. cbn -[flat slice]. assert (F : flat (ps ++ [(k, s)]) = flat ps ++ [k; s]) by (unfold flat; rewrite flat_map_app; reflexivity). rewrite F. reflexivity.
  Qed.
  Lemma to_run ks h0 : exists f env w, run to_metadata_fun [] [slice ks] h0 = Return [f] env w /\
    forall md c h, exists env', run_closure _ _ lib3 f [VObj (OCtx3 c); VObj (OMd md)] h = Return [VObj (OCtx3 c)] env' h /\ lookup _ (T "md") env' = Some (VObj (OMd (Context.ctx_values_to_metadata ks c md))).
  Proof.
    eexists; eexists; eexists. split; [reflexivity|]. intros md c h. unfold run_closure, run_body. change (binds ob3 _ _ _) with (skipn 1 (to_env [] md c ks)).
    pose proof (to_loop md c ks h ks []) as X. rewrite <- (range_runs _ _ _ _ (v "keys") _ _ h (slice ks)) in X by (try reflexivity; apply slice_visits). cbn [app] in X. cbn [loop_body to_body nth f_body to_metadata_fun] in X.
    match goal with |- exists env', match exec_block _ _ _ (?a :: ?b) _ _ with _ => _ end = _ /\ _ => assert (A : exec _ _ lib3 a (skipn 1 (to_env [] md c ks)) h = Next (to_env (flat []) md c ks) h) by reflexivity end.
    rewrite (block_step _ _ _ _ _ _ _ _ _ A). rewrite (block_step _ _ _ _ _ _ _ _ _ X). unfold Context.ctx_values_to_metadata. destruct (Context.ctx_pairs ks c) as [|[a b] ps].
    - eexists. split; reflexivity.
    - eexists. split.
      + unfold to_env. change (flat ((a, b) :: ps)) with (a :: b :: flat ps). cbn -[flat Context.md_pairs]. rewrite flat_pairs. cbn -[flat Context.md_pairs]. reflexivity.
      + reflexivity.
  Qed.
End Ctx.

(** ** What the generated file has *)
(** The text, read as Go, has the function as one of its declarations. *)
Definition has_function (s : str) (f : gfunc) : Prop := exists ds, declarations s = Some ds /\ In (plain (func_toks f)) ds.
(** Go visits the keys of a map in any order. *)
Definition any_order (order : list str -> list str) : Prop := forall l, Permutation (order l) l.

Section C87.
  Variable format_source : str -> option str.
  Variables (d : Render.tdata) (s : str) (ms : list message).
  Hypothesis rendered_file : Render.render_asset format_source Generator.BaronPath d = Some s.
  Notation methods := (sv_methods (Render.td_service d)).
  Notation service := (sv_name (Render.td_service d)).
  Hypothesis made : HttpTransport.new_helper ms methods = GoStr.Ret (Render.td_helper d).
  Hypothesis ok : PropGoFile.file_ok ms d.
  Hypothesis lays_f : forall hm b f t, In hm (Render.td_helper d) -> In b (HttpTransport.hm_binds hm) -> In f (HttpTransport.hb_fields b) -> DecoderTexts.field_text f = Some t -> lays_out format_source t.
  Hypothesis lays_o : forall hm b o t, In hm (Render.td_helper d) -> In b (HttpTransport.hm_binds hm) -> In o (HttpTransport.hb_oneofs b) -> DecoderTexts.oneof_text o = Some t -> lays_out format_source t.
  Lemma has f : In (plain (func_toks f)) (FileAll.glue d) -> has_function s f.
  Proof.
    intro H. destruct (PropGoFile.file_is format_source d s ms rendered_file made ok lays_f lays_o) as (ds & D & _ & I). exists ds. split; [exact D|]. apply I. apply in_or_app. right. apply in_or_app. right. exact H.
  Qed.
  (** C53.  The method of Endpoints calls the endpoint in the field of its method: it returns the response if there is no error, the error if there is one, and panics on a nil response without an error.
      What Make...Endpoint returns calls the method of the service, and returns its response or its error. *)
  Theorem c87_endpoints : forall m, In m methods ->
    (has_function s (call_fun m) /\ has_function s (make_fun service m)) /\
    forall Req Resp Err,
    (forall ty fs (ep : Req -> option Resp * option Err) r, lookup _ (sm_name m ++ T "Endpoint") fs = Some (VObj (OEndpoint _ _ _ ep)) ->
      results (run_func _ _ (lib1 Req Resp Err m) (call_fun m) [VStruct ty fs] [VObj (OCtx _ _ _); VObj (OReq _ _ _ r)] tt) =
      match ep r with (_, Some e) => Some [VNil; VObj (OErr _ _ _ e)] | (Some x, None) => Some [VObj (OResp _ _ _ x); VNil] | (None, None) => None end) /\
    (forall sv : Req -> Resp * option Err, exists f, results (run_func _ _ (lib1 Req Resp Err m) (make_fun service m) [] [VObj (OService _ _ _ sv)] tt) = Some [f] /\
      forall r, results (run_closure _ _ (lib1 Req Resp Err m) f [VObj (OCtx _ _ _); VObj (OReq _ _ _ r)] tt) =
        match sv r with (_, Some e) => Some [VNil; VObj (OErr _ _ _ e)] | (x, None) => Some [VObj (OResp _ _ _ x); VNil] end).
  Proof.
    intros m Hm. split; [split; apply has; unfold FileAll.glue; rewrite !in_app_iff|].
    - left. apply in_flat_map. exists m. split; [exact Hm|left; reflexivity].
    - right. left. apply in_flat_map. exists m. split; [exact Hm|left; reflexivity].
    - intros Req Resp Err. split; [exact (call_runs Req Resp Err m)|exact (make_runs Req Resp Err m service)].
  Qed.
  (** C32.  WrapAllExcept ([labeled] = false) and WrapAllLabeledExcept: they panic if a name is excluded twice or is no method, and otherwise wrap each endpoint that is not excluded once, in whatever order the map is visited. *)
  Notation names := (map sm_name methods).
  Definition takes {E} (labeled : bool) (o : ob2 E) (mw : str -> E -> E) : Prop := match o with OMiddleware _ f => labeled = false /\ forall n, mw n = f | OLabeled _ f => labeled = true /\ forall n, mw n = f n | OEp _ _ => False end.
  Theorem c87_wrap : forall labeled, has_function s (wrap_fun labeled names) /\ (NoDup names ->
    forall E order ty (o : ob2 E) mw excluded (e : str -> E), any_order order -> takes labeled o mw ->
    let run := run_func _ _ (lib2 E order) (wrap_fun labeled names) [VStruct ty (fields E names e)] [VObj o; slice excluded] tt in
    (run = Panic <-> ~ NoDup excluded \/ exists x, In x excluded /\ ~ In x names) /\
    (run <> Panic -> results run = Some [] /\ exists e', param (T "e") run = Some (VStruct ty (fields E names e')) /\
      forall n, In n names -> (In n excluded -> e' n = e n) /\ (~ In n excluded -> e' n = mw n (e n)))).
  Proof.
    intro labeled. split.
    - apply has. unfold FileAll.glue, FileHead.wraps. rewrite !in_app_iff. right. right. left. destruct labeled; [right; left|left]; reflexivity.
    - intros Hn E order ty o mw excluded e Ho Ht run.
      assert (Ht' : exists mw', match o with OMiddleware _ f => labeled = false /\ mw' = (fun _ => f) | OLabeled _ f => labeled = true /\ mw' = f | OEp _ _ => False end /\ forall n, mw' n = mw n).
      { destruct o as [x|f|f]; [destruct Ht| |]; destruct Ht as [H1 H2]; [exists (fun _ => f)|exists f]; (split; [split; [exact H1|reflexivity]|]); intro n; rewrite H2; reflexivity. }
      destruct Ht' as (mw' & H1 & H2). pose proof (wrap_runs E order ty labeled names o mw' excluded e H1 Hn) as R. fold run in R.
      destruct (Middleware.exclude (Middleware.included names) excluded) as [m|] eqn:X.
      + assert (D : Middleware.wrap_all_labeled E names mw' excluded e (fold_left (Middleware.wrap_key E names mw') (order (keys m)) e) false) by (apply (Middleware.WrapDone E names mw' excluded e m); [exact X|apply Ho]).
        destruct (PropMiddleware.c32_labeled _ _ _ _ _ _ _ Hn D) as (_ & P & F). split.
        * rewrite R. split; [intro K; discriminate K|]. intro K. apply P in K. discriminate K.
        * intros _. rewrite R. split; [reflexivity|]. eexists. split; [reflexivity|]. intros n Hi. destruct (F eq_refl n) as [F1 F2]. split; intro K; [apply F2; left; exact K|]. rewrite <- H2. apply F1; assumption.
      + pose proof (Middleware.WrapPanic E names mw' excluded e X) as D. destruct (PropMiddleware.c32_labeled _ _ _ _ _ _ _ Hn D) as (_ & P & _). split.
        * rewrite R. split; [intros _; apply P; reflexivity|reflexivity].
        * intro K. contradiction.
  Qed.
  (** C33, C54.  HTTPHeadersToContext and CtxValuesToSend do what Context.v says, and leave the rest. *)
  Theorem c87_http : (has_function s headers_fun /\ has_function s send_fun) /\ forall order,
    (forall c path h, let run := run_func _ _ (lib3 order) headers_fun [] [VObj (OCtx3 c); VObj (ORequest path)] h in
      results run = Some [VObj (OCtx3 (Context.http_headers_to_context (order (keys h)) h path c))] /\ after run = Some h) /\
    (forall ks h0, exists f, results (run_func _ _ (lib3 order) send_fun [] [slice ks] h0) = Some [VStruct [kw "ClientOption"] [(T "before", f)]] /\
      forall c path h, let run := run_closure _ _ (lib3 order) f [VObj (OCtx3 c); VObj (ORequest path)] h in
        results run = Some [VObj (OCtx3 c)] /\ after run = Some (Context.ctx_values_to_send ks c h)).
  Proof.
    split; [split; apply has; unfold FileAll.glue, FileHttp.client_funs; rewrite !in_app_iff; right; right; right; left; [right; left|right; right; left]; reflexivity|]. intro order. split.
    - intros c p h run. destruct (headers_run order p h c) as (env & R). fold run in R. rewrite R. split; reflexivity.
    - intros ks h0. destruct (send_run order ks h0) as (f & env & w & R & C). exists f. rewrite R. split; [reflexivity|]. intros c p h run. destruct (C p h c) as (env' & R'). fold run in R'. rewrite R'. split; reflexivity.
  Qed.
  (** C55.  GRPCMetadataToContext and ContextValuesToGRPCMetadata, which are there with gRPC *)
  Theorem c87_grpc : TextFile.with_grpc d = true -> (has_function s metadata_fun /\ has_function s to_metadata_fun) /\ forall order w,
    (forall c md, results (run_func _ _ (lib3 order) metadata_fun [] [VObj (OCtx3 c); VObj (OMd md)] w) = option_map (fun c' => [VObj (OCtx3 c')]) (Context.grpc_metadata_to_context (order (keys md)) md c)) /\
    (forall ks, exists f, results (run_func _ _ (lib3 order) to_metadata_fun [] [slice ks] w) = Some [f] /\
      forall c md, let run := run_closure _ _ (lib3 order) f [VObj (OCtx3 c); VObj (OMd md)] w in
        results run = Some [VObj (OCtx3 c)] /\ param (T "md") run = Some (VObj (OMd (Context.ctx_values_to_metadata ks c md)))).
  Proof.
    intro G. split; [split; apply has; unfold FileAll.glue, FileGrpc.grpc_funs; rewrite G, !in_app_iff; right; right; right; right; right; right; left; left; [left|right; left]; reflexivity|]. intros order w. split.
    - intros c md. pose proof (metadata_run order md w c) as R. destruct (Context.grpc_metadata_to_context _ _ _); [destruct R as (env & R)|]; rewrite R; reflexivity.
    - intros ks. destruct (to_run order ks w) as (f & env & w' & R & C). exists f. rewrite R. split; [reflexivity|]. intros c md run. destruct (C md c w) as (env' & R' & L). fold run in R'. rewrite R'. split; [reflexivity|exact L].
  Qed.
End C87.
Print Assumptions c87_endpoints.
Print Assumptions c87_wrap.
Print Assumptions c87_http.
Print Assumptions c87_grpc.
(** ** A case: PropGoFile.shop, with all transports.  Its two WrapAll functions; with one of its methods excluded, the other is wrapped. *)
Example c87_case : exists s, Render.render_asset (fun _ => None) Generator.BaronPath PropGoFile.shop = Some s /\
  (has_function s (wrap_fun true (map sm_name (sv_methods (Render.td_service PropGoFile.shop)))) /\ has_function s headers_fun /\ has_function s to_metadata_fun) /\
  (exists a b, map sm_name (sv_methods (Render.td_service PropGoFile.shop)) = [a; b] /\
    let run := run_func _ _ (lib2 nat (@rev str)) (wrap_fun true [a; b]) [VStruct [] (fields nat [a; b] (fun _ => 7))] [VObj (OLabeled _ (fun n x => length n + x)); slice [a]] tt in
    param (T "e") run = Some (VStruct [] (fields nat [a; b] (fun n => if str_eqb n b then length b + 7 else 7)))) /\
  results (run_func _ _ (lib3 (fun l => l)) headers_fun [] [VObj (OCtx3 []); VObj (ORequest (T "/items"))] [(T "X-Id", [T "9"])]) =
    Some [VObj (OCtx3 [(Context.KStr (T "transport"), Context.VStr (T "HTTPJSON")); (Context.KStr (T "request-url"), Context.VStr (T "/items")); (Context.KStr (T "x-id"), Context.VStr (T "9")); (Context.KStr (T "X-Id"), Context.VStr (T "9"))])].
Proof.
  pose proof (TextProofs.baron_is (fun _ => None) PropGoFile.shop) as R. remember (concat (TextFile.baron_pieces (fun _ => None) PropGoFile.shop)) as s eqn:Es. clear Es.
  assert (M : HttpTransport.new_helper [] (sv_methods (Render.td_service PropGoFile.shop)) = GoStr.Ret (Render.td_helper PropGoFile.shop)) by (vm_compute; reflexivity).
  assert (LF : forall hm b f t, In hm (Render.td_helper PropGoFile.shop) -> In b (HttpTransport.hm_binds hm) -> In f (HttpTransport.hb_fields b) -> DecoderTexts.field_text f = Some t -> lays_out (fun _ => None) t) by (intros; intros ? K; discriminate K).
  assert (LO : forall hm b o t, In hm (Render.td_helper PropGoFile.shop) -> In b (HttpTransport.hm_binds hm) -> In o (HttpTransport.hb_oneofs b) -> DecoderTexts.oneof_text o = Some t -> lays_out (fun _ => None) t) by (intros; intros ? K; discriminate K).
  exists s. split; [exact R|]. split; [split; [|split]|split].
  - exact (proj1 (c87_wrap (fun _ => None) PropGoFile.shop s [] R M PropGoFile.shop_ok LF LO true)).
  - exact (proj1 (proj1 (c87_http (fun _ => None) PropGoFile.shop s [] R M PropGoFile.shop_ok LF LO))).
  - exact (proj2 (proj1 (c87_grpc (fun _ => None) PropGoFile.shop s [] R M PropGoFile.shop_ok LF LO eq_refl))).
  - eexists; eexists. split; [reflexivity|]. vm_compute. reflexivity.
  - vm_compute. reflexivity.
Qed.
