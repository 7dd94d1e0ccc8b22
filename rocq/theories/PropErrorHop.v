(** C34, C56: errors and responses over HTTP. *)
From Coq Require Import Permutation.
From Verif Require Import GoStr GoStrProofs GoMap Decimals SvcTypes HttpTransport Url GenHttp GenHttpSpec PropGenHttp Json JsonProofs Context ContextProofs ErrorHop.

(** A text without bytes that are no UTF-8. *)
Definition utf8_text (s : str) : Prop := Forall (fun c => (c < 1114112)%N) s.
(** A status code whose responses have a body and that is no success. *)
Definition error_code (c : Z) : Prop := (200 < c <= 999)%Z /\ c <> 204%Z /\ c <> 304%Z.

(** ** C34 *)
(** The status is the error's own or 500; the handler panics iff the error's own code is no HTTP status. *)
Theorem c34_status : forall order e h0,
  match error_encoder order e h0 with
  | Some r => rs_status r = match e_code e with Some c => c | None => 500%Z end /\ (100 <= rs_status r <= 999)%Z
  | None => exists c, e_code e = Some c /\ ~ (100 <= c <= 999)%Z
  end.
Proof.
  intros order e h0. unfold error_encoder, error_status. destruct (e_code e) as [c|]; [|split; [reflexivity|cbn; lia]].
  destruct (Z.leb_spec 100 c); cbn [andb]; [|exists c; split; [reflexivity|lia]]. destruct (Z.leb_spec c 999); [|exists c; split; [reflexivity|lia]].
  cbn [rs_status]. split; [reflexivity|lia].
Qed.
Print Assumptions c34_status.
(** The client reports the error's text, after the status code. *)
Theorem c34_text : forall Resp pj_unmarshal order e h0 r, utf8_text (e_text e) -> e_json e = None \/ e_json e = Some None ->
  error_code (match e_code e with Some c => c | None => 500%Z end) -> error_encoder order e h0 = Some r ->
  decode_response Resp pj_unmarshal r = (None, Some (T "status code: '" ++ itoa (rs_status r) ++ T "': " ++ e_text e)).
Proof.
  intros Resp pju order e h0 r Hu Hj Hc H. pose proof (c34_status order e h0) as Hs. rewrite H in Hs. destruct Hs as [Hs Hr].
  rewrite <- Hs in Hc. destruct Hc as (C1 & C2 & C3). unfold decode_response.
  destruct (Z.eqb_spec (rs_status r) 200); [lia|]. cbn [negb]. f_equal. f_equal. f_equal. f_equal. f_equal.
  assert (Hb : rs_body r = marshal_error (e_text e)).
  { unfold error_encoder in H. destruct (_ && _); [|discriminate]. injection H as <-. cbn [rs_status rs_body] in *.
    assert (E : body_allowed (error_status e) = true).
    { unfold body_allowed. destruct (Z.leb_spec (error_status e) 199); [lia|]. destruct (Z.eqb_spec (error_status e) 204); [lia|]. destruct (Z.eqb_spec (error_status e) 304); [lia|]. rewrite andb_false_r. reflexivity. }
    rewrite E. unfold error_body. destruct Hj as [-> | ->]; reflexivity. }
  unfold error_decoder. rewrite Hb, error_round_trip. apply fix_valid. exact Hu.
Qed.
Print Assumptions c34_text.
(** An error that writes its own JSON: the client reports the error member of that JSON. *)
Theorem c34_custom : forall Resp pj_unmarshal order e h0 r j, e_json e = Some (Some j) ->
  error_code (match e_code e with Some c => c | None => 500%Z end) -> error_encoder order e h0 = Some r ->
  rs_body r = j /\ decode_response Resp pj_unmarshal r = (None, Some (T "status code: '" ++ itoa (rs_status r) ++ T "': " ++ error_decoder j)).
Proof.
  intros Resp pju order e h0 r j Hj Hc H. pose proof (c34_status order e h0) as Hs. rewrite H in Hs. destruct Hs as [Hs Hr].
  rewrite <- Hs in Hc. destruct Hc as (C1 & C2 & C3).
  assert (Hb : rs_body r = j).
  { unfold error_encoder in H. destruct (_ && _); [|discriminate]. injection H as <-. cbn [rs_status rs_body] in *.
    assert (E : body_allowed (error_status e) = true).
    { unfold body_allowed. destruct (Z.leb_spec (error_status e) 199); [lia|]. destruct (Z.eqb_spec (error_status e) 204); [lia|]. destruct (Z.eqb_spec (error_status e) 304); [lia|]. rewrite andb_false_r. reflexivity. }
    rewrite E. unfold error_body. rewrite Hj. reflexivity. }
  split; [exact Hb|]. unfold decode_response. destruct (Z.eqb_spec (rs_status r) 200); [lia|]. rewrite Hb. reflexivity.
Qed.
Print Assumptions c34_custom.
(** Whatever the server answers, the client has a response or an error, and not both. *)
Theorem c34_never_nothing : forall Resp pj_unmarshal r,
  (exists v, decode_response Resp pj_unmarshal r = (Some v, None)) \/ (exists t, decode_response Resp pj_unmarshal r = (None, Some t)).
Proof.
  intros Resp pju r. unfold decode_response. destruct (negb _); [right; eexists; reflexivity|].
  destruct (pju (rs_body r)); [left|right]; eexists; reflexivity.
Qed.
Print Assumptions c34_never_nothing.
(** A response is only reported for status 200. *)
Theorem c34_success : forall Resp pj_unmarshal r v o, decode_response Resp pj_unmarshal r = (Some v, o) -> rs_status r = 200%Z /\ pj_unmarshal (rs_body r) = Some v.
Proof.
  intros Resp pju r v o H. unfold decode_response in H. destruct (Z.eqb_spec (rs_status r) 200) as [E|]; cbn [negb] in H; [|discriminate].
  split; [exact E|]. destruct (pju (rs_body r)); [congruence|discriminate].
Qed.
(** The headers of the error: canonical ones arrive with their first value. *)
Lemma fold_headers : forall eh order h q, NoDup (keys h) ->
  NoDup (keys (fold_left (fun h k => h_set h k (h_get eh k)) order h)) /\
  mget (fold_left (fun h k => h_set h k (h_get eh k)) order h) q =
    if existsb (fun k => str_eqb q (canonical k)) order then Some [match mget eh q with Some (v :: _) => v | _ => [] end] else mget h q.
Proof.
  intros eh. induction order as [|k ks IH] using rev_ind; intros h q Hh; [split; [exact Hh|reflexivity]|].
  rewrite fold_left_app, existsb_app. cbn [fold_left existsb]. destruct (IH h q Hh) as [H1 H2]. unfold h_set at 1 3. split; [apply nodup_mset; exact H1|].
  rewrite mget_mset, H2, orb_false_r. destruct (str_eqb_spec q (canonical k)) as [->|N1]; [|rewrite orb_false_r; reflexivity].
  rewrite orb_true_r. reflexivity.
Qed.
Theorem c34_headers : forall order e h0 r eh q, error_encoder order e h0 = Some r -> NoDup (keys h0) ->
  e_headers e = Some eh -> Permutation order (keys eh) ->
  (forall v vs, canonical q = q -> In (q, v :: vs) eh -> NoDup (keys eh) -> mget (rs_headers r) q = Some [v]) /\
  ((forall k, In k (keys eh) -> canonical k <> q) -> q <> T "Content-Type" -> mget (rs_headers r) q = mget h0 q) /\
  ((forall k, In k (keys eh) -> canonical k <> T "Content-Type") -> mget (rs_headers r) (T "Content-Type") = Some [T "application/json; charset=utf-8"]).
Proof.
  intros order e h0 r eh q H Hh He Hp. unfold error_encoder in H. destruct (_ && _); [|discriminate]. injection H as <-. cbn [rs_headers].
  unfold error_headers. rewrite He.
  assert (Hn : NoDup (keys (h_set h0 (T "Content-Type") content_type))) by (apply nodup_mset; exact Hh).
  assert (Hno : forall x, (forall k, In k (keys eh) -> canonical k <> x) -> existsb (fun k => str_eqb x (canonical k)) order = false).
  { intros x K. destruct (existsb _ order) eqn:Ex; [|reflexivity]. exfalso. apply existsb_exists in Ex. destruct Ex as (k & Hk & E). apply str_eqb_eq in E.
    apply (K k); [apply (Permutation_in _ Hp); exact Hk|auto]. }
  split; [|split].
  - intros v vs Hc Hi Hnd. rewrite (proj2 (fold_headers eh order _ q Hn)). pose proof Hi as Hg. apply (mget_in eh q _ Hnd) in Hg. rewrite Hg.
    assert (E : existsb (fun k => str_eqb q (canonical k)) order = true); [|rewrite E; reflexivity].
    apply existsb_exists. exists q. split; [apply (Permutation_in _ (Permutation_sym Hp)); change q with (fst (q, v :: vs)); apply in_map; exact Hi|].
    rewrite Hc. apply str_eqb_refl.
  - intros K N1. rewrite (proj2 (fold_headers eh order _ q Hn)), Hno by exact K. unfold h_set. rewrite mget_mset.
    change (canonical (T "Content-Type")) with (T "Content-Type"). apply str_eqb_neq in N1. rewrite N1. reflexivity.
  - intro K. rewrite (proj2 (fold_headers eh order _ _ Hn)), Hno by exact K. unfold h_set. rewrite mget_mset.
    change (canonical (T "Content-Type")) with (T "Content-Type"). rewrite str_eqb_refl. reflexivity.
Qed.
Print Assumptions c34_headers.
(** A header of the error that is not in canonical form loses its value. *)
Theorem c34_header_lost : exists e r, e_headers e = Some [(T "x-a", [T "1"])] /\ error_encoder [T "x-a"] e [] = Some r /\ mget (rs_headers r) (T "X-A") = Some [[]].
Proof. exists (mkErr (T "boom") None (Some [(T "x-a", [T "1"])]) None). eexists. split; [reflexivity|]. split; reflexivity. Qed.
(** REFUTED for an error with status code 200: the client takes it for a response (protojson ignores
    members it does not know). *)
Theorem c34_refuted_200 : forall Resp (pj_unmarshal : str -> option Resp) v, pj_unmarshal (marshal_error (T "boom")) = Some v ->
  exists e r, e_text e = T "boom" /\ error_encoder [] e [] = Some r /\ decode_response Resp pj_unmarshal r = (Some v, None).
Proof. intros Resp pju v H. exists (mkErr (T "boom") None None (Some 200%Z)). eexists. split; [reflexivity|]. split; [reflexivity|]. transitivity (match pju (marshal_error (T "boom")) with None => (None, Some (error_decoder (marshal_error (T "boom")))) | Some resp => (Some resp, None) end); [reflexivity|rewrite H; reflexivity]. Qed.
(** REFUTED for codes without a body. *)
Theorem c34_refuted_204 : forall Resp pj_unmarshal, exists e r, e_text e = T "boom" /\ error_encoder [] e [] = Some r /\
  decode_response Resp pj_unmarshal r = (None, Some (T "status code: '204': response body '': cannot parse non-json request body")).
Proof. intros. exists (mkErr (T "boom") None None (Some 204%Z)). eexists. split; [reflexivity|]. split; reflexivity. Qed.
(** REFUTED for errors with their own JSON: without an error member the text is gone. *)
Theorem c34_refuted_json : forall Resp pj_unmarshal, exists e r, e_text e = T "boom" /\ error_encoder [] e [] = Some r /\
  decode_response Resp pj_unmarshal r = (None, Some (T "status code: '500': ")).
Proof. intros. exists (mkErr (T "boom") (Some (Some (T "{""message"":""boom""}"))) None None). eexists. split; [reflexivity|]. split; reflexivity. Qed.
(** REFUTED for texts that are not UTF-8. *)
Theorem c34_refuted_utf8 : forall Resp pj_unmarshal, exists e r, e_text e = [1114367%N] /\ error_encoder [] e [] = Some r /\
  decode_response Resp pj_unmarshal r = (None, Some (T "status code: '500': " ++ [65533%N])).
Proof. intros. exists (mkErr [1114367%N] None None None). eexists. split; [reflexivity|]. split; reflexivity. Qed.
Example c34_ex : exists r, error_encoder [] (mkErr (T "no <such> ""thing""" ++ [10; 8232; 128512]%N) None None (Some 404%Z)) [] = Some r /\
  decode_response nat (fun _ => None) r = (None, Some (T "status code: '404': no <such> ""thing""" ++ [10; 8232; 128512]%N)).
Proof. eexists. split; reflexivity. Qed.

(** ** C56: a call through the generated HTTP client does what the service does. *)
(** What the caller should see. *)
Inductive sees {Resp : Type} : Resp * option goerror -> call_result Resp -> Prop :=
| SeesResponse : forall r, sees (r, None) (CallReturns (Some r) None)
| SeesError : forall r e c t, c = match e_code e with Some c => c | None => 500%Z end -> t = e_text e ->
    sees (r, Some e) (CallReturns None (Some (T "status code: '" ++ itoa c ++ T "': " ++ t))).
(** Answers that HTTP carries: responses that protojson takes there and back, errors as in C34. *)
Inductive answerable {Resp : Type} (m : Resp -> option str) (u : str -> option Resp) : Resp * option goerror -> Prop :=
| AnsResponse : forall r t, m r = Some t -> u t = Some r -> answerable m u (r, None)
| AnsError : forall r e, utf8_text (e_text e) -> e_json e = None \/ e_json e = Some None ->
    error_code (match e_code e with Some c => c | None => 500%Z end) -> answerable m u (r, Some e).
(** No route before the binding's own takes the request. *)
Definition own_route (routes : list (str * hbind)) (m : str) (b : hbind) (h : http_request) : Prop :=
  exists pre post, routes = pre ++ (m, b) :: post /\
    Forall (fun mb => ~ (rq_verb h = to_upper (hb_verb (snd mb)) /\ exists v, mux_match (hb_path (snd mb)) (rq_path h) = Some v)) pre.

Lemma answer_seen : forall Resp m u txt order (R : Type) (req : R) (svc : R -> Resp * option goerror), answerable m u (svc req) ->
  exists r, answer Resp m txt order (inl req) svc = Some r /\ sees (svc req) (let (a, e) := decode_response Resp u r in CallReturns a e).
Proof.
  intros Resp m u txt order R req svc H. unfold answer. destruct (svc req) as [resp [e|]] eqn:Es.
  - inversion H as [|r' e' Hu Hj Hc]; subst. pose proof (c34_status order e []) as Hst. destruct (error_encoder order e []) as [r|] eqn:Ee.
    + exists r. split; [reflexivity|]. rewrite (c34_text Resp u order e [] r Hu Hj Hc Ee). apply SeesError; [apply Hst|reflexivity].
    + destruct Hst as (c & E1 & E2). rewrite E1 in Hc. destruct Hc as (C1 & _). lia.
  - inversion H as [r' t Hm Hu|]; subst. rewrite Hm. eexists. split; [reflexivity|]. unfold decode_response. cbn. rewrite Hu. apply SeesResponse.
Qed.
Theorem c56_get : forall K Resp pjm pju txt zero derr ms i m sb b ts req order routes svc,
  nth_error (sm_bindings m) i = Some sb -> new_binding ms i m = Ret b -> sb_verb sb = T "get" -> fits ts sb ->
  Forall (carried K ts req) (sb_params sb) ->
  (forall p, In p (sb_params sb) -> unsent (req (camel_of p)) -> zero (camel_of p) = req (camel_of p)) ->
  (forall h, encode_request K b req = Some h -> own_route routes (sm_name m) b h) ->
  (forall r, (forall p, In p (sb_params sb) -> r (camel_of p) = req (camel_of p)) -> (forall x, r x = zero x \/ r x = req x) ->
     svc (sm_name m) r = svc (sm_name m) req) ->
  answerable pjm pju (svc (sm_name m) req) ->
  sees (svc (sm_name m) req) (http_call K Resp pjm pju txt zero derr order routes svc b req).
Proof.
  intros K Resp pjm pju txt zero derr ms i m sb b ts req order routes svc Hi Hb Hv Hf Hc Hz Hown Hsvc Ha.
  destruct (c29_get_round_trip K ms i m sb b ts req zero Hi Hb Hv Hf Hc Hz) as (h & vars & r & E1 & E2 & E3 & E4 & E5 & E6 & E7).
  unfold http_call. rewrite E1. destruct (Hown h E1) as (pre & post & Er & Hpre).
  assert (Hverb : rq_verb h = to_upper (hb_verb b)).
  { unfold encode_request in E1. destruct (url_parse_path _); [|discriminate]. destruct (query_fields _ _ _ _); [|discriminate]. destruct (query_oneofs _ _ _ _); [|discriminate].
    destruct (str_eqb _ _); [injection E1 as <-; reflexivity|]. destruct (pj_enc K req); [injection E1 as <-; reflexivity|discriminate]. }
  assert (Es : serve routes h = Some (sm_name m, b, vars)) by (apply c52_first_match; exists pre, post; auto).
  unfold http_server. rewrite Es. unfold decoded_request. rewrite E5.
  destruct (answer_seen Resp pjm pju txt order request r (svc (sm_name m))) as (rs & A1 & A2); [rewrite Hsvc by assumption; exact Ha|].
  rewrite A1. rewrite Hsvc in A2 by assumption. exact A2.
Qed.
Print Assumptions c56_get.
Theorem c56_body : forall K Resp pjm pju txt zero derr ms i m sb b ts req data r0 order routes svc,
  nth_error (sm_bindings m) i = Some sb -> new_binding ms i m = Ret b -> sb_verb sb <> T "get" -> fits ts sb ->
  Forall (fun p => carried K ts req p \/ pm_loc p = T "body") (sb_params sb) ->
  pj_enc K req = Some data -> data <> [] -> pj_dec K data = Some r0 -> (forall x, r0 x = req x) ->
  (forall h, encode_request K b req = Some h -> own_route routes (sm_name m) b h) ->
  (forall r, (forall x, r x = req x) -> svc (sm_name m) r = svc (sm_name m) req) ->
  answerable pjm pju (svc (sm_name m) req) ->
  sees (svc (sm_name m) req) (http_call K Resp pjm pju txt zero derr order routes svc b req).
Proof.
  intros K Resp pjm pju txt zero derr ms i m sb b ts req data r0 order routes svc Hi Hb Hv Hf Hc Hpe Hne Hpd H0 Hown Hsvc Ha.
  destruct (c30_body_round_trip K ms i m sb b ts req data r0 zero Hi Hb Hv Hf Hc Hpe Hne Hpd H0) as (h & vars & r & E1 & E2 & E3 & E4 & E5 & E6).
  unfold http_call. rewrite E1. destruct (Hown h E1) as (pre & post & Er & Hpre).
  assert (Hverb : rq_verb h = to_upper (hb_verb b)).
  { unfold encode_request in E1. destruct (url_parse_path _); [|discriminate]. destruct (query_fields _ _ _ _); [|discriminate]. destruct (query_oneofs _ _ _ _); [|discriminate].
    destruct (str_eqb _ _); [injection E1 as <-; reflexivity|]. destruct (pj_enc K req); [injection E1 as <-; reflexivity|discriminate]. }
  assert (Es : serve routes h = Some (sm_name m, b, vars)) by (apply c52_first_match; exists pre, post; auto).
  unfold http_server. rewrite Es. unfold decoded_request. rewrite E5.
  destruct (answer_seen Resp pjm pju txt order request r (svc (sm_name m))) as (rs & A1 & A2); [rewrite Hsvc by assumption; exact Ha|].
  rewrite A1. rewrite Hsvc in A2 by assumption. exact A2.
Qed.
Print Assumptions c56_body.
(** A request no route matches is an error for the caller. *)
Theorem c56_not_found : forall K Resp pjm pju txt zero derr order routes svc b req h,
  encode_request K b req = Some h -> serve routes h = None ->
  http_server K Resp pjm txt zero derr order routes svc h = Some (mkResp 404 [] (T "404 page not found
")) /\
  exists t, http_call K Resp pjm pju txt zero derr order routes svc b req = CallReturns None (Some (T "status code: '404': " ++ t)).
Proof.
  intros K Resp pjm pju txt zero derr order routes svc b req h E1 E2. split; [unfold http_server; rewrite E2; reflexivity|]. unfold http_call, http_server. rewrite E1, E2. eexists. unfold decode_response. cbn -[T]. reflexivity.
Qed.
(** A request its decoder refuses, with or without having decoded something, does not reach the service: the answer is the error's. *)
Theorem c56_refused : forall K Resp pjm txt zero derr order routes svc m b vars h, serve routes h = Some (m, b, vars) ->
  (forall r, decode_request K zero b vars h <> DOk r false) ->
  http_server K Resp pjm txt zero derr order routes svc h = error_encoder order (derr h) [].
Proof.
  intros K Resp pjm txt zero derr order routes svc m b vars h Hs Hd. unfold http_server. rewrite Hs. unfold decoded_request.
  destruct (decode_request K zero b vars h) as [r eb| |] eqn:E; try reflexivity. destruct eb; [reflexivity|]. exfalso. exact (Hd r eq_refl).
Qed.
Print Assumptions c56_refused.
(** The hypotheses hold of the example of C29, behind another route, for a service that reports an error
    for every kind but 3, and answers otherwise with the number it got. *)
Definition ex_svc (m : str) (r : request) : Z * option goerror :=
  match r (T "Kind"), r (T "Choice") with
  | VZ 3, VOneof (Some (_, VZ z)) => (z, None)
  | _, _ => (0%Z, Some (mkErr (T "bad kind") None None (Some 422%Z)))
  end.
Definition ex_b : hbind := match new_binding [] 0 (meth1 (T "get") ex_path ex_ps) with Ret b => b | _ => mkHBind [] [] [] [] [] [] end.
Definition ex_call (req : request) : call_result Z :=
  http_call K0 Z (fun z => Some (itoa z)) (parse_int 64) [] (fun _ => VNone) (fun _ => plain_error []) []
    [(T "Other", mkHBind (T "x") (T "post") ex_path [] [] []); (T "Get", ex_b)] ex_svc ex_b req.
Example c56_ex_hyps : sees (ex_svc (T "Get") ex_req) (ex_call ex_req).
Proof.
  unfold ex_call. apply (c56_get K0 Z _ _ _ _ _ [] 0 (meth1 (T "get") ex_path ex_ps) (mkSBind (T "get") ex_path ex_ps) ex_b ex_ts ex_req []).
  - reflexivity.
  - reflexivity.
  - reflexivity.
  - exact c29_fits.
  - exact c29_carried.
  - intros p Hp Hu. repeat destruct Hp as [<-|Hp]; try destruct Hp; destruct Hu as [Hu|[Hu|Hu]]; try discriminate Hu; reflexivity.
  - intros h Eh. assert (Hh : rq_verb h = T "GET") by (vm_compute in Eh; injection Eh as <-; reflexivity).
    eexists [_], []. split; [reflexivity|]. apply Forall_cons; [|apply Forall_nil]. intros [E _]. rewrite Hh in E. discriminate E.
  - intros r Hr _. unfold ex_svc.
    assert (E1 : r (T "Kind") = ex_req (T "Kind")) by (exact (Hr (par (T "Kind") (T "kind") (mkFT (T "K") (Some 0) None None None false false) (T "path")) (or_intror (or_introl eq_refl)))).
    rewrite E1. reflexivity.
  - apply AnsError; [repeat (apply Forall_cons; [reflexivity|]); apply Forall_nil|left; reflexivity|]. split; [cbn; lia|split; cbn; lia].
Qed.
Example c56_ex : ex_call ex_req = CallReturns None (Some (T "status code: '422': bad kind")) /\
  ex_call (fun y => if str_eqb y (T "Kind") then VZ 3 else ex_req y) = CallReturns (Some 99%Z) None.
Proof. split; vm_compute; reflexivity. Qed.
