(** C29, C30, C51, C52: requests between a generated client and a generated server. *)
From Verif Require Import GoStr GoStrProofs GoMap SplitJoin Decimals SvcTypes Strs HttpSpec HttpTransport HttpTypes HttpProofs HttpTypesProofs
  Url UrlProofs GenHttp GenHttpSpec GenHttpProofs GenHttpProofs2 GenHttpProofs3 GenHttpProofs4.

Lemma vars_tvar : forall ts n, In n (template_vars ts) <-> In (TVar n) ts.
Proof.
  intros ts n. unfold template_vars. rewrite in_flat_map. split.
  - intros ([s|m] & H & E); [destruct E|]. destruct E as [->|[]]. exact H.
  - intro H. exists (TVar n). split; [exact H|left; reflexivity].
Qed.
Lemma transport : forall K ms i m sb b ts req, nth_error (sm_bindings m) i = Some sb -> new_binding ms i m = Ret b -> fits ts sb ->
  Forall (fun p => carried K ts req p \/ pm_loc p = T "body") (sb_params sb) ->
  exists path q vars, url_parse_path (client_path K b req) = Some path
    /\ (exists m1, query_fields K req (hb_fields b) [] = Some m1 /\ query_oneofs K req (hb_oneofs b) m1 = Some q)
    /\ mux_match (hb_path b) path = Some vars /\ hb_verb b = sb_verb sb
    /\ forall r0, (forall p, In p (sb_params sb) -> unsent (req (camel_of p)) \/ pm_loc p = T "body" -> r0 (camel_of p) = req (camel_of p)) ->
       exists r, (match decode_fields K vars (parse_query (encode_values q)) (hb_fields b) r0 false with
                  | DOk r' err' => decode_oneofs K (parse_query (encode_values q)) (hb_oneofs b) r' err' | x => x end) = DOk r false
         /\ (forall x, r x = r0 x \/ r x = req x) /\ forall p, In p (sb_params sb) -> r (camel_of p) = req (camel_of p).
Proof.
  intros K ms i m sb b ts req Hi Hb Hfit Hps. unfold new_binding in Hb. rewrite Hi in Hb.
  destruct (oneof_loop ms (sm_name m) (sb_params sb)) as [os| |] eqn:Eo; try discriminate. injection Hb as <-.
  set (b := mkHBind _ _ _ _ _ _). destruct Hfit as [F1 F2 F3 F4 F5 F6].
  assert (F4' : forall n, In (TVar n) ts -> exists p, In p (sb_params sb) /\ pm_loc p = T "path" /\ fd_pbname (pm_field p) = n).
  { intros n Hn. apply F4. apply vars_tvar. exact Hn. }
  assert (Hsafe : forall n, In (TVar n) ts -> path_safe (env K req b n)).
  { intros n Hn. exact (env_safe K (sm_name m) ts req (sb_params sb) Hps F5 F4' b eq_refl n Hn). }
  exists (filled (env K req b) ts), (the_query K (sm_name m) req (sb_params sb) os), (var_pairs (env K req b) ts).
  split. { rewrite (path_sent K (sm_name m) ts req (sb_params sb) Hps F5 F4' F2 b F1 eq_refl). apply url_parse_filled; assumption. }
  split. { exact (query_built K ms (sm_name m) ts req (sb_params sb) os Hps Eo). }
  split. { change (hb_path b) with (sb_path sb). rewrite F1. apply mux_match_filled; assumption. }
  split; [reflexivity|]. intros r0 Hr0.
  exact (decoded K ms (sm_name m) ts req (sb_params sb) os Hps Eo F6 F5 b eq_refl eq_refl r0 Hr0).
Qed.

(** ** C29: a GET request reaches its own route and comes out of the decoder as it went in. *)
Theorem c29_get_round_trip : forall K ms i m sb b ts req zero,
  nth_error (sm_bindings m) i = Some sb -> new_binding ms i m = Ret b -> sb_verb sb = T "get" -> fits ts sb ->
  Forall (carried K ts req) (sb_params sb) ->
  (forall p, In p (sb_params sb) -> unsent (req (camel_of p)) -> zero (camel_of p) = req (camel_of p)) ->
  exists h vars r, encode_request K b req = Some h /\ rq_verb h = T "GET" /\ rq_body h = []
    /\ mux_match (hb_path b) (rq_path h) = Some vars
    /\ decode_request K zero b vars h = DOk r false
    /\ (forall p, In p (sb_params sb) -> r (camel_of p) = req (camel_of p))
    /\ (forall x, r x = zero x \/ r x = req x).
Proof.
  intros K ms i m sb b ts req zero Hi Hb Hv Hfit Hps Hz.
  assert (Hps' : Forall (fun p => carried K ts req p \/ pm_loc p = T "body") (sb_params sb)) by (eapply Forall_impl; [|exact Hps]; auto).
  destruct (transport K ms i m sb b ts req Hi Hb Hfit Hps') as (path & q & vars & E1 & (m1 & E2 & E3) & E4 & E5 & Hd).
  destruct (Hd zero) as (r & E6 & Ht & Hr).
  { intros p Hp [Hu|Hu]; [apply Hz; assumption|]. rewrite Forall_forall in Hps. specialize (Hps p Hp). destruct Hps as [H|H|fs H]; rewrite H in Hu; discriminate Hu. }
  exists (mkReq (T "GET") path (encode_values q) []), vars, r.
  unfold encode_request. rewrite E1, E2, E3, E5, Hv. split; [reflexivity|]. split; [reflexivity|]. split; [reflexivity|]. split; [exact E4|].
  split; [exact E6|]. split; [exact Hr|]. exact Ht.
Qed.
Print Assumptions c29_get_round_trip.

(** ** C30: any other verb sends the whole request as the body as well; the server gets the request. *)
Theorem c30_body_round_trip : forall K ms i m sb b ts req data r0 zero,
  nth_error (sm_bindings m) i = Some sb -> new_binding ms i m = Ret b -> sb_verb sb <> T "get" -> fits ts sb ->
  Forall (fun p => carried K ts req p \/ pm_loc p = T "body") (sb_params sb) ->
  pj_enc K req = Some data -> data <> [] -> pj_dec K data = Some r0 -> (forall x, r0 x = req x) ->
  exists h vars r, encode_request K b req = Some h /\ rq_verb h = to_upper (sb_verb sb) /\ rq_body h = data
    /\ mux_match (hb_path b) (rq_path h) = Some vars
    /\ decode_request K zero b vars h = DOk r false
    /\ forall x, r x = req x.
Proof.
  intros K ms i m sb b ts req data r0 zero Hi Hb Hv Hfit Hps Hpe Hne Hpd H0.
  destruct (transport K ms i m sb b ts req Hi Hb Hfit Hps) as (path & q & vars & E1 & (m1 & E2 & E3) & E4 & E5 & Hd).
  destruct (Hd r0) as (r & E6 & Ht & Hr); [intros; apply H0|].
  exists (mkReq (to_upper (sb_verb sb)) path (encode_values q) data), vars, r.
  unfold encode_request. rewrite E1, E2, E3, E5, Hpe. apply str_eqb_neq in Hv. rewrite Hv. split; [reflexivity|]. split; [reflexivity|]. split; [reflexivity|].
  split; [exact E4|]. split; [|intro x; destruct (Ht x) as [E|E]; rewrite E; auto].
  unfold decode_request. cbn [rq_body rq_query]. destruct data; [congruence|]. rewrite Hpd. exact E6.
Qed.
Print Assumptions c30_body_round_trip.
(** Whatever the fields, the body of a request with another verb is the JSON of the whole request, and
    a GET has none. *)
Theorem c30_body : forall K b req h, encode_request K b req = Some h ->
  (hb_verb b = T "get" -> rq_body h = []) /\ (hb_verb b <> T "get" -> pj_enc K req = Some (rq_body h)).
Proof.
  intros K b req h H. unfold encode_request in H. destruct (url_parse_path _); [|discriminate]. destruct (query_fields _ _ _ _); [|discriminate].
  destruct (query_oneofs _ _ _ _); [|discriminate]. destruct (str_eqb_spec (hb_verb b) (T "get")) as [E|N1].
  - injection H as <-. split; [reflexivity|congruence].
  - destruct (pj_enc K req); [|discriminate]. injection H as <-. split; [congruence|reflexivity].
Qed.
(** A body that is no JSON of the request type is refused. *)
Theorem c30_bad_body : forall K zero b vars h, rq_body h <> [] -> pj_dec K (rq_body h) = None -> decode_request K zero b vars h = DErr.
Proof. intros K zero b vars h Hne H. unfold decode_request. destruct (rq_body h) eqn:E; [congruence|]. rewrite H. reflexivity. Qed.

(** ** C51: the query text of a client is read back as the same values, each key with its values in
    order; keys without values are gone. *)
Theorem c51_query : forall m k, Forall (fun e => bytes (fst e) /\ Forall bytes (snd e)) m -> NoDup (keys m) ->
  mget (parse_query (encode_values m)) k = match mget m k with Some [] => None | r => r end.
Proof. intros m k Hb Hnd. apply query_round_trip; assumption. Qed.
Print Assumptions c51_query.
(** The text is the same whatever order the map was built in. *)
Fixpoint sorted_keys (ks : list str) : Prop :=
  match ks with a :: ((b :: _) as l) => str_ltb b a = false /\ sorted_keys l | _ => True end.
Theorem c51_sorted : forall m : values, sorted_keys (keys (sort_keys m)).
Proof.
  assert (Hirr : forall a b, str_ltb a b = true -> str_ltb b a = false).
  { induction a as [|x a IH]; intros [|y b] H; try reflexivity; [discriminate|]. cbn in *. apply orb_true_iff in H. destruct H as [H|H].
    - apply N.ltb_lt in H. assert ((y <? x)%N = false) as -> by (apply N.ltb_ge; lia). assert (N.eqb y x = false) as -> by (apply N.eqb_neq; lia). reflexivity.
    - apply andb_true_iff in H. destruct H as [H1 H2]. apply N.eqb_eq in H1. subst y. rewrite N.ltb_irrefl, (IH b H2), andb_false_r. reflexivity. }
  assert (Hins : forall (p : str * list str) (m : values), sorted_keys (keys m) -> sorted_keys (keys (insert_key p m))).
  { intros p m. induction m as [|q m IH]; intro H; [exact I|]. cbn [insert_key]. destruct (str_ltb (fst q) (fst p)) eqn:E.
    - assert (Hm : sorted_keys (keys m)) by (destruct m as [|z m]; [exact I|apply H]). specialize (IH Hm).
      destruct m as [|z m]; cbn [insert_key keys map] in *.
      + split; [apply Hirr; exact E|exact I].
      + destruct (str_ltb (fst z) (fst p)); cbn [map keys] in *; (split; [|exact IH]); [apply H|apply Hirr; exact E].
    - cbn [keys map]. cbn [keys map] in H. split; [exact E|exact H]. }
  induction m as [|p m IH]; [exact I|]. cbn [sort_keys fold_right]. apply Hins. exact IH.
Qed.
Example c51_ex : let m := [(T "b", [T "x y"; T "&="]); (T "a", [T "%"]); (T "c", [])] in
  encode_values m = T "a=%25&b=x+y&b=%26%3D" /\ mget (parse_query (encode_values m)) (T "b") = Some [T "x y"; T "&="].
Proof. split; reflexivity. Qed.

(** ** C52: routing.  The first route (in the order of the methods and their bindings) whose verb and
    path match serves the request. *)
Theorem c52_first_match : forall routes h m b vars,
  serve routes h = Some (m, b, vars) <->
  exists pre post, routes = pre ++ (m, b) :: post
    /\ rq_verb h = to_upper (hb_verb b) /\ mux_match (hb_path b) (rq_path h) = Some vars
    /\ Forall (fun mb => ~ (rq_verb h = to_upper (hb_verb (snd mb)) /\ exists v, mux_match (hb_path (snd mb)) (rq_path h) = Some v)) pre.
Proof.
  intros routes h m b vars. split.
  - induction routes as [|[m' b'] rest IH]; intro H; cbn [serve] in H; [discriminate|].
    assert (Skip : serve rest h = Some (m, b, vars) -> ~ (rq_verb h = to_upper (hb_verb b') /\ exists v, mux_match (hb_path b') (rq_path h) = Some v) ->
      exists pre post, (m', b') :: rest = pre ++ (m, b) :: post /\ rq_verb h = to_upper (hb_verb b) /\ mux_match (hb_path b) (rq_path h) = Some vars
      /\ Forall (fun mb => ~ (rq_verb h = to_upper (hb_verb (snd mb)) /\ exists v, mux_match (hb_path (snd mb)) (rq_path h) = Some v)) pre).
    { intros Hs Hn. destruct (IH Hs) as (pre & post & -> & H1 & H2 & H3). exists ((m', b') :: pre), post. split; [reflexivity|]. split; [exact H1|]. split; [exact H2|].
      apply Forall_cons; [exact Hn|exact H3]. }
    destruct (str_eqb_spec (to_upper (hb_verb b')) (rq_verb h)) as [E|N1].
    + destruct (mux_match (hb_path b') (rq_path h)) as [v|] eqn:Em.
      * injection H as <- <- <-. exists [], rest. split; [reflexivity|]. split; [auto|]. split; [exact Em|apply Forall_nil].
      * apply Skip; [exact H|]. intros [_ [v Ev]]. congruence.
    + apply Skip; [exact H|]. intros [E _]. congruence.
  - intros (pre & post & -> & H1 & H2 & H3). induction H3 as [|[m' b'] pre Hn Hpre IH]; cbn [app serve].
    + rewrite H1, str_eqb_refl, H2. reflexivity.
    + cbn [snd] in Hn. destruct (str_eqb_spec (to_upper (hb_verb b')) (rq_verb h)) as [E|N1]; [|exact IH].
      destruct (mux_match (hb_path b') (rq_path h)) as [v|] eqn:Em; [|exact IH]. exfalso. apply Hn. split; [auto|]. exists v. reflexivity.
Qed.
Print Assumptions c52_first_match.
(** Every binding of every method has its own route. *)
Theorem c52_routes : forall hs m b, In (m, b) (make_routes hs) <-> exists h, In h hs /\ m = hm_name h /\ In b (hm_binds h).
Proof.
  intros hs m b. unfold make_routes. rewrite in_flat_map. split.
  - intros (h & Hh & H). apply in_map_iff in H. destruct H as (b' & E & Hb). injection E as <- <-. exists h. auto.
  - intros (h & Hh & -> & Hb). exists h. split; [exact Hh|]. apply in_map. exact Hb.
Qed.

(** ** Concrete cases.  Library code for the examples: floats are not used; messages travel as their own
    text; JSON string literals without escapes mean themselves. *)
Definition K0 : codecs := mkCodecs
  (fun _ _ => T "0.5") (fun _ _ => Some 1%N) (fun _ => T "0xc000012345")
  (fun v => match v with VSome (VMsg m) => Some m | _ => None end)
  (fun _ _ s => Some (VMsg s)) (fun s => Some s) (fun _ _ => VList [])
  (VMsg []) (fun _ => Some (T "{}")) (fun _ => Some (fun _ => VNone)).
Definition scalar (n : str) : ftype := mkFT n None None None None false false.
Definition repeated (n : str) : ftype := mkFT n None None None None false true.
Definition par (name pb : str) (t : ftype) (loc : str) : hparam := mkParam (mkFld name pb t) loc.
Definition meth1 (verb path : str) (ps : list hparam) : smethod :=
  mkSMeth (T "Get") (scalar (T "GetReq")) (scalar (T "GetResp")) [mkSBind verb path ps].
(** What becomes of a request: None, the path did not match; else what the decoder said, and the
    decoded value of one field. *)
Definition send (verb path : str) (ps : list hparam) (req : request) (x : str) : option (option (gval * bool)) :=
  match new_binding [] 0 (meth1 verb path ps) with
  | Ret b => match encode_request K0 b req with
             | Some h => match mux_match (hb_path b) (rq_path h) with
                         | Some vars => match decode_request K0 (fun _ => VNone) b vars h with
                                        | DOk r e => Some (Some (r x, e))
                                        | _ => Some None
                                        end
                         | None => None
                         end
             | None => None
             end
  | _ => None
  end.
Definition one (x : str) (v : gval) : request := fun y => if str_eqb y x then v else VNone.
Definition idp := [par (T "Id") (T "id") (scalar (T "string")) (T "path")].
Definition tags := [par (T "Tags") (T "tags") (repeated (T "string")) (T "query")].
(** Path values a generated client does not deliver: *)
Theorem c29_path_empty : send (T "get") (T "/v1/{id}") idp (one (T "Id") (VS [])) (T "Id") = None.
Proof. reflexivity. Qed.
Theorem c29_path_slash : send (T "get") (T "/v1/{id}") idp (one (T "Id") (VS (T "a/b"))) (T "Id") = None.
Proof. reflexivity. Qed.
Theorem c29_path_dots : send (T "get") (T "/v1/{id}") idp (one (T "Id") (VS (T ".."))) (T "Id") = None.
Proof. reflexivity. Qed.
(** ... or delivers wrong: everything after '?' is gone, and escapes are undone. *)
Theorem c29_path_question : send (T "get") (T "/v1/{id}") idp (one (T "Id") (VS (T "a?b"))) (T "Id") = Some (Some (VS (T "a"), false)).
Proof. reflexivity. Qed.
Theorem c29_path_percent : send (T "get") (T "/v1/{id}") idp (one (T "Id") (VS (T "%41"))) (T "Id") = Some (Some (VS (T "A"), false)).
Proof. reflexivity. Qed.
(** Whatever follows a '?' or '#' of a path value is cut off, for every path and value. *)
Theorem c29_path_cut : forall path c rest, c = 63%N \/ c = 35%N -> Forall (fun x => (32 <= x)%N /\ x <> 127%N /\ x <> 63%N /\ x <> 35%N) path ->
  Forall (fun x => (32 <= x)%N /\ x <> 127%N /\ x <> 37%N) rest -> url_parse_path (path ++ c :: rest) = url_parse_path path.
Proof.
  intros path c rest Hc Hp Hr.
  assert (Q : forall x, x = 63%N \/ x = 35%N -> ~ In x path).
  { intros x Hx Hi. rewrite Forall_forall in Hp. destruct (Hp x Hi) as (_ & _ & H1 & H2). destruct Hx; congruence. }
  assert (Ctl : forall s : str, Forall (fun x => (32 <= x)%N /\ x <> 127%N) s -> existsb (fun c => (c <? 32)%N || N.eqb c 127) s = false).
  { intros s Hs. induction Hs as [|x s [H1 H2] Hs IH]; [reflexivity|]. cbn [existsb]. rewrite IH. apply N.ltb_ge in H1. apply N.eqb_neq in H2. rewrite H1, H2. reflexivity. }
  assert (U : forall s : str, Forall (fun x => x <> 37%N) s -> exists u, unescape false s = Some u).
  { intros s Hs. induction Hs as [|x s H1 Hs [u IH]]; [eexists; reflexivity|]. cbn [unescape]. apply N.eqb_neq in H1. rewrite H1, IH. eexists. reflexivity. }
  assert (Hp2 : Forall (fun x => (32 <= x)%N /\ x <> 127%N) path) by (eapply Forall_impl; [|exact Hp]; intros a (H1 & H2 & H3 & H4); split; assumption).
  assert (Hr2 : Forall (fun x => (32 <= x)%N /\ x <> 127%N) rest) by (eapply Forall_impl; [|exact Hr]; intros a (H1 & H2 & H3); split; assumption).
  assert (Hc2 : (32 <= c)%N /\ c <> 127%N) by (destruct Hc; subst; split; lia).
  unfold url_parse_path. rewrite (Ctl path Hp2), (Ctl (path ++ c :: rest)) by (apply Forall_app; split; [exact Hp2|constructor; [exact Hc2|exact Hr2]]).
  rewrite (cut_at_none 35 path), (cut_at_none 63 path) by (apply Q; auto). change (unescape false []) with (Some (@nil N)). cbn iota.
  destruct Hc as [-> | ->].
  - assert (A : exists b f u, cut_at 35 (path ++ 63%N :: rest) = (path ++ 63%N :: b, f) /\ unescape false f = Some u).
    { assert (G : forall q r : str, ~ In 35%N q -> cut_at 35 (q ++ r) = (q ++ fst (cut_at 35 r), snd (cut_at 35 r))).
      { intros q r Hq. induction q as [|x q IHq]; cbn [app]; [destruct (cut_at 35 r); reflexivity|]. cbn [cut_at]. destruct (N.eqb_spec x 35) as [->|_]; [exfalso; apply Hq; left; reflexivity|].
        rewrite IHq by (intro K; apply Hq; right; exact K). reflexivity. }
      assert (Hs : Forall (fun x => x <> 37%N) (snd (cut_at 35 rest))).
      { assert (Hr3 : Forall (fun x => x <> 37%N) rest) by (eapply Forall_impl; [|exact Hr]; intros a (H1 & H2 & H3); exact H3). clear -Hr3. induction Hr3 as [|x s H1 Hs IH]; [constructor|]. cbn [cut_at].
        destruct (N.eqb x 35); [exact Hs|]. destruct (cut_at 35 s). exact IH. }
      destruct (U _ Hs) as (u & Eu). exists (fst (cut_at 35 rest)), (snd (cut_at 35 rest)), u. split; [|exact Eu]. rewrite G by (apply Q; auto). cbn [cut_at]. change (63 =? 35)%N with false. cbn iota.
      destruct (cut_at 35 rest). reflexivity. }
    destruct A as (b & f & u & E1 & E2). rewrite E1, E2, (cut_at_app 63 path b) by (apply Q; auto). reflexivity.
  - rewrite (cut_at_app 35 path rest) by (apply Q; auto). assert (Hs : Forall (fun x => x <> 37%N) rest) by (eapply Forall_impl; [|exact Hr]; intros a (H1 & H2 & H3); exact H3). destruct (U _ Hs) as (u & ->).
    rewrite (cut_at_none 63 path) by (apply Q; auto). reflexivity.
Qed.
Print Assumptions c29_path_cut.
(** A first path value that is empty takes the next one with it: what follows the two slashes is taken for a host. *)
Theorem c29_double_slash : forall host rest, Forall (fun x => (32 <= x)%N /\ x <> 127%N /\ x <> 63%N /\ x <> 35%N /\ x <> 37%N) (host ++ rest) -> ~ In c_slash host -> host <> [] ->
  url_parse_path (T "//" ++ host ++ T "/" ++ rest) = Some (T "/" ++ rest) /\ url_parse_path (T "//" ++ host) = Some [].
Proof.
  intros host rest H Hs Hne.
  assert (U : forall s : str, Forall (fun x => (32 <= x)%N /\ x <> 127%N /\ x <> 63%N /\ x <> 35%N /\ x <> 37%N) s ->
    existsb (fun c => (c <? 32)%N || N.eqb c 127) s = false /\ cut_at 35 s = (s, []) /\ cut_at 63 s = (s, []) /\ unescape false s = Some s).
  { intros s Hx. induction Hx as [|x s (H1 & H2 & H3 & H4 & H5) Hx (I1 & I2 & I3 & I4)]; [repeat split; reflexivity|]. cbn [existsb cut_at unescape]. rewrite I1, I2, I3, I4.
    apply N.ltb_ge in H1. apply N.eqb_neq in H2, H3, H4, H5. rewrite H1, H2, H3, H4, H5. repeat split; reflexivity. }
  apply Forall_app in H. destruct H as [Hh Hr].
  assert (A1 : Forall (fun x => (32 <= x)%N /\ x <> 127%N /\ x <> 63%N /\ x <> 35%N /\ x <> 37%N) (T "/" ++ rest)) by (apply Forall_cons; [repeat split; vm_compute; discriminate|exact Hr]).
  assert (A2 : Forall (fun x => (32 <= x)%N /\ x <> 127%N /\ x <> 63%N /\ x <> 35%N /\ x <> 37%N) (T "//" ++ host ++ T "/" ++ rest)).
  { apply Forall_cons; [repeat split; vm_compute; discriminate|]. apply Forall_cons; [repeat split; vm_compute; discriminate|]. apply Forall_app. split; assumption. }
  assert (A3 : Forall (fun x => (32 <= x)%N /\ x <> 127%N /\ x <> 63%N /\ x <> 35%N /\ x <> 37%N) (T "//" ++ host)).
  { apply Forall_cons; [repeat split; vm_compute; discriminate|]. apply Forall_cons; [repeat split; vm_compute; discriminate|]. exact Hh. }
  assert (P3 : forall t, has_prefix (T "//" ++ host ++ t) (T "//") && negb (has_prefix (T "//" ++ host ++ t) (T "///")) = true).
  { intro t. destruct host as [|c host]; [congruence|]. assert (E : N.eqb 47 c = false) by (apply N.eqb_neq; intros <-; apply Hs; left; reflexivity). cbn -[N.eqb]. rewrite E. destruct (host ++ t); reflexivity. }
  split.
  - destruct (U _ A2) as (E1 & E2 & E3 & _). unfold url_parse_path. rewrite E1, E2. change (unescape false []) with (Some (@nil N)). cbn iota. rewrite E3. change (T "//" ++ host ++ T "/" ++ rest) with (47%N :: 47%N :: host ++ T "/" ++ rest) at 1. cbn iota.
    rewrite P3. cbv zeta. change (skipn 2 (T "//" ++ host ++ T "/" ++ rest)) with (host ++ c_slash :: rest). rewrite (cut_at_app c_slash host rest Hs). cbn [snd].
    assert (contains1 (host ++ c_slash :: rest) c_slash = true) as -> by (apply existsb_exists; exists c_slash; split; [apply in_or_app; right; left; reflexivity|reflexivity]).
    exact (proj2 (proj2 (proj2 (U _ A1)))).
  - destruct (U _ A3) as (E1 & E2 & E3 & _). unfold url_parse_path. rewrite E1, E2. change (unescape false []) with (Some (@nil N)). cbn iota. rewrite E3. change (T "//" ++ host) with (47%N :: 47%N :: host) at 1. cbn iota.
    pose proof (P3 []) as P4. rewrite app_nil_r in P4. rewrite P4. cbv zeta. change (skipn 2 (T "//" ++ host)) with host.
    assert (contains1 host c_slash = false) as ->. { apply not_true_is_false. intro E. apply existsb_exists in E. destruct E as (c & Hc & Ec). apply N.eqb_eq in Ec. subst c. exact (Hs Hc). }
    destruct (snd (cut_at c_slash host)); reflexivity.
Qed.
Print Assumptions c29_double_slash.
Theorem c29_path_hash : send (T "get") (T "/v1/{id}") idp (one (T "Id") (VS (T "a#b"))) (T "Id") = Some (Some (VS (T "a"), false)).
Proof. reflexivity. Qed.
(** A part that is not just a parameter is sent as it stands. *)
Theorem c29_mixed_part : send (T "get") (T "/v1/{id}:cancel") idp (one (T "Id") (VS (T "7"))) (T "Id") = Some (Some (VS (T "{id}"), false)).
Proof. reflexivity. Qed.
(** A repeated string with one element: an error, or the element read as JSON. *)
Theorem c29_lone_string : send (T "get") (T "/v1") tags (one (T "Tags") (VList [VS (T "a")])) (T "Tags") = Some (Some (VList [], true)).
Proof. reflexivity. Qed.
Theorem c29_lone_string_json : send (T "get") (T "/v1") tags (one (T "Tags") (VList [VS (T "[]")])) (T "Tags") = Some (Some (VList [], false)).
Proof. reflexivity. Qed.
(** Two are fine, whatever they are. *)
Example c29_two_strings : send (T "get") (T "/v1") tags (one (T "Tags") (VList [VS (T "[]"); VS (T "a&b")])) (T "Tags")
  = Some (Some (VList [VS (T "[]"); VS (T "a&b")], false)).
Proof. reflexivity. Qed.
(** A missing message arrives as an empty one. *)
Theorem c29_nil_message : send (T "get") (T "/v1") [par (T "M") (T "m") (mkFT (T "Msg") None None (Some (MDef 0)) None true false) (T "query")]
  (one (T "M") VNone) (T "M") = Some (Some (VSome (VMsg []), false)).
Proof. reflexivity. Qed.
(** An option of a oneof that is set to its zero value is not sent. *)
Definition pick := [par (T "Kind") (T "kind") (mkFT [] None (Some [mkFld (T "N") (T "n") (mkFT (T "int32") None None (Some (MSynth (T "Get_N"))) None true false)]) None None false false) (T "query")].
Theorem c29_oneof_zero : send (T "get") (T "/v1") pick (one (T "Kind") (VOneof (Some (T "N", VZ 0)))) (T "Kind") = Some (Some (VNone, false)).
Proof. reflexivity. Qed.
Example c29_oneof_set : send (T "get") (T "/v1") pick (one (T "Kind") (VOneof (Some (T "N", VZ (-3))))) (T "Kind") = Some (Some (VOneof (Some (T "N", VZ (-3))), false)).
Proof. reflexivity. Qed.
(** A body field of a GET is not sent. *)
Theorem c29_get_body_lost : send (T "get") (T "/v1") [par (T "A") (T "a") (scalar (T "int64")) (T "body")] (one (T "A") (VZ 5)) (T "A") = Some (Some (VNone, false)).
Proof. reflexivity. Qed.
(** A map in the query is not sent. *)
Theorem c29_map_lost : send (T "get") (T "/v1") [par (T "A") (T "a") (mkFT [] None None None (Some (scalar (T "string"), scalar (T "string"))) false false) (T "query")]
  (one (T "A") (VList [VS (T "x")])) (T "A") = Some (Some (VNone, false)).
Proof. reflexivity. Qed.
(** An optional path parameter sends its address. *)
Theorem c29_optional_path : send (T "get") (T "/v1/{a}") [par (T "A") (T "a") (mkFT (T "string") None None None None true false) (T "path")]
  (one (T "A") (VSome (VS (T "x")))) (T "A") = Some (Some (VSome (VS (T "0xc000012345")), false)).
Proof. reflexivity. Qed.

(** The hypotheses of the round trip hold of a real binding: a path string, an enum in the path, a
    repeated number with one element, an optional string, a oneof. *)
Definition ex_ps : list hparam :=
  [par (T "Id") (T "id") (scalar (T "string")) (T "path");
   par (T "Kind") (T "kind") (mkFT (T "K") (Some 0) None None None false false) (T "path");
   par (T "Nums") (T "nums") (repeated (T "int32")) (T "query");
   par (T "Opt") (T "opt") (mkFT (T "string") None None None None true false) (T "query");
   par (T "Choice") (T "choice") (mkFT [] None (Some [mkFld (T "A") (T "a") (mkFT (T "bool") None None (Some (MSynth (T "Get_A"))) None true false);
        mkFld (T "B") (T "b") (mkFT (T "uint64") None None (Some (MSynth (T "Get_B"))) None true false)]) None None false false) (T "query")].
Definition ex_ts := [TLit (T "v1"); TVar (T "id"); TLit (T "of"); TVar (T "kind")].
Definition ex_path := T "/v1/{id}/of/{kind}".
Definition ex_req : request := fun y =>
  if str_eqb y (T "Id") then VS (T "j p~1") else if str_eqb y (T "Kind") then VZ 2 else if str_eqb y (T "Nums") then VList [VZ (-7)]
  else if str_eqb y (T "Opt") then VNone else if str_eqb y (T "Choice") then VOneof (Some (T "B", VZ 99)) else VNone.
Ltac texts := repeat (apply Forall_cons; [first [reflexivity | unfold url_plain; cbv; repeat split; discriminate]|]); apply Forall_nil.
Lemma ex_plain : forall s, forallb (fun c => negb (N.eqb c c_slash) && negb (N.eqb c c_lbrace) && negb (N.eqb c c_rbrace)) s = true -> plain s.
Proof.
  intros s H. rewrite forallb_forall in H. split; [|split]; intro Hi; specialize (H _ Hi); vm_compute in H; discriminate H.
Qed.
Lemma ex_safe : forall s, s <> [] -> s <> T "." -> s <> T ".." -> forallb (fun c => negb (existsb (N.eqb c) [c_slash; 63; 35; 37; 127]%N) && (32 <=? c)%N) s = true -> path_safe s.
Proof.
  intros s H1 H2 H3 H. split; [exact H1|]. split; [exact H2|]. split; [exact H3|]. apply Forall_forall. intros c Hc. rewrite forallb_forall in H. specialize (H c Hc).
  apply andb_true_iff in H. destruct H as [Ha Hb]. apply N.leb_le in Hb. apply negb_true_iff in Ha. cbn [existsb] in Ha.
  repeat (apply orb_false_iff in Ha; destruct Ha as [?E Ha]). repeat match goal with E : N.eqb _ _ = false |- _ => apply N.eqb_neq in E end.
  unfold url_plain. auto 10.
Qed.
Fixpoint nodupb (l : list str) : bool := match l with [] => true | x :: l' => negb (existsb (str_eqb x) l') && nodupb l' end.
Lemma nodup_dec : forall l, nodupb l = true -> NoDup l.
Proof.
  induction l as [|x l IH]; intro H; constructor; cbn in H; apply andb_true_iff in H; destruct H as [H1 H2]; [|apply IH; exact H2].
  intro Hi. apply negb_true_iff in H1. apply not_true_iff_false in H1. apply H1. apply existsb_exists. exists x. split; [exact Hi|apply str_eqb_refl].
Qed.
Example c29_fits : fits ex_ts (mkSBind (T "get") ex_path ex_ps).
Proof.
  constructor.
  - reflexivity.
  - split; [discriminate|]. exists ex_ts. split; [|left; reflexivity].
    apply Forall_cons; [split; [apply ex_safe; [discriminate|discriminate|discriminate|reflexivity]|apply ex_plain; reflexivity]|].
    apply Forall_cons; [split; [discriminate|]; split; [apply ex_plain; reflexivity|]; intros [H|[H|[]]]; discriminate|].
    apply Forall_cons; [split; [apply ex_safe; [discriminate|discriminate|discriminate|reflexivity]|apply ex_plain; reflexivity]|].
    apply Forall_cons; [split; [discriminate|]; split; [apply ex_plain; reflexivity|]; intros [H|[H|[H|[H|[]]]]]; discriminate|]. apply Forall_nil.
  - apply nodup_dec. reflexivity.
  - intros n [<-|[<-|[]]]; eexists; (split; [|split]); [left; reflexivity|reflexivity|reflexivity|right; left; reflexivity|reflexivity|reflexivity].
  - apply nodup_dec. reflexivity.
  - apply nodup_dec. reflexivity.
Qed.
Example c29_carried : Forall (carried K0 ex_ts ex_req) ex_ps.
Proof.
  apply Forall_cons.
  { apply CarriedPath; [reflexivity| |discriminate|right; left; reflexivity|reflexivity]. apply PvScalar; [apply SvStr; texts|].
    apply ex_safe; [discriminate|discriminate|discriminate|reflexivity]. }
  apply Forall_cons.
  { apply CarriedPath; [reflexivity| |discriminate|right; right; right; left; reflexivity|reflexivity]. apply PvEnum. lia. }
  apply Forall_cons.
  { apply CarriedQuery; [reflexivity| |discriminate|texts]. apply QScalars; [unfold scalar_name, go_base_types; cbn [In]; auto|apply Forall_cons; [apply SvI32; lia|apply Forall_nil]|].
    intros v E. injection E as <-. exact I. }
  apply Forall_cons.
  { apply CarriedQuery; [reflexivity| |discriminate|texts]. apply QNone. cbn [In]. auto 10. }
  apply Forall_cons; [|apply Forall_nil].
  eapply CarriedOneof; [reflexivity|reflexivity|apply nodup_dec; reflexivity| |].
  - apply Forall_cons; [split; [eexists; eexists; eexists; split; [reflexivity|unfold scalar_name, go_base_types; cbn [In]; auto 10]|texts]|].
    apply Forall_cons; [split; [eexists; eexists; eexists; split; [reflexivity|unfold scalar_name, go_base_types; cbn [In]; auto 10]|texts]|apply Forall_nil].
  - change (ex_req (camel_of _)) with (VOneof (Some (fd_name (mkFld (T "B") (T "b") (mkFT (T "uint64") None None (Some (MSynth (T "Get_B"))) None true false)), VZ 99))).
    apply OvSome; [right; left; reflexivity|apply SvU64; lia|discriminate].
Qed.
Example c29_ex : exists h vars r, encode_request K0 (match new_binding [] 0 (meth1 (T "get") ex_path ex_ps) with Ret b => b | _ => mkHBind [] [] [] [] [] [] end) ex_req = Some h
  /\ rq_path h = T "/v1/j p~1/of/2" /\ rq_query h = T "b=99&nums=-7" /\ mux_match ex_path (rq_path h) = Some vars
  /\ decode_request K0 (fun _ => VNone) (match new_binding [] 0 (meth1 (T "get") ex_path ex_ps) with Ret b => b | _ => mkHBind [] [] [] [] [] [] end) vars h = DOk r false
  /\ r (T "Choice") = VOneof (Some (T "B", VZ 99)).
Proof. eexists. eexists. eexists. split; [reflexivity|]. split; [reflexivity|]. split; [reflexivity|]. split; [reflexivity|]. split; reflexivity. Qed.
