(** C33, C54, C55: context values, headers and metadata. *)
From Coq Require Import Permutation.
From Verif Require Import GoStr GoStrProofs GoMap Context ContextProofs.

(** ** Vocabulary *)
(** The headers of a request as the HTTP server hands them over: one entry per name, every name a
    token in canonical form. *)
Definition received (h : header) : Prop :=
  NoDup (keys h) /\ forall k, In k (keys h) -> is_token k = true /\ canonical k = k.
(** The first value of a header ("" when it has no value). *)
Definition first_value (h : header) (k v : str) : Prop :=
  exists vs, In (k, vs) h /\ v = hd [] vs.
(** The two names a header may be asked for by. *)
Definition names (k q : str) : Prop := q = k \/ q = to_lower k.
(** Metadata as gRPC delivers it: lower-case token names, one entry each, no empty entry. *)
Definition received_md (md : metadata) : Prop :=
  NoDup (keys md) /\ forall k o, In (k, o) md -> is_token k = true /\ to_lower k = k /\ o <> Some [].

Lemma h_get_first : forall h k, received h -> In k (keys h) -> first_value h k (h_get h k).
Proof.
  intros h k [H1 H2] Hk. destruct (H2 k Hk) as [_ Hc]. unfold h_get. rewrite Hc.
  destruct (mget h k) as [vs|] eqn:E; [|apply mget_none in E; contradiction].
  apply (mget_in h k vs H1) in E. exists vs. split; [exact E|]. destruct vs; reflexivity.
Qed.
Lemma header_push2 : forall h, header_to_ctx h = push2 (fun k => k) to_lower (h_get h).
Proof. reflexivity. Qed.
Lemma same_name : forall h a b q, received h -> In a (keys h) -> In b (keys h) -> names a q -> names b q -> a = b.
Proof.
  intros h a b q [_ H] Ha Hb Na Nb. destruct (H a Ha) as [Ta Ca]. destruct (H b Hb) as [_ Cb].
  rewrite <- Ca, <- Cb. apply canonical_same; [exact Ta|].
  assert (E : forall x, names x q -> to_lower x = to_lower q).
  { intros x [->| ->]; [reflexivity|rewrite lower_idem; reflexivity]. }
  rewrite (E a Na), (E b Nb). reflexivity.
Qed.
Lemma first_value_unique : forall h k v w, NoDup (keys h) -> first_value h k v -> first_value h k w -> v = w.
Proof.
  intros h k v w H (vs & Hv & ->) (ws & Hw & ->). apply (mget_in h k vs H) in Hv. apply (mget_in h k ws H) in Hw. congruence.
Qed.

(** C33: every header of a received request is in the context, with its first value, under its
    canonical and its lower-cased name (unless the latter is one of the two reserved names). *)
Theorem c33_headers : forall order h path c k q v, received h -> Permutation order (keys h) ->
  first_value h k v -> names k q -> q <> T "request-url" -> q <> T "transport" ->
  value (http_headers_to_context order h path c) (KStr q) = Some (VStr v).
Proof.
  intros order h path c k q v Hr Hp Hv Hn N1 N2. unfold http_headers_to_context, with_value. cbn [value ckey_eqb].
  apply str_eqb_neq in N1, N2. rewrite N1, N2. rewrite header_push2.
  assert (Hk : In k (keys h)). { destruct Hv as (vs & Hi & _). change k with (fst (k, vs)). apply in_map. exact Hi. }
  apply push2_hit.
  - intros j Hj Hq. apply (Permutation_in _ Hp) in Hj. assert (j = k) by (apply (same_name h j k q Hr Hj Hk); [exact Hq|exact Hn]). subst j.
    apply (first_value_unique h k _ _ (proj1 Hr)); [apply h_get_first; assumption|exact Hv].
  - exists k. split; [apply (Permutation_in _ (Permutation_sym Hp)); exact Hk|exact Hn].
Qed.
Print Assumptions c33_headers.
(** The canonical name is always there. *)
Theorem c33_canonical : forall order h path c k v, received h -> Permutation order (keys h) ->
  first_value h k v -> value (http_headers_to_context order h path c) (KStr k) = Some (VStr v).
Proof.
  intros order h path c k v Hr Hp Hv. apply c33_headers with (k := k); auto; [left; reflexivity| |].
  - intros ->. destruct Hv as (vs & Hi & _). destruct Hr as [_ Hr].
    destruct (Hr (T "request-url")) as [_ E]; [change (T "request-url") with (fst (T "request-url", vs)); apply in_map; exact Hi|discriminate E].
  - intros ->. destruct Hv as (vs & Hi & _). destruct Hr as [_ Hr].
    destruct (Hr (T "transport")) as [_ E]; [change (T "transport") with (fst (T "transport", vs)); apply in_map; exact Hi|discriminate E].
Qed.
Print Assumptions c33_canonical.
(** The two reserved names always hold the path and the transport - whatever the headers are. *)
Theorem c33_reserved : forall order h path c,
  value (http_headers_to_context order h path c) (KStr (T "request-url")) = Some (VStr path) /\
  value (http_headers_to_context order h path c) (KStr (T "transport")) = Some (VStr (T "HTTPJSON")).
Proof. intros. split; reflexivity. Qed.
Print Assumptions c33_reserved.
(** Every other value is untouched - whatever the headers are. *)
Theorem c33_unrelated : forall order h path c q, Permutation order (keys h) ->
  q <> KStr (T "request-url") -> q <> KStr (T "transport") ->
  (forall k s, In k (keys h) -> names k s -> q <> KStr s) ->
  value (http_headers_to_context order h path c) q = value c q.
Proof.
  intros order h path c q Hp N1 N2 H. unfold http_headers_to_context, with_value. cbn [value].
  assert (E : forall s, q <> KStr s -> ckey_eqb q (KStr s) = false).
  { intros s N3. destruct q as [x|n]; [|reflexivity]. apply str_eqb_neq. congruence. }
  rewrite !E by assumption. rewrite header_push2. apply push2_miss. intros k Hk. apply (Permutation_in _ Hp) in Hk.
  split; apply (H k); auto; [left|right]; reflexivity.
Qed.
Print Assumptions c33_unrelated.
(** So the order of iteration never shows. *)
Theorem c33_order_free : forall o1 o2 h path c q, received h -> Permutation o1 (keys h) -> Permutation o2 (keys h) ->
  value (http_headers_to_context o1 h path c) q = value (http_headers_to_context o2 h path c) q.
Proof.
  intros o1 o2 h path c q Hr H1 H2.
  destruct q as [q|n].
  2: { rewrite !c33_unrelated; auto; try discriminate; intros; discriminate. }
  destruct (str_eq_dec q (T "request-url")) as [->|N1]; [rewrite !(proj1 (c33_reserved _ _ _ _)); reflexivity|].
  destruct (str_eq_dec q (T "transport")) as [->|N2]; [rewrite !(proj2 (c33_reserved _ _ _ _)); reflexivity|].
  destruct (existsb (fun k => str_eqb q k || str_eqb q (to_lower k)) (keys h)) eqn:Ex.
  - apply existsb_exists in Ex. destruct Ex as (k & Hk & E). apply orb_true_iff in E. rewrite !str_eqb_eq in E.
    pose proof (h_get_first h k Hr Hk) as Hv. rewrite (c33_headers o1 h path c k q (h_get h k)), (c33_headers o2 h path c k q (h_get h k)) by auto. reflexivity.
  - assert (Hno : forall k s, In k (keys h) -> names k s -> KStr q <> KStr s).
    { intros k s Hk Hn [= <-]. assert (existsb (fun k => str_eqb q k || str_eqb q (to_lower k)) (keys h) = true); [|congruence].
      apply existsb_exists. exists k. split; [exact Hk|]. apply orb_true_iff. rewrite !str_eqb_eq. exact Hn. }
    rewrite !c33_unrelated by (auto; congruence). reflexivity.
Qed.
Print Assumptions c33_order_free.
(** Not so for a header map that was not canonicalised: then the order shows. *)
Example c33_order_shows : exists h o1 o2 q, NoDup (keys h) /\ Permutation o1 (keys h) /\ Permutation o2 (keys h) /\
  value (http_headers_to_context o1 h [] []) q <> value (http_headers_to_context o2 h [] []) q.
Proof.
  exists [(T "A b", [T "1"]); (T "a b", [T "2"])], [T "A b"; T "a b"], [T "a b"; T "A b"], (KStr (T "a b")).
  split; [|split; [apply Permutation_refl|split; [apply perm_swap|]]]; [|discriminate].
  repeat constructor; cbn; intros H; repeat destruct H as [H|H]; try discriminate; contradiction.
Qed.
(** A header that is called like a reserved name is only found under its canonical name. *)
Example c33_transport_header : let h := [(T "Transport", [T "carrier pigeon"])] in
  value (http_headers_to_context (keys h) h (T "/x") []) (KStr (T "Transport")) = Some (VStr (T "carrier pigeon")) /\
  value (http_headers_to_context (keys h) h (T "/x") []) (KStr (T "transport")) = Some (VStr (T "HTTPJSON")).
Proof. split; reflexivity. Qed.
Example c33_ex : let h := [(T "User-Id", [T "7"; T "8"]); (T "X-1", [])] in received h /\
  value (http_headers_to_context [T "X-1"; T "User-Id"] h (T "/x") []) (KStr (T "user-id")) = Some (VStr (T "7")).
Proof.
  cbv zeta. split; [|reflexivity]. split.
  - repeat constructor; cbn; intros H; repeat destruct H as [H|H]; try discriminate; contradiction.
  - intros k [<-|[<-|[]]]; split; reflexivity.
Qed.

(** ** C54: context values sent with CtxValuesToSend *)
Lemma fold_set_get : forall ks c h q, NoDup (keys h) ->
  NoDup (keys (ctx_values_to_send ks c h)) /\
  mget (ctx_values_to_send ks c h) q =
    match find (fun k => match string_value c k with Some _ => str_eqb q (canonical k) | None => false end) (rev ks) with
    | Some k => option_map (fun v => [v]) (string_value c k)
    | None => mget h q
    end.
Proof.
  unfold ctx_values_to_send. induction ks as [|k ks IH] using rev_ind; intros c h q Hh; [split; [exact Hh|reflexivity]|].
  rewrite fold_left_app, rev_app_distr. cbn [fold_left rev app find].
  destruct (IH c h q Hh) as [H1 H2]. destruct (string_value c k) as [v|] eqn:E; [|split; [exact H1|exact H2]].
  unfold h_set. split; [apply nodup_mset; exact H1|]. rewrite mget_mset.
  destruct (str_eqb q (canonical k)); [rewrite E; reflexivity|exact H2].
Qed.
(** No later listed key with a string value has the same header name. *)
Definition last_of (ks : list str) (c : ctx) (k : str) : Prop :=
  exists l1 l2, ks = l1 ++ k :: l2 /\ forall j, In j l2 -> string_value c j <> None -> to_lower j <> to_lower k.
Lemma find_app_none : forall (A : Type) (f : A -> bool) l1 l2, (forall x, In x l1 -> f x = false) -> find f (l1 ++ l2) = find f l2.
Proof. intros A f l1 l2 H. induction l1 as [|x l IH]; [reflexivity|]. cbn [app find]. rewrite (H x) by (left; reflexivity). apply IH. intros y Hy. apply H. right. exact Hy. Qed.
(** The header that is sent. *)
Theorem c54_header : forall ks c h k v, NoDup (keys h) -> is_token k = true -> last_of ks c k -> string_value c k = Some v ->
  mget (ctx_values_to_send ks c h) (canonical k) = Some [v].
Proof.
  intros ks c h k v Hh Tk (l1 & l2 & -> & Hl) Hv. destruct (fold_set_get (l1 ++ k :: l2) c h (canonical k) Hh) as [_ E]. rewrite E.
  rewrite rev_app_distr. cbn [rev]. rewrite <- app_assoc. rewrite find_app_none.
  - cbn [app find]. rewrite Hv, str_eqb_refl, Hv. reflexivity.
  - intros j Hj. apply in_rev in Hj. destruct (string_value c j) as [w|] eqn:Ew; [|reflexivity]. apply str_eqb_neq. intro K.
    apply (Hl j Hj); [congruence|]. rewrite <- (lower_canonical j), <- K. apply lower_canonical.
Qed.
Print Assumptions c54_header.
(** A header nobody asked for is untouched. *)
Theorem c54_other : forall ks c h q, NoDup (keys h) -> (forall k, In k ks -> canonical k <> q) ->
  mget (ctx_values_to_send ks c h) q = mget h q.
Proof.
  intros ks c h q Hh H. destruct (fold_set_get ks c h q Hh) as [_ E]. rewrite E.
  replace (find _ (rev ks)) with (@None str); [reflexivity|]. symmetry. rewrite <- (app_nil_r (rev ks)). apply find_app_none.
  intros k Hk. apply in_rev in Hk. destruct (string_value c k); [|reflexivity]. apply str_eqb_neq. apply not_eq_sym. apply H. exact Hk.
Qed.
Print Assumptions c54_other.
(** What the server sees: the value a key has in the client's context is in the server's context under
    the canonical and the lower-cased key. *)
Theorem c54_hop : forall ks c h k v q order path sc, received h -> (forall j, In j ks -> is_token j = true) ->
  last_of ks c k -> string_value c k = Some v ->
  let sent := ctx_values_to_send ks c h in Permutation order (keys sent) ->
  names (canonical k) q -> q <> T "request-url" -> q <> T "transport" ->
  value (http_headers_to_context order sent path sc) (KStr q) = Some (VStr v).
Proof.
  intros ks c h k v q order path sc Hr Ht Hl Hv sent Hp Hn N1 N2.
  assert (Hk : In k ks) by (destruct Hl as (l1 & l2 & -> & _); apply in_app_iff; right; left; reflexivity).
  assert (Hrs : received sent).
  { split; [apply (proj1 (fold_set_get ks c h [] (proj1 Hr)))|]. intros x Hx.
    destruct (mget sent x) as [vs|] eqn:E; [|apply mget_none in E; contradiction].
    destruct (fold_set_get ks c h x (proj1 Hr)) as [_ E2]. fold sent in E2.
    destruct (find _ (rev ks)) as [j|] eqn:Ef.
    - apply find_some in Ef. destruct Ef as [Hj Ej]. apply in_rev in Hj. destruct (string_value c j); [|discriminate].
      apply str_eqb_eq in Ej. subst x. split; [rewrite token_canonical; apply Ht; exact Hj|apply canonical_idem].
    - apply (proj2 Hr). rewrite E in E2. destruct (in_dec str_eq_dec x (keys h)) as [Hi|Hi]; [exact Hi|]. apply mget_none in Hi. congruence. }
  apply c33_headers with (k := canonical k); auto. exists [v]. split; [|reflexivity].
  apply (mget_in _ _ _ (proj1 Hrs)). apply c54_header; auto. apply (proj1 Hr).
Qed.
Print Assumptions c54_hop.
(** REFUTED: "the value is found under the key that was sent". *)
Theorem c54_refuted : exists c k v, string_value c k = Some v /\ is_token k = true /\
  let sent := ctx_values_to_send [k] c [] in
  value (http_headers_to_context (keys sent) sent [] []) (KStr k) = None.
Proof. exists [(KStr (T "userID"), VStr (T "7"))], (T "userID"), (T "7"). split; [reflexivity|]. split; reflexivity. Qed.
Example c54_ex : let c := [(KStr (T "userID"), VStr (T "7")); (KStr (T "n"), VOther 3)] in
  last_of [T "userID"; T "n"] c (T "userID") /\ string_value c (T "userID") = Some (T "7") /\
  let sent := ctx_values_to_send [T "userID"; T "n"] c [] in
  value (http_headers_to_context (keys sent) sent [] []) (KStr (T "userid")) = Some (VStr (T "7")).
Proof.
  cbv zeta. split; [|split; reflexivity]. exists [], [T "n"]. split; [reflexivity|]. intros j [<-|[]] _. discriminate.
Qed.

(** ** C55: gRPC metadata *)
Lemma md_push2 : forall md order c, (forall k, In k order -> mget md k <> Some (Some [])) ->
  grpc_metadata_to_context order md c =
  Some (fold_left (push2 (fun k => k) canonical (fun k => match mget md k with Some (Some (v :: _)) => v | _ => [] end))
    (filter (fun k => match mget md k with Some (Some (_ :: _)) => true | _ => false end) order) c).
Proof.
  unfold grpc_metadata_to_context. induction order as [|k ks IH]; intros c H; [reflexivity|]. cbn [fold_left filter md_to_ctx].
  specialize (H k (or_introl eq_refl)) as Hk. destruct (mget md k) as [[[|v vs]|]|] eqn:E; [congruence| | |]; try (apply IH; intros j Hj; apply H; right; exact Hj).
  rewrite IH by (intros j Hj; apply H; right; exact Hj). cbn [fold_left]. unfold push2 at 3. rewrite E. reflexivity.
Qed.
Lemma md_panic_stays : forall md order, fold_left (md_to_ctx md) order None = None.
Proof. intros md order. induction order as [|k ks IH]; [reflexivity|exact IH]. Qed.
(** It panics iff some entry is empty without being nil. *)
Theorem c55_panic : forall order md c, Permutation order (keys md) -> NoDup (keys md) ->
  (grpc_metadata_to_context order md c = None <-> exists k, In (k, Some []) md).
Proof.
  intros order md c Hp Hn. split.
  - intro H. destruct (existsb (fun k => match mget md k with Some (Some []) => true | _ => false end) order) eqn:Ex.
    + apply existsb_exists in Ex. destruct Ex as (k & _ & E). exists k. apply (mget_in md k _ Hn). destruct (mget md k) as [[[|]|]|]; try discriminate. reflexivity.
    + rewrite md_push2 in H; [discriminate|]. intros k Hk K. assert (existsb (fun k => match mget md k with Some (Some []) => true | _ => false end) order = true); [|congruence].
      apply existsb_exists. exists k. split; [exact Hk|]. rewrite K. reflexivity.
  - intros (k & Hk). apply (mget_in md k _ Hn) in Hk. assert (Hi : In k order).
    { apply (Permutation_in _ (Permutation_sym Hp)). destruct (in_dec str_eq_dec k (keys md)) as [Hi|Hi]; [exact Hi|]. apply mget_none in Hi. congruence. }
    apply in_split in Hi. destruct Hi as (l1 & l2 & ->). unfold grpc_metadata_to_context. rewrite fold_left_app. cbn [fold_left].
    destruct (fold_left (md_to_ctx md) l1 (Some c)) as [c'|]; cbn [md_to_ctx]; [rewrite Hk|]; apply md_panic_stays.
Qed.
Print Assumptions c55_panic.
(** Received metadata: the first value is found under the name and its canonical form; the rest stays. *)
Theorem c55_metadata : forall order md c, received_md md -> Permutation order (keys md) ->
  exists c', grpc_metadata_to_context order md c = Some c' /\
  (forall k v vs q, In (k, Some (v :: vs)) md -> q = k \/ q = canonical k -> value c' (KStr q) = Some (VStr v)) /\
  (forall q, (forall k s, In k (keys md) -> s = k \/ s = canonical k -> q <> KStr s) -> value c' q = value c q).
Proof.
  intros order md c [Hn Hr] Hp.
  assert (Hne : forall k, mget md k <> Some (Some [])).
  { intros k K. apply (mget_in md k _ Hn) in K. destruct (Hr _ _ K) as (_ & _ & K2). congruence. }
  rewrite md_push2 by (intros; apply Hne). eexists. split; [reflexivity|]. split.
  - intros k v vs q Hk Hq. pose proof Hk as Hg. apply (mget_in md k _ Hn) in Hg. apply push2_hit.
    + intros j Hj Hqj. apply filter_In in Hj. destruct Hj as [Hj Ej]. destruct (mget md j) as [[[|w ws]|]|] eqn:Egj; try discriminate.
      apply (mget_in md j _ Hn) in Egj as Hjin. destruct (Hr _ _ Hk) as (Tk & Lk & _). destruct (Hr _ _ Hjin) as (Tj & Lj & _).
      assert (L : forall x, q = x \/ q = canonical x -> to_lower q = to_lower x) by (intros x [-> | ->]; [reflexivity|apply lower_canonical]).
      assert (j = k) by (rewrite <- Lk, <- Lj, <- (L k Hq), <- (L j Hqj); reflexivity).
      subst j. congruence.
    + exists k. split; [|exact Hq]. apply filter_In. rewrite Hg. split; [|reflexivity]. apply (Permutation_in _ (Permutation_sym Hp)).
      change k with (fst (k, Some (v :: vs))). apply in_map. exact Hk.
  - intros q H. apply push2_miss. intros k Hk. apply filter_In in Hk. destruct Hk as [Hk _]. apply (Permutation_in _ Hp) in Hk.
    split; apply (H k); auto.
Qed.
Print Assumptions c55_metadata.

(** ** The gRPC hop *)
Lemma pairs_get : forall ps q, NoDup (keys (md_pairs ps)) /\
  mget (md_pairs ps) q = match map snd (filter (fun p => str_eqb q (to_lower (fst p))) ps) with [] => None | vs => Some (Some vs) end.
Proof.
  unfold md_pairs. induction ps as [|[k v] ps IH] using rev_ind; intro q; [split; [constructor|reflexivity]|].
  rewrite fold_left_app, filter_app, map_app. cbn [fold_left filter map fst snd app].
  destruct (IH q) as [H1 H2]. split; [apply nodup_mset; exact H1|]. unfold md_append at 1. rewrite mget_mset.
  destruct (str_eqb_spec q (to_lower k)) as [->|N1].
  - rewrite H2. cbn [map snd]. destruct (map snd _) as [|w ws]; reflexivity.
  - cbn [map app]. rewrite app_nil_r. exact H2.
Qed.
Definition join2 (a : option (option (list str))) (o : option (list str)) : option (option (list str)) :=
  Some (match a, o with
        | Some (Some l), Some vs => Some (l ++ vs)
        | Some (Some l), None => Some l
        | _, Some (v :: vs) => Some (v :: vs)
        | _, _ => None
        end).
Lemma join_get : forall l m q, NoDup (keys l) -> 
  mget (fold_left (fun md p => md_append_join md (fst p) (snd p)) l m) q =
  match mget l q with None => mget m q | Some o => join2 (mget m q) o end.
Proof.
  induction l as [|[k o] l IH]; intros m q H; [reflexivity|]. cbn [fold_left fst snd mget]. inversion H as [|x y Hx Hl]; subst.
  rewrite IH by exact Hl. unfold md_append_join. rewrite mget_mset. destruct (str_eqb_spec q k) as [->|N1].
  - apply mget_none in Hx. rewrite Hx. reflexivity.
  - reflexivity.
Qed.
(** The values the listed keys have, for the keys whose lower-cased form is q, in order. *)
Fixpoint sent_values (ks : list str) (c : ctx) (q : str) : list str :=
  match ks with
  | [] => []
  | k :: ks' =>
      match string_value c k with
      | Some v => if str_eqb q (to_lower k) then v :: sent_values ks' c q else sent_values ks' c q
      | None => sent_values ks' c q
      end
  end.
Lemma ctx_pairs_values : forall ks c q, map snd (filter (fun p => str_eqb q (to_lower (fst p))) (ctx_pairs ks c)) = sent_values ks c q.
Proof.
  intros ks c q. induction ks as [|k ks IH]; [reflexivity|]. cbn [sent_values]. unfold ctx_pairs. cbn [flat_map]. fold (ctx_pairs ks c).
  destruct (string_value c k) as [v|]; [|exact IH]. cbn [app filter fst]. destruct (str_eqb q (to_lower k)); [cbn [map snd]; rewrite IH; reflexivity|exact IH].
Qed.
(** The values under a name. *)
Definition values_at (md : metadata) (q : str) : list str := match mget md q with Some (Some l) => l | _ => [] end.
(** C55: what is sent under a name is what was there, followed by the values of the listed keys. *)
Theorem c55_sent : forall ks c md q, NoDup (keys md) ->
  values_at (ctx_values_to_metadata ks c md) q = values_at md q ++ sent_values ks c q.
Proof.
  intros ks c md q Hn. unfold ctx_values_to_metadata. rewrite <- ctx_pairs_values.
  destruct (ctx_pairs ks c) as [|p ps]; [cbn; rewrite app_nil_r; reflexivity|].
  remember (p :: ps) as l eqn:El. clear El p ps. destruct (pairs_get l q) as [H1 H2].
  unfold md_join. rewrite fold_left_app. unfold values_at. rewrite join_get by exact H1. rewrite join_get by exact Hn. rewrite H2.
  destruct (map snd _) as [|v vs]; cbn [mget]; destruct (mget md q) as [[[|w ws]|]|]; cbn; rewrite ?app_nil_r; reflexivity.
Qed.
Print Assumptions c55_sent.
(** Metadata that can be sent: lower-case token names, one entry each, no empty entry (as above). *)
Lemma sent_received : forall ks c md, received_md md -> (forall k, In k ks -> is_token k = true) -> received_md (ctx_values_to_metadata ks c md).
Proof.
  intros ks c md Hr Ht. destruct Hr as [Hn Hr]. unfold ctx_values_to_metadata. destruct (ctx_pairs ks c) as [|p ps] eqn:Ep; [split; assumption|].
  rewrite <- Ep. clear Ep p ps. unfold md_join. rewrite fold_left_app.
  assert (Hnd : forall l m, NoDup (keys m) -> NoDup (keys (fold_left (fun md p => md_append_join md (fst p) (snd p)) l m))).
  { induction l as [|x l IH]; intros m H; [exact H|]. cbn [fold_left]. apply IH. apply nodup_mset. exact H. }
  split; [apply Hnd; apply Hnd; constructor|]. intros k o Ho.
  apply (mget_in _ k o) in Ho; [|apply Hnd; apply Hnd; constructor].
  destruct (pairs_get (ctx_pairs ks c) k) as [H1 H2]. rewrite join_get in Ho by exact H1. rewrite join_get in Ho by exact Hn. rewrite H2, ctx_pairs_values in Ho.
  assert (Hs : sent_values ks c k <> [] -> is_token k = true /\ to_lower k = k).
  { clear -Ht. induction ks as [|j ks IH]; cbn [sent_values]; [congruence|]. intro H.
    destruct (string_value c j); [|apply IH; [intros; apply Ht; right; assumption|exact H]].
    destruct (str_eqb_spec k (to_lower j)) as [->|]; [|apply IH; [intros; apply Ht; right; assumption|exact H]].
    rewrite token_lower, lower_idem. split; [apply Ht; left; reflexivity|reflexivity]. }
  cbn [mget] in Ho. destruct (mget md k) as [oo|] eqn:Em.
  - apply (mget_in _ k oo Hn) in Em. destruct (Hr _ _ Em) as (A1 & A2 & A3). split; [exact A1|]. split; [exact A2|].
    destruct (sent_values ks c k) as [|v vs]; destruct oo as [[|w ws]|]; cbn in Ho; try congruence; injection Ho as <-; try discriminate.
  - destruct (sent_values ks c k) as [|v vs]; [discriminate|]. destruct Hs as [A1 A2]; [discriminate|]. split; [exact A1|]. split; [exact A2|].
    cbn in Ho. injection Ho as <-. discriminate.
Qed.
(** The whole hop: for names the client's metadata did not have before, the server finds the value of
    the first listed key of that name, under the lower-cased and the canonical form. *)
Theorem c55_hop : forall ks c md order sc k v q, received_md md -> (forall j, In j ks -> is_token j = true) ->
  let sent := ctx_values_to_metadata ks c md in Permutation order (keys sent) ->
  hd_error (sent_values ks c (to_lower k)) = Some v -> values_at md (to_lower k) = [] -> is_token k = true ->
  q = to_lower k \/ q = canonical k ->
  exists c', grpc_metadata_to_context order sent sc = Some c' /\ value c' (KStr q) = Some (VStr v).
Proof.
  intros ks c md order sc k v q Hr Ht sent Hp Hh Hv Tk Hq. pose proof (sent_received ks c md Hr Ht) as Hrs. fold sent in Hrs.
  destruct (c55_metadata order sent sc Hrs Hp) as (c' & E & H & _). exists c'. split; [exact E|].
  pose proof (c55_sent ks c md (to_lower k) (proj1 Hr)) as Hs. fold sent in Hs. rewrite Hv in Hs. cbn [app] in Hs.
  destruct (sent_values ks c (to_lower k)) as [|w ws]; [discriminate|]. injection Hh as ->. unfold values_at in Hs.
  destruct (mget sent (to_lower k)) as [[l|]|] eqn:Em; [|discriminate|discriminate]. subst l. apply (mget_in _ _ _ (proj1 Hrs)) in Em.
  apply (H _ _ _ q Em). destruct Hq as [->| ->]; [left; reflexivity|right]. symmetry. apply canonical_lower. exact Tk.
Qed.
Print Assumptions c55_hop.
(** With two listed keys of one name the first one arrives over gRPC, but the last one over HTTP. *)
Example c55_first_last : let c := [(KStr (T "a"), VStr (T "1")); (KStr (T "A"), VStr (T "2"))] in let ks := [T "a"; T "A"] in
  (let sent := ctx_values_to_metadata ks c [] in option_map (fun c' => value c' (KStr (T "a"))) (grpc_metadata_to_context (keys sent) sent []) = Some (Some (VStr (T "1")))) /\
  (let sent := ctx_values_to_send ks c [] in value (http_headers_to_context (keys sent) sent [] []) (KStr (T "a")) = Some (VStr (T "2"))).
Proof. split; reflexivity. Qed.
Example c55_ex : received_md [(T "user-id", Some [T "7"]); (T "x", None)] /\ exists c', grpc_metadata_to_context [T "x"; T "user-id"] [(T "user-id", Some [T "7"]); (T "x", None)] [] = Some c' /\ value c' (KStr (T "User-Id")) = Some (VStr (T "7")).
Proof.
  split; [split|].
  - repeat constructor; cbn; intros H; repeat destruct H as [H|H]; try discriminate; contradiction.
  - intros k o [[= <- <-]|[[= <- <-]|[]]]; split; [reflexivity|split; [reflexivity|discriminate]|reflexivity|split; [reflexivity|discriminate]].
  - eexists. split; reflexivity.
Qed.
