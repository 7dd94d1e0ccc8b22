(** Proofs about net/url. *)
From Coq Require Import Permutation.
From Verif Require Import GoStr GoStrProofs GoMap SplitJoin Url.

Definition bytes (s : str) : Prop := Forall (fun c => (c < 256)%N) s.

Lemma hex_unhex : forall n, (n < 16)%N -> unhex (hex_digit n) = Some n.
Proof.
  intros n H. assert (K : In n (map N.of_nat (seq 0 16))).
  { apply in_map_iff. exists (N.to_nat n). split; [lia|]. apply in_seq. lia. }
  cbn in K. repeat (destruct K as [<-|K]; [reflexivity|]). destruct K.
Qed.
Lemma unescape_escape : forall s, bytes s -> unescape true (query_escape s) = Some s.
Proof.
  induction s as [|c s IH]; intro H; [reflexivity|]. inversion H as [|x l Hc Hs]; subst. unfold query_escape. cbn [flat_map].
  fold (query_escape s). destruct (N.eqb_spec c c_space) as [->|Ns]; [cbn; rewrite (IH Hs); reflexivity|].
  destruct (unreserved c) eqn:Eu.
  - cbn [app unescape]. assert (N.eqb c 37 = false) as ->.
    { apply N.eqb_neq. intros ->. discriminate. }
    rewrite (IH Hs). assert (N.eqb c 43 = false) as -> by (apply N.eqb_neq; intros ->; discriminate). reflexivity.
  - cbn [app unescape]. change (N.eqb 37 37) with true. cbn iota.
    assert (H1 : (c / 16 < 16)%N) by (apply N.div_lt_upper_bound; lia).
    assert (H2 : (c mod 16 < 16)%N) by (apply N.mod_lt; lia).
    rewrite (hex_unhex _ H1), (hex_unhex _ H2), (IH Hs). f_equal. f_equal. pose proof (N.div_mod c 16). lia.
Qed.
(** What escaping leaves: no separators. *)
Lemma escape_safe : forall s c, bytes s -> In c (query_escape s) -> unreserved c = true \/ c = 43%N \/ c = 37%N.
Proof.
  intros s c Hb H. unfold query_escape in H. apply in_flat_map in H. destruct H as (x & Hx & H).
  destruct (N.eqb x c_space); [destruct H as [<-|[]]; auto|]. destruct (unreserved x) eqn:E; [destruct H as [<-|[]]; auto|].
  assert (Hh : forall n, (n < 16)%N -> unreserved (hex_digit n) = true).
  { intros n Hn. assert (K : In n (map N.of_nat (seq 0 16))).
    { apply in_map_iff. exists (N.to_nat n). split; [lia|]. apply in_seq. lia. }
    cbn in K. repeat (destruct K as [<-|K]; [reflexivity|]). destruct K. }
  unfold bytes in Hb. rewrite Forall_forall in Hb. specialize (Hb x Hx).
  destruct H as [<-|[<-|[<-|[]]]]; auto; left; apply Hh; [apply N.div_lt_upper_bound; lia|apply N.mod_lt; lia].
Qed.
Lemma escape_free : forall s c, bytes s -> unreserved c = false -> c <> 43%N -> c <> 37%N -> ~ In c (query_escape s).
Proof. intros s c Hb H1 H2 H3 H. apply escape_safe in H; [|exact Hb]. destruct H as [H|[H|H]]; congruence. Qed.

Lemma cut_at_app : forall c a b, ~ In c a -> cut_at c (a ++ c :: b) = (a, b).
Proof.
  induction a as [|x a IH]; intros b H; cbn [app cut_at]; [rewrite N.eqb_refl; reflexivity|].
  assert (x <> c) by (intros ->; apply H; left; reflexivity). apply N.eqb_neq in H0. rewrite H0, IH; [reflexivity|].
  intro K. apply H. right. exact K.
Qed.
Lemma cut_at_none : forall c a, ~ In c a -> cut_at c a = (a, []).
Proof.
  induction a as [|x a IH]; intro H; cbn [cut_at]; [reflexivity|].
  assert (x <> c) by (intros ->; apply H; left; reflexivity). apply N.eqb_neq in H0. rewrite H0, IH; [reflexivity|].
  intro K. apply H. right. exact K.
Qed.

Lemma parse_one : forall m k v, bytes k -> bytes v -> parse_pair m (query_escape k ++ 61%N :: query_escape v) = v_add m k v.
Proof.
  intros m k v Hk Hv. unfold parse_pair.
  assert (Hs : contains1 (query_escape k ++ 61%N :: query_escape v) c_semi = false).
  { apply not_true_is_false. unfold contains1. rewrite existsb_exists. intros (x & Hx & E). apply N.eqb_eq in E. subst x.
    apply in_app_or in Hx. destruct Hx as [Hx|[Hx|Hx]]; [|discriminate|];
    (apply escape_free in Hx; [exact Hx|assumption|reflexivity|discriminate|discriminate]). }
  rewrite Hs. destruct (query_escape k ++ 61%N :: query_escape v) as [|c l] eqn:E; [destruct (query_escape k); discriminate|].
  rewrite <- E. rewrite cut_at_app by (apply escape_free; [exact Hk|reflexivity|discriminate|discriminate]).
  rewrite (unescape_escape k Hk), (unescape_escape v Hv). reflexivity.
Qed.

Definition values_bytes (m : values) : Prop := Forall (fun p => bytes (fst p) /\ Forall bytes (snd p)) m.
Lemma pair_amp_free : forall k v, bytes k -> bytes v -> free 38 (query_escape k ++ 61%N :: query_escape v).
Proof.
  intros k v Hk Hv H. apply in_app_or in H. destruct H as [H|[H|H]]; [|discriminate|];
    (apply escape_free in H; [exact H|assumption|reflexivity|discriminate|discriminate]).
Qed.
Lemma encode_pairs_free : forall m, values_bytes m -> Forall (free 38) (encode_pairs m).
Proof.
  intros m H. apply Forall_forall. intros x Hx. unfold encode_pairs in Hx. apply in_flat_map in Hx.
  destruct Hx as ([k l] & Hp & Hx). apply in_map_iff in Hx. destruct Hx as (v & <- & Hv). cbn in *.
  unfold values_bytes in H. rewrite Forall_forall in H. destruct (H _ Hp) as [Hk Hl]. cbn in *. rewrite Forall_forall in Hl.
  apply pair_amp_free; auto.
Qed.

(** Adding all of a map's pairs to a map without its keys. *)
Definition add_all (m : values) (k : str) (l : list str) : values := fold_left (fun m v => v_add m k v) l m.
Lemma add_all_app : forall l k m pre, ~ In k (keys m) -> add_all (m ++ [(k, pre)]) k l = m ++ [(k, pre ++ l)].
Proof.
  induction l as [|v l IH]; intros k m pre H; cbn [add_all fold_left]; [rewrite app_nil_r; reflexivity|]. fold (add_all).
  assert (E : v_add (m ++ [(k, pre)]) k v = m ++ [(k, pre ++ [v])]).
  { unfold v_add. clear IH. induction m as [|[k' l'] m IHm]; cbn.
    - rewrite str_eqb_refl. cbn. rewrite ?str_eqb_refl. reflexivity.
    - cbn in H. assert (Hk : k <> k') by (intros ->; apply H; left; reflexivity). apply str_eqb_neq in Hk. rewrite Hk.
      f_equal. apply IHm. intro K. apply H. right. exact K. }
  rewrite E. change (fold_left (fun m0 v0 => v_add m0 k v0) l (m ++ [(k, pre ++ [v])])) with (add_all (m ++ [(k, pre ++ [v])]) k l).
  rewrite IH by exact H. rewrite <- app_assoc. reflexivity.
Qed.
Lemma v_add_new : forall m k v, ~ In k (keys m) -> v_add m k v = m ++ [(k, [v])].
Proof.
  intros m k v H. unfold v_add. rewrite (proj2 (mget_none m k) H). cbn [app]. induction m as [|[k' l'] m IH]; cbn; [reflexivity|].
  assert (Hk : k <> k') by (intros ->; apply H; left; reflexivity). apply str_eqb_neq in Hk. rewrite Hk. f_equal. apply IH.
  intro K. apply H. right. exact K.
Qed.
Lemma add_all_new : forall l k m, ~ In k (keys m) -> add_all m k l = match l with [] => m | _ => m ++ [(k, l)] end.
Proof.
  intros [|v l] k m H; [reflexivity|]. cbn [add_all fold_left]. rewrite v_add_new by exact H.
  exact (add_all_app l k m [v] H).
Qed.
Definition nonempty_entries (m : values) : values := filter (fun p => match snd p with [] => false | _ => true end) m.

Lemma parse_pairs : forall m acc, values_bytes m -> NoDup (keys m) -> (forall k, In k (keys acc) -> ~ In k (keys m)) ->
  fold_left parse_pair (encode_pairs m) acc = acc ++ nonempty_entries m.
Proof.
  induction m as [|[k l] m IH]; intros acc Hb Hnd Hd; [cbn; rewrite app_nil_r; reflexivity|].
  inversion Hb as [|x y [Hk Hl] Hm]; subst. inversion Hnd as [|x y Hx Hy]; subst. cbn in Hk, Hl.
  change (encode_pairs ((k, l) :: m)) with (map (fun v => query_escape k ++ 61%N :: query_escape v) l ++ encode_pairs m).
  rewrite fold_left_app.
  assert (E : forall l acc, Forall bytes l -> fold_left parse_pair (map (fun v => query_escape k ++ 61%N :: query_escape v) l) acc = add_all acc k l).
  { clear -Hk. induction l as [|v l IH]; intros acc Hl; [reflexivity|]. inversion Hl; subst. cbn [map fold_left].
    rewrite parse_one by assumption. apply IH. assumption. }
  rewrite E by exact Hl. assert (Hka : ~ In k (keys acc)) by (intro K; apply (Hd k K); left; reflexivity).
  rewrite add_all_new by exact Hka. cbn [nonempty_entries filter snd]. destruct l as [|v l].
  - apply IH; [exact Hm|exact Hy|]. intros k2 H2 H3. apply (Hd k2 H2). right. exact H3.
  - rewrite IH; [rewrite <- app_assoc; reflexivity|exact Hm|exact Hy|].
    intros k2 H2 H3. unfold keys in H2. rewrite map_app in H2. apply in_app_or in H2. destruct H2 as [H2|[<-|[]]].
    + apply (Hd k2 H2). right. exact H3.
    + apply Hx. exact H3.
Qed.

(** Sorting only permutes. *)
Lemma insert_perm : forall {A} (p : str * A) m, Permutation (p :: m) (insert_key p m).
Proof.
  intros A p m. induction m as [|q m IH]; cbn; [reflexivity|]. destruct (str_ltb (fst q) (fst p)); [|reflexivity].
  rewrite perm_swap. constructor. exact IH.
Qed.
Lemma sort_perm : forall {A} (m : gomap A), Permutation m (sort_keys m).
Proof. intros A m. induction m as [|p m IH]; cbn; [constructor|]. rewrite <- insert_perm. constructor. exact IH. Qed.
Lemma perm_mget : forall {A} (m m' : gomap A), Permutation m m' -> NoDup (keys m) -> forall k, mget m k = mget m' k.
Proof.
  intros A m m' Hp Hnd k. assert (Hnd' : NoDup (keys m')) by (eapply Permutation_NoDup; [apply Permutation_map; exact Hp|exact Hnd]).
  destruct (mget m k) as [v|] eqn:E.
  - symmetry. apply mget_in; [exact Hnd'|]. eapply Permutation_in; [exact Hp|]. apply mget_in; assumption.
  - symmetry. apply mget_none. apply mget_none in E. intro K. apply E. unfold keys in *. eapply Permutation_in; [|exact K].
    apply Permutation_sym. apply Permutation_map. exact Hp.
Qed.
Lemma mget_nonempty : forall (m : values) k, NoDup (keys m) -> mget (nonempty_entries m) k = match mget m k with Some [] => None | r => r end.
Proof.
  induction m as [|[k' l'] m IH]; intros k H; [reflexivity|]. inversion H as [|x y Hx Hy]; subst. cbn [nonempty_entries filter snd mget].
  fold (nonempty_entries m). destruct l' as [|v l']; cbn [mget]; destruct (str_eqb_spec k k') as [->|N1]; try apply (IH k Hy); [|reflexivity].
  rewrite (IH k' Hy). rewrite (proj2 (mget_none m k') Hx). reflexivity.
Qed.
Lemma encode_nil : forall m, encode_pairs m = [] -> nonempty_entries m = [].
Proof.
  induction m as [|[k l] m IH]; intro H; [reflexivity|]. cbn in H. apply app_eq_nil in H. destruct H as [H1 H2].
  destruct l; [cbn; apply IH; exact H2|discriminate].
Qed.
Lemma query_round_trip : forall m k, values_bytes m -> NoDup (keys m) ->
  mget (parse_query (encode_values m)) k = match mget m k with Some [] => None | r => r end.
Proof.
  intros m k Hb Hnd. unfold parse_query, encode_values. pose proof (sort_perm m) as Hp.
  assert (Hb' : values_bytes (sort_keys m)) by (unfold values_bytes in *; eapply Permutation_Forall; eassumption).
  assert (Hnd' : NoDup (keys (sort_keys m))) by (eapply Permutation_NoDup; [apply Permutation_map; exact Hp|exact Hnd]).
  rewrite (perm_mget _ _ Hp Hnd k), <- mget_nonempty by exact Hnd'. f_equal.
  destruct (encode_pairs (sort_keys m)) as [|x l] eqn:E.
  - rewrite (encode_nil _ E). reflexivity.
  - rewrite split_join; [|discriminate|rewrite <- E; apply encode_pairs_free; exact Hb'].
    rewrite <- E. rewrite parse_pairs; [reflexivity|exact Hb'|exact Hnd'|intros k2 []].
Qed.
