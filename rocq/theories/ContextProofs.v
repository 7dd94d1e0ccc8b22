(** Proofs about the context helpers. *)
From Coq Require Import Permutation.
From Verif Require Import GoStr GoStrProofs GoMap Context.

Lemma lower1_cases : forall c, lower1 c = c \/ (65 <= c <= 90)%N /\ lower1 c = (c + 32)%N.
Proof.
  intro c. unfold lower1. destruct (is_upper c) eqn:E; [|auto]. right. unfold is_upper in E. rewrite in_range_spec in E. auto.
Qed.
Lemma upper1_cases : forall c, upper1 c = c \/ (97 <= c <= 122)%N /\ upper1 c = (c - 32)%N.
Proof.
  intro c. unfold upper1. destruct (is_lower c) eqn:E; [|auto]. right. unfold is_lower in E. rewrite in_range_spec in E. auto.
Qed.
Lemma is_upper_iff : forall c, is_upper c = true <-> (65 <= c <= 90)%N.
Proof. intro c. unfold is_upper. apply in_range_spec. Qed.
Lemma is_lower_iff : forall c, is_lower c = true <-> (97 <= c <= 122)%N.
Proof. intro c. unfold is_lower. apply in_range_spec. Qed.
Lemma lower1_not_upper : forall c, is_upper c = false -> lower1 c = c.
Proof. intros c H. unfold lower1. rewrite H. reflexivity. Qed.
Lemma upper1_not_lower : forall c, is_lower c = false -> upper1 c = c.
Proof. intros c H. unfold upper1. rewrite H. reflexivity. Qed.
Lemma not_true_false : forall b : bool, ~ b = true -> b = false.
Proof. intros [] H; congruence. Qed.
Ltac notin := apply not_true_false; first [rewrite is_upper_iff | rewrite is_lower_iff]; lia.
Lemma lower1_upper1 : forall c, lower1 (upper1 c) = lower1 c.
Proof.
  intro c. destruct (upper1_cases c) as [->|[H ->]]; [reflexivity|]. rewrite (lower1_not_upper c) by notin.
  destruct (lower1_cases (c - 32)%N) as [E|[_ E]]; rewrite E; [|lia]. unfold lower1 in E. destruct (is_upper (c - 32)) eqn:E2; [lia|]. assert (is_upper (c - 32) = true) by (apply is_upper_iff; lia). congruence.
Qed.
Lemma upper1_lower1 : forall c, upper1 (lower1 c) = upper1 c.
Proof.
  intro c. destruct (lower1_cases c) as [->|[H ->]]; [reflexivity|]. rewrite (upper1_not_lower c) by notin.
  unfold upper1. assert (E : is_lower (c + 32) = true) by (apply is_lower_iff; lia). rewrite E. lia.
Qed.
Lemma lower1_idem : forall c, lower1 (lower1 c) = lower1 c.
Proof. intro c. destruct (lower1_cases c) as [E|[H E]]; rewrite E; [exact E|]. apply lower1_not_upper. notin. Qed.
Lemma lower1_dash : forall c, N.eqb (lower1 c) c_dash = N.eqb c c_dash.
Proof.
  intro c. destruct (lower1_cases c) as [->|[H ->]]; [reflexivity|]. unfold c_dash.
  destruct (N.eqb_spec (c + 32) 45); [lia|]. destruct (N.eqb_spec c 45); [lia|reflexivity].
Qed.
Lemma lower_idem : forall k, to_lower (to_lower k) = to_lower k.
Proof. intro k. unfold to_lower. rewrite map_map. apply map_ext. apply lower1_idem. Qed.
Lemma lower_title : forall k up, to_lower (title up k) = to_lower k.
Proof.
  induction k as [|c k IH]; intro up; [reflexivity|]. cbn [title to_lower map]. fold (to_lower (title (N.eqb c c_dash) k)). rewrite IH.
  f_equal. destruct up; [apply lower1_upper1|apply lower1_idem].
Qed.
Lemma title_lower : forall k up, title up (to_lower k) = title up k.
Proof.
  induction k as [|c k IH]; intro up; [reflexivity|]. cbn [title to_lower map]. fold (to_lower k). rewrite IH, lower1_dash.
  f_equal. destruct up; [apply upper1_lower1|apply lower1_idem].
Qed.
Lemma title_same : forall a b up, to_lower a = to_lower b -> title up a = title up b.
Proof. intros a b up H. rewrite <- (title_lower a), <- (title_lower b), H. reflexivity. Qed.
Lemma token_lower1 : forall c, token_byte (lower1 c) = token_byte c.
Proof.
  intro c. destruct (lower1_cases c) as [->|[H ->]]; [reflexivity|].
  unfold token_byte, is_alnum, is_letter. assert (E : is_lower (c + 32) = true) by (apply is_lower_iff; lia). rewrite E.
  assert (E2 : is_upper c = true) by (apply is_upper_iff; lia). rewrite E2. rewrite orb_true_r. reflexivity.
Qed.
Lemma token_lower : forall k, is_token (to_lower k) = is_token k.
Proof. unfold is_token. induction k as [|c k IH]; [reflexivity|]. cbn [to_lower map forallb]. fold (to_lower k). rewrite IH, token_lower1. reflexivity. Qed.
Lemma token_same : forall a b, to_lower a = to_lower b -> is_token a = is_token b.
Proof. intros a b H. rewrite <- (token_lower a), <- (token_lower b), H. reflexivity. Qed.
Lemma lower_canonical : forall k, to_lower (canonical k) = to_lower k.
Proof. intro k. unfold canonical. destruct (is_token k); [apply lower_title|reflexivity]. Qed.
Lemma canonical_lower : forall k, is_token k = true -> canonical (to_lower k) = canonical k.
Proof. intros k H. unfold canonical. rewrite token_lower, H. apply title_lower. Qed.
Lemma canonical_same : forall a b, is_token a = true -> to_lower a = to_lower b -> canonical a = canonical b.
Proof. intros a b H E. unfold canonical. rewrite <- (token_same a b E), H. apply title_same. exact E. Qed.
Lemma token_canonical : forall k, is_token (canonical k) = is_token k.
Proof. intro k. apply token_same. apply lower_canonical. Qed.
Lemma canonical_idem : forall k, canonical (canonical k) = canonical k.
Proof.
  intro k. destruct (is_token k) eqn:E.
  - apply canonical_same; [rewrite token_canonical; exact E|apply lower_canonical].
  - assert (canonical k = k) by (unfold canonical; rewrite E; reflexivity). congruence.
Qed.

(** Pushing two names per key. *)
Section P.
  Variables f g : str -> str.
  Variable val : str -> str.
  Definition push2 (c : ctx) (k : str) : ctx := with_value (with_value c (KStr (f k)) (VStr (val k))) (KStr (g k)) (VStr (val k)).
  Lemma push2_miss : forall order c q, (forall k, In k order -> q <> KStr (f k) /\ q <> KStr (g k)) ->
    value (fold_left push2 order c) q = value c q.
  Proof.
    induction order as [|k ks IH]; intros c q H; cbn [fold_left]; [reflexivity|].
    rewrite IH by (intros j Hj; apply H; right; exact Hj). destruct (H k (or_introl eq_refl)) as [H1 H2].
    unfold push2, with_value. cbn [value]. destruct q as [q|n]; cbn [ckey_eqb]; [|reflexivity].
    destruct (str_eqb_spec q (g k)); [congruence|]. destruct (str_eqb_spec q (f k)); [congruence|reflexivity].
  Qed.
  Lemma push2_hit : forall order c q v, (forall k, In k order -> q = f k \/ q = g k -> val k = v) ->
    (exists k, In k order /\ (q = f k \/ q = g k)) -> value (fold_left push2 order c) (KStr q) = Some (VStr v).
  Proof.
    intros order c q v H HE.
    assert (D : forall k, {q = f k \/ q = g k} + {~ (q = f k \/ q = g k)}).
    { intro k. destruct (str_eq_dec q (f k)); [auto|]. destruct (str_eq_dec q (g k)); [auto|]. right. tauto. }
    revert c. induction order as [|k ks IH]; intro c; cbn [fold_left]; [destruct HE as (k & [] & _)|].
    destruct (existsb (fun k => if D k then true else false) ks) eqn:Ex.
    - apply existsb_exists in Ex. destruct Ex as (j & Hj & Ej). destruct (D j) as [Dj|]; [|discriminate].
      apply IH; [intros i Hi; apply H; right; exact Hi|exists j; auto].
    - assert (Hno : forall j, In j ks -> ~ (q = f j \/ q = g j)).
      { intros j Hj K. assert (existsb (fun k => if D k then true else false) ks = true); [|congruence].
        apply existsb_exists. exists j. split; [exact Hj|]. destruct (D j); [reflexivity|contradiction]. }
      rewrite push2_miss by (intros j Hj; specialize (Hno j Hj); split; intro K; apply Hno; injection K; auto).
      destruct HE as (j & [->|Hj] & Ej); [|destruct (Hno j Hj Ej)].
      specialize (H j (or_introl eq_refl) Ej). unfold push2, with_value. cbn [value ckey_eqb].
      destruct (str_eqb_spec q (g j)); [rewrite H; reflexivity|]. destruct (str_eqb_spec q (f j)); [rewrite H; reflexivity|tauto].
  Qed.
End P.
