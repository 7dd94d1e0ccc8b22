(** Basic facts about text. *)
From Verif Require Import GoStr.

Lemma str_eqb_refl : forall s, str_eqb s s = true.
Proof. induction s as [|c s IH]; cbn; [reflexivity|]. rewrite N.eqb_refl, IH. reflexivity. Qed.

Lemma str_eqb_eq : forall a b, str_eqb a b = true <-> a = b.
Proof.
  induction a as [|x a IH]; intros [|y b]; cbn; split; intro H; try discriminate; try reflexivity.
  - apply andb_true_iff in H. destruct H as [H1 H2].
    apply N.eqb_eq in H1. apply IH in H2. congruence.
  - inversion H; subst. rewrite N.eqb_refl. cbn. apply IH. reflexivity.
Qed.

Lemma str_eqb_neq : forall a b, str_eqb a b = false <-> a <> b.
Proof.
  intros a b. destruct (str_eqb a b) eqn:E.
  - apply str_eqb_eq in E. split; [discriminate|contradiction].
  - split; [|reflexivity]. intros _ H. subst. rewrite str_eqb_refl in E. discriminate.
Qed.

Lemma str_eqb_spec : forall a b, reflect (a = b) (str_eqb a b).
Proof.
  intros a b. destruct (str_eqb a b) eqn:E; constructor.
  - apply str_eqb_eq; exact E.
  - apply str_eqb_neq; exact E.
Qed.

Lemma str_eqb_sym : forall a b, str_eqb a b = str_eqb b a.
Proof.
  intros a b. destruct (str_eqb_spec a b) as [H|H]; destruct (str_eqb_spec b a) as [H'|H']; congruence.
Qed.

Lemma str_eq_dec : forall a b : str, {a = b} + {a <> b}.
Proof. intros a b. destruct (str_eqb_spec a b); [left|right]; assumption. Qed.

Lemma in_range_spec : forall lo hi c, in_range lo hi c = true <-> (lo <= c <= hi)%N.
Proof. intros. unfold in_range. rewrite andb_true_iff, !N.leb_le. tauto. Qed.

(** unicode_ok gives the classification of ASCII constants. *)
Lemma latin1_ok : unicode_ok latin1.
Proof.
  split.
  - intros c Hc. cbn [latin1 u_letter u_digit u_space].
    assert (E : forall k, (128 <= k)%N -> N.eqb c k = false) by (intros k Hk; apply N.eqb_neq; lia).
    assert (E2 : in_range 192 255 c = false).
    { unfold in_range. destruct (N.leb_spec 192 c); [lia|reflexivity]. }
    rewrite !E by lia. rewrite E2. cbn. rewrite !orb_false_r. auto.
  - intros c Hs. cbn [latin1 u_letter u_digit u_space] in *.
    assert (Hc : (9 <= c <= 13 \/ c = 32 \/ c = 133 \/ c = 160)%N).
    { unfold ascii_space in Hs. rewrite !orb_true_iff, in_range_spec, !N.eqb_eq in Hs. lia. }
    clear Hs. unfold is_letter, is_digit, is_lower, is_upper, in_range.
    repeat rewrite orb_false_iff.
    repeat (match goal with |- context [N.leb ?a ?b] => destruct (N.leb_spec a b) end;
            try lia);
    repeat (match goal with |- context [N.eqb ?a ?b] => destruct (N.eqb_spec a b) end; try lia);
    cbn; auto.
Qed.
