(** Facts about strings.Split, Join and TrimRight. *)
From Verif Require Import GoStr GoStrProofs.

Definition free (c : N) (s : str) : Prop := ~ In c s.

Lemma split1_ne : forall c s, split1 c s <> [].
Proof. intros c [|x s]; cbn; [discriminate|]. destruct (N.eqb x c); [discriminate|]. destruct (split1 c s); discriminate. Qed.

Lemma split1_free : forall c s, Forall (free c) (split1 c s).
Proof.
  induction s as [|x s IH]; cbn; [constructor; [intros []|constructor]|].
  destruct (N.eqb_spec x c) as [->|N1]; [constructor; [intros []|exact IH]|].
  destruct (split1 c s) as [|w ws]; [constructor; [|constructor]; intros [|[]]; auto|].
  inversion IH as [|y l Hw Hl]; subst. constructor; [|exact Hl]. intros [|H]; [auto|apply Hw; exact H].
Qed.

Lemma join_split : forall c s, join [c] (split1 c s) = s.
Proof.
  induction s as [|x s IH]; cbn [split1]; [reflexivity|].
  pose proof (split1_ne c s) as Hne. destruct (N.eqb_spec x c) as [->|N1].
  - destruct (split1 c s) as [|w ws]; [contradiction|]. cbn [join app]. f_equal. exact IH.
  - destruct (split1 c s) as [|w ws]; [contradiction|]. destruct ws as [|w2 ws]; cbn [join app] in *; f_equal; exact IH.
Qed.

Lemma split1_app : forall c w s, free c w -> split1 c (w ++ c :: s) = w :: split1 c s.
Proof.
  induction w as [|x w IH]; intros s H; cbn [split1 app].
  - rewrite N.eqb_refl. reflexivity.
  - assert (x <> c) by (intros ->; apply H; left; reflexivity). apply N.eqb_neq in H0. rewrite H0.
    rewrite IH; [reflexivity|]. intro H2. apply H. right. exact H2.
Qed.
Lemma split1_one : forall c w, free c w -> split1 c w = [w].
Proof.
  induction w as [|x w IH]; intros H; cbn [split1]; [reflexivity|].
  assert (x <> c) by (intros ->; apply H; left; reflexivity). apply N.eqb_neq in H0. rewrite H0.
  rewrite IH; [reflexivity|]. intro H2. apply H. right. exact H2.
Qed.
Lemma split_join : forall c l, l <> [] -> Forall (free c) l -> split1 c (join [c] l) = l.
Proof.
  induction l as [|w l IH]; intros Hne H; [contradiction|]. inversion H as [|x y Hw Hl]; subst.
  destruct l as [|w2 l]; [apply split1_one; exact Hw|]. change (join [c] (w :: w2 :: l)) with (w ++ c :: join [c] (w2 :: l)).
  rewrite split1_app by exact Hw. f_equal. apply IH; [discriminate|exact Hl].
Qed.

Lemma trim_right1_snoc : forall c s x, trim_right1 c (s ++ [x]) = if N.eqb x c then trim_right1 c s else s ++ [x].
Proof.
  intros. unfold trim_right1. rewrite rev_app_distr. cbn [rev app trim_left1].
  destruct (N.eqb x c); [reflexivity|]. cbn [rev]. rewrite rev_involutive. reflexivity.
Qed.

Fixpoint skip_empty (l : list str) : list str := match l with [] :: l' => skip_empty l' | _ => l end.
Definition drop_trailing (l : list str) : list str := rev (skip_empty (rev l)).
Lemma drop_trailing_snoc : forall l w, drop_trailing (l ++ [w]) = match w with [] => drop_trailing l | _ => l ++ [w] end.
Proof.
  intros. unfold drop_trailing. rewrite rev_app_distr. cbn [rev app skip_empty]. destruct w; [reflexivity|].
  cbn [rev]. rewrite rev_involutive. reflexivity.
Qed.
Lemma split1_snoc_sep : forall c s, split1 c (s ++ [c]) = split1 c s ++ [[]].
Proof.
  induction s as [|x s IH]; cbn [split1 app]; [rewrite N.eqb_refl; reflexivity|].
  destruct (N.eqb x c); [rewrite IH; reflexivity|]. rewrite IH. pose proof (split1_ne c s). destruct (split1 c s); [contradiction|reflexivity].
Qed.
Lemma split1_snoc : forall c s x, x <> c -> exists l w, split1 c s = l ++ [w] /\ split1 c (s ++ [x]) = l ++ [w ++ [x]].
Proof.
  induction s as [|y s IH]; intros x H; cbn [split1 app].
  - apply N.eqb_neq in H. rewrite H. exists [], []. auto.
  - destruct (IH x H) as (l & w & E1 & E2). rewrite E2, E1. destruct (N.eqb y c).
    + exists ([] :: l), w. auto.
    + destruct l as [|u l]; [exists [], (y :: w)|exists ((y :: u) :: l), w]; auto.
Qed.
Lemma split_trim_right : forall c s,
  split1 c (trim_right1 c s) = match drop_trailing (split1 c s) with [] => [[]] | l => l end.
Proof.
  intros c s. induction s as [|x s IH] using rev_ind; [reflexivity|]. rewrite trim_right1_snoc.
  destruct (N.eqb_spec x c) as [->|N1].
  - rewrite split1_snoc_sep, drop_trailing_snoc. exact IH.
  - destruct (split1_snoc c s x N1) as (l & w & _ & E). rewrite E, drop_trailing_snoc.
    destruct (w ++ [x]) eqn:E2; [destruct w; discriminate|]. destruct l; reflexivity.
Qed.
Lemma drop_trailing_all : forall l w, l <> [] -> last l w <> [] -> drop_trailing l = l.
Proof.
  intros l w Hne H. destruct (exists_last Hne) as (l2 & a & ->). rewrite last_last in H. rewrite drop_trailing_snoc.
  destruct a; [contradiction|reflexivity].
Qed.
Lemma drop_trailing_app : forall l, exists n, l = drop_trailing l ++ repeat [] n.
Proof.
  intro l. induction l as [|w l IH] using rev_ind; [exists 0; reflexivity|]. rewrite drop_trailing_snoc.
  destruct w; [|exists 0; rewrite app_nil_r; reflexivity]. destruct IH as [n E]. exists (S n).
  rewrite E at 1. rewrite <- app_assoc. f_equal. clear. induction n; [reflexivity|]. cbn [repeat app]. rewrite IHn. reflexivity.
Qed.
Lemma nth_drop_trailing : forall l i w, nth_error l i = Some w -> w <> [] -> i < length (drop_trailing l).
Proof.
  intros l i w H Hw. destruct (drop_trailing_app l) as [n E]. rewrite E in H.
  destruct (Nat.lt_ge_cases i (length (drop_trailing l))); [assumption|]. exfalso.
  rewrite nth_error_app2 in H by assumption. apply nth_error_In in H. apply repeat_spec in H. auto.
Qed.
