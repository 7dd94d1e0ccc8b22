(** What the rules of GoBlocks.v come to: in a block that keeps them, every variable that is used and not declared in the block is known outside. *)
From Coq Require Import String.
From Verif Require Import GoStr GoStrProofs Strs GoLex GoLang GoScope GoBlocks.
From Verif Require PropScope.

Scheme stmt_mut := Induction for stmt Sort Prop with block_mut := Induction for block Sort Prop with clauses_mut := Induction for clauses Sort Prop.
Combined Scheme code_ind from stmt_mut, block_mut, clauses_mut.

Section Free.
  Variable g : str -> bool.
  Variable x : str.
  Notation kn := (known g).
  Lemma free_e sc : forall e, e_ok g sc e = true -> uses_e x e = true -> kn sc x = true.
  Proof.
    fix IH 1. assert (L : forall l, forallb (e_ok g sc) l = true -> existsb (uses_e x) l = true -> kn sc x = true).
    { fix IL 1. intros [|a l]; cbn [forallb existsb]; intros H U; [discriminate U|]. apply andb_true_iff in H. destruct H as [H1 H2]. apply orb_true_iff in U. destruct U as [U|U]; [exact (IH a H1 U)|exact (IL l H2 U)]. }
    assert (B : forall a b, e_ok g sc a && e_ok g sc b = true -> uses_e x a || uses_e x b = true -> kn sc x = true).
    { intros a b H U. apply andb_true_iff in H. destruct H as [H1 H2]. apply orb_true_iff in U. destruct U as [U|U]; [exact (IH a H1 U)|exact (IH b H2 U)]. }
    intros [y|n|s|t|e f|f args|a b|a b|e|e|e t|o a b|t keys args]; cbn [e_ok uses_e]; intros H U; try discriminate U.
    - apply str_eqb_eq in U. rewrite U. exact H.
    - exact (IH e H U).
    - apply andb_true_iff in H. destruct H as [H1 H2]. apply orb_true_iff in U. destruct U as [U|U]; [exact (IH f H1 U)|exact (L args H2 U)].
    - exact (B a b H U).
    - exact (B a b H U).
    - exact (IH e H U).
    - exact (IH e H U).
    - apply andb_true_iff in H. exact (IH e (proj1 H) U).
    - exact (B a b H U).
    - apply andb_true_iff in H. exact (L args (proj2 H) U).
  Qed.
  Lemma free_list sc : forall l, forallb (e_ok g sc) l = true -> existsb (uses_e x) l = true -> kn sc x = true.
  Proof. intros l H U. apply existsb_exists in U. destruct U as (a & Ia & U). rewrite forallb_forall in H. exact (free_e sc a (H a Ia) U). Qed.
  Lemma free_target sc e : target_ok g sc e = true -> uses_target x e = true -> kn sc x = true.
  Proof. destruct e; intros H U; try (exact (free_e sc _ H U)). discriminate U. Qed.
  Lemma free_simple sc s : simple_ok g sc s = true -> uses_simple x s = true -> kn sc x = true.
  Proof.
    destruct s; cbn [simple_ok uses_simple]; intros H U; try discriminate U; try (exact (free_e sc _ H U)).
    - apply andb_true_iff in H. destruct H as [H1 H2]. apply orb_true_iff in U. destruct U as [U|U]; [exact (free_target sc _ H1 U)|exact (free_e sc _ H2 U)].
    - apply andb_true_iff in H. destruct H as [H1 H2]. apply orb_true_iff in U. destruct U as [U|U]; [|exact (free_e sc _ H2 U)]. apply existsb_exists in U. destruct U as (a & Ia & U). rewrite forallb_forall in H1. exact (free_target sc a (H1 a Ia) U).
    - exact (free_list sc _ H U).
  Qed.
  Lemma outer_known l sc : mem x l = false -> kn (l :: sc) x = true -> kn sc x = true.
  Proof. intros M. unfold known. cbn [existsb]. rewrite M. intro H. exact H. Qed.
  Lemma top_known l top sc : mem x l = false -> kn ((l ++ top) :: sc) x = true -> kn (top :: sc) x = true.
  Proof. intros M. unfold known. cbn [existsb]. unfold mem in *. rewrite existsb_app, M. intro H. exact H. Qed.
  Lemma free_code :
    (forall s sc, stmt_ok g sc s = true -> uses_stmt x s = true -> kn sc x = true) /\
    (forall b top outer, scope_ok g top outer b = true -> uses_block x b = true -> kn (top :: outer) x = true) /\
    (forall cs sc, clauses_ok g sc cs = true -> uses_clauses x cs = true -> kn sc x = true).
  Proof.
    apply code_ind.
    - intros s sc H U. exact (free_simple sc s H U).
    - intros i c yes IY no IN sc H U.
      change (simple_ok g ([] :: sc) i && new_ok [] i && forallb (fun y => uses_e y c || uses_block y yes || uses_block y no) (new_names [] i) && e_ok g (names_of i :: sc) c && scope_ok g [] (names_of i :: sc) yes && scope_ok g [] (names_of i :: sc) no = true) in H.
      change (uses_simple x i || (negb (mem x (names_of i)) && (uses_e x c || uses_block x yes || uses_block x no)) = true) in U.
      apply andb_true_iff in H. destruct H as [H H6]. apply andb_true_iff in H. destruct H as [H H5]. apply andb_true_iff in H. destruct H as [H H4]. apply andb_true_iff in H. destruct H as [H _]. apply andb_true_iff in H. destruct H as [H1 _].
      apply orb_true_iff in U. destruct U as [U|U]; [exact (free_simple _ _ H1 U)|]. apply andb_true_iff in U. destruct U as [M U]. apply negb_true_iff in M. apply (outer_known (names_of i) sc M).
      apply orb_true_iff in U. destruct U as [U|U]; [|exact (IN [] _ H6 U)]. apply orb_true_iff in U. destruct U as [U|U]; [exact (free_e _ _ H4 U)|exact (IY [] _ H5 U)].
    - intros i v e body IB sc H U.
      change (e_ok g sc e && distinct (named_only [i; v]) && forallb (fun y => uses_block y body) (named_only [i; v]) && scope_ok g [] (named_only [i; v] :: sc) body = true) in H.
      change (uses_e x e || (negb (mem x (named_only [i; v])) && uses_block x body) = true) in U.
      apply andb_true_iff in H. destruct H as [H H4]. apply andb_true_iff in H. destruct H as [H _]. apply andb_true_iff in H. destruct H as [H1 _].
      apply orb_true_iff in U. destruct U as [U|U]; [exact (free_e _ _ H1 U)|]. apply andb_true_iff in U. destruct U as [M U]. apply negb_true_iff in M. exact (outer_known _ _ M (IB [] _ H4 U)).
    - intros cs IC sc H U. exact (IC sc H U).
    - intros top outer _ U. discriminate U.
    - intros s IS b IB top outer H U.
      change (stmt_ok g (top :: outer) s && top_ok top s && forallb (fun y => used_in y b) (top_names top s) && scope_ok g (names_in s ++ top) outer b = true) in H.
      change (uses_stmt x s || (negb (mem x (names_in s)) && uses_block x b) = true) in U.
      apply andb_true_iff in H. destruct H as [H H4]. apply andb_true_iff in H. destruct H as [H _]. apply andb_true_iff in H. destruct H as [H1 _].
      apply orb_true_iff in U. destruct U as [U|U]; [exact (IS _ H1 U)|]. apply andb_true_iff in U. destruct U as [M U]. apply negb_true_iff in M. exact (top_known _ _ _ M (IB _ _ H4 U)).
    - intros sc _ U. discriminate U.
    - intros c b IB cs IC sc H U. change (e_ok g sc c && scope_ok g [] sc b && clauses_ok g sc cs = true) in H. change (uses_e x c || uses_block x b || uses_clauses x cs = true) in U.
      apply andb_true_iff in H. destruct H as [H H3]. apply andb_true_iff in H. destruct H as [H1 H2]. apply orb_true_iff in U. destruct U as [U|U]; [|exact (IC _ H3 U)]. apply orb_true_iff in U. destruct U as [U|U]; [exact (free_e _ _ H1 U)|exact (IB [] _ H2 U)].
  Qed.
End Free.
(** A function of the generated file uses, besides what it declares, its parameters and what is known outside *)
Lemma decoder_free g x b : decoder_ok g b = true -> uses_block x b = true -> g x = true \/ x = T "r".
Proof.
  intros H U. apply andb_true_iff in H. pose proof (proj1 (proj2 (free_code g x)) b [T "r"] [] (proj2 H) U) as K. unfold known in K. apply orb_true_iff in K. destruct K as [K|K]; [left; exact K|right].
  cbn [existsb mem] in K. unfold mem in K. cbn [existsb] in K. rewrite !orb_false_r in K. apply str_eqb_eq. exact K.
Qed.
Lemma encoder_free g x b : encoder_ok g b = true -> uses_block x b = true -> g x = true \/ x = T "r" \/ x = T "request".
Proof.
  intros H U. apply andb_true_iff in H. pose proof (proj1 (proj2 (free_code g x)) b [T "r"; T "request"] [] (proj2 H) U) as K. unfold known in K. apply orb_true_iff in K. destruct K as [K|K]; [left; exact K|right].
  cbn [existsb mem] in K. unfold mem in K. cbn [existsb] in K. rewrite !orb_false_r in K. apply orb_true_iff in K. destruct K as [K|K]; apply str_eqb_eq in K; [left|right]; exact K.
Qed.
