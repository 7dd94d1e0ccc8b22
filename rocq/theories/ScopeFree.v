(** What the rules of GoScope.v come to: in a function that keeps them, every variable that is used and not declared in it is known outside. *)
From Coq Require Import String.
From Verif Require Import GoStr GoStrProofs Strs GoLex GoGlue GoScope.

Section Free.
  Variable g : str -> bool.
  Variable x : str.
  Notation kn := (known g).
  Lemma outer_known l sc : mem x l = false -> kn (l :: sc) x = true -> kn sc x = true.
  Proof. intros M. unfold known. cbn [existsb]. rewrite M. intro H. exact H. Qed.
  Lemma top_known l top sc : mem x l = false -> kn ((l ++ top) :: sc) x = true -> kn (top :: sc) x = true.
  Proof. intros M. unfold known. cbn [existsb]. unfold mem in *. rewrite existsb_app, M. intro H. exact H. Qed.
  Lemma nil_known sc : kn ([] :: sc) x = kn sc x. Proof. reflexivity. Qed.
  Definition fine_e (e : gexp) : Prop := forall sc, exp_ok g sc e = true -> uses_exp x e = true -> kn sc x = true.
  Definition fine_s (s : gstm) : Prop := forall sc, stm_ok g sc s = true -> uses_stm x s = true -> kn sc x = true.
  Lemma fine_list : forall l, Forall fine_e l -> forall sc, forallb (exp_ok g sc) l = true -> existsb (uses_exp x) l = true -> kn sc x = true.
  Proof. intros l F sc H U. apply existsb_exists in U. destruct U as (a & Ia & U). rewrite forallb_forall in H. rewrite Forall_forall in F. exact (F a Ia sc (H a Ia) U). Qed.
  Lemma fine_block : forall l, Forall fine_s l -> forall top outer, block_ok (stm_ok g) top outer l = true -> uses_inner x (uses_stm x) l = true -> kn (top :: outer) x = true.
  Proof.
    intros l F. induction F as [|s l Fs F IH]; intros top outer H U; cbn [block_ok uses_inner] in H, U; [discriminate U|].
    apply andb_true_iff in H. destruct H as [H H4]. apply andb_true_iff in H. destruct H as [H _]. apply andb_true_iff in H. destruct H as [H1 _].
    apply orb_true_iff in U. destruct U as [U|U]; [exact (Fs _ H1 U)|]. apply andb_true_iff in U. destruct U as [M U]. apply negb_true_iff in M. exact (top_known _ _ _ M (IH _ _ H4 U)).
  Qed.
  Lemma both sc a b : fine_e a -> fine_e b -> exp_ok g sc a && exp_ok g sc b = true -> uses_exp x a || uses_exp x b = true -> kn sc x = true.
  Proof. intros A B H U. apply andb_true_iff in H. destruct H as [H1 H2]. apply orb_true_iff in U. destruct U as [U|U]; [exact (A sc H1 U)|exact (B sc H2 U)]. Qed.
  Lemma call sc f args : fine_e f -> Forall fine_e args -> exp_ok g sc f && forallb (exp_ok g sc) args = true -> uses_exp x f || existsb (uses_exp x) args = true -> kn sc x = true.
  Proof. intros A B H U. apply andb_true_iff in H. destruct H as [H1 H2]. apply orb_true_iff in U. destruct U as [U|U]; [exact (A sc H1 U)|exact (fine_list args B sc H2 U)]. Qed.
  Fixpoint free_exp (e : gexp) : fine_e e
  with free_stm (s : gstm) : fine_s s.
  Proof.
    - assert (L : forall l, Forall fine_e l) by (fix IL 1; intros [|a l]; [constructor|constructor; [exact (free_exp a)|exact (IL l)]]).
      assert (S : forall l, Forall fine_s l) by (fix IL 1; intros [|a l]; [constructor|constructor; [exact (free_stm a)|exact (IL l)]]).
      assert (P : forall (l : list (str * gexp)), Forall (fun p => fine_e (snd p)) l) by (fix IL 1; intros [|[k a] l]; [constructor|constructor; [exact (free_exp a)|exact (IL l)]]).
      destruct e as [y|t|n|b| |e f|f args|f args|f args y|e ty|a b|a b|a b|a b|a b|a b|e|e|e|e|l|ty fs|ty f e|ty es|ps res body]; intros sc H U; cbn [exp_ok uses_exp] in H, U; try discriminate U.
      + apply str_eqb_eq in U. rewrite U. exact H.
      + exact (free_exp e sc H U).
      + exact (call sc f args (free_exp f) (L args) H U).
      + exact (call sc f args (free_exp f) (L args) H U).
      + apply andb_true_iff in H. destruct H as [H1 H2]. apply orb_true_iff in U. destruct U as [U|U]; [exact (call sc f args (free_exp f) (L args) H1 U)|]. apply str_eqb_eq in U. rewrite U. exact H2.
      + apply andb_true_iff in H. exact (free_exp e sc (proj1 H) U).
      + exact (both sc a b (free_exp a) (free_exp b) H U).
      + exact (both sc a b (free_exp a) (free_exp b) H U).
      + exact (both sc a b (free_exp a) (free_exp b) H U).
      + exact (both sc a b (free_exp a) (free_exp b) H U).
      + exact (both sc a b (free_exp a) (free_exp b) H U).
      + exact (both sc a b (free_exp a) (free_exp b) H U).
      + exact (free_exp e sc H U).
      + exact (free_exp e sc H U).
      + exact (free_exp e sc H U).
      + exact (free_exp e sc H U).
      + apply andb_true_iff in H. destruct H as [_ H]. apply existsb_exists in U. destruct U as (q & Iq & U). rewrite forallb_forall in H. pose proof (proj1 (Forall_forall _ _) (P fs) q Iq) as F. exact (F sc (H q Iq) U).
      + apply andb_true_iff in H. exact (free_exp e sc (proj2 H) U).
      + apply andb_true_iff in H. exact (fine_list es (L es) sc (proj2 H) U).
      + apply andb_true_iff in H. destruct H as [_ H]. apply andb_true_iff in U. destruct U as [M U]. apply negb_true_iff in M. exact (outer_known _ _ M (fine_block body (S body) _ _ H U)).
    - assert (L : forall l, Forall fine_e l) by (fix IL 1; intros [|a l]; [constructor|constructor; [exact (free_exp a)|exact (IL l)]]).
      assert (S : forall l, Forall fine_s l) by (fix IL 1; intros [|a l]; [constructor|constructor; [exact (free_stm a)|exact (IL l)]]).
      destruct s as [xs e|ts e|y ty|i c body|xs e body|es|e|m k|y n|e|body]; intros sc H U; cbn [stm_ok uses_stm] in H, U; try discriminate U.
      + exact (free_exp e sc H U).
      + apply andb_true_iff in H. destruct H as [H1 H2]. apply orb_true_iff in U. destruct U as [U|U]; [|exact (free_exp e sc H2 U)]. apply existsb_exists in U. destruct U as (a & Ia & U). rewrite forallb_forall in H1. specialize (H1 a Ia).
        pose proof (proj1 (Forall_forall _ _) (L ts) a Ia) as F. destruct a; try discriminate U; exact (F sc H1 U).
      + destruct i as [i|].
        * apply andb_true_iff in H. destruct H as [H H5]. apply andb_true_iff in H. destruct H as [H H4]. apply andb_true_iff in H. destruct H as [H _]. apply andb_true_iff in H. destruct H as [H1 _].
          apply orb_true_iff in U. destruct U as [U|U]; [exact (free_stm i ([] :: sc) H1 U)|]. apply andb_true_iff in U. destruct U as [M U]. apply negb_true_iff in M. apply (outer_known _ _ M).
          apply orb_true_iff in U. destruct U as [U|U]; [exact (free_exp c _ H4 U)|exact (fine_block body (S body) [] _ H5 U)].
        * apply andb_true_iff in H. destruct H as [H1 H2]. apply orb_true_iff in U. destruct U as [U|U]; [exact (free_exp c sc H1 U)|exact (fine_block body (S body) [] sc H2 U)].
      + apply andb_true_iff in H. destruct H as [H H4]. apply andb_true_iff in H. destruct H as [H _]. apply andb_true_iff in H. destruct H as [H1 _].
        apply orb_true_iff in U. destruct U as [U|U]; [exact (free_exp e sc H1 U)|]. apply andb_true_iff in U. destruct U as [M U]. apply negb_true_iff in M. exact (outer_known _ _ M (fine_block body (S body) [] _ H4 U)).
      + exact (fine_list es (L es) sc H U).
      + exact (free_exp e sc H U).
      + apply andb_true_iff in H. destruct H as [H1 H2]. apply orb_true_iff in U. destruct U as [U|U]; [apply str_eqb_eq in U; rewrite U; exact H1|exact (free_exp k sc H2 U)].
      + exact (free_exp e sc H U).
      + exact (fine_block body (S body) [] sc H U).
  Qed.
  Lemma all_fine l : Forall fine_s l. Proof. apply Forall_forall. intros s _. exact (free_stm s). Qed.
End Free.
(** A function uses, besides what it declares, its receiver, parameters and results and what is known outside *)
Lemma func_free g x f : func_ok g f = true -> uses_inner x (uses_stm x) (f_body f) = true -> g x = true \/ In x (parameters f).
Proof.
  intros H U. apply andb_true_iff in H. pose proof (fine_block g x (f_body f) (all_fine g x _) (parameters f) [] (proj2 H) U) as K. unfold known in K. apply orb_true_iff in K. destruct K as [K|K]; [left; exact K|right].
  cbn [existsb] in K. rewrite orb_false_r in K. unfold mem in K. apply existsb_exists in K. destruct K as (y & I & E). apply str_eqb_eq in E. rewrite E. exact I.
Qed.
