(** Uses and calls of texts that are put together. *)
From Coq Require Import String Lia.
From Verif Require Import GoStr GoStrProofs Strs GoLex GoLexProofs GoDecls GoDeclsProofs GoUse.

Lemma uses_bare p dot t l : (forall w, t <> Word w) -> is_op "." t = false -> uses p dot (t :: l) = uses p false l.
Proof. intros H1 H2. cbn [uses]. rewrite H2. destruct t; try reflexivity. exfalso. exact (H1 w eq_refl). Qed.
Lemma optional_bare (t : token) : optional N t = true -> (forall w, t <> Word w) /\ is_op "." t = false /\ is_op "(" t = false.
Proof.
  intro H. destruct t; try discriminate; [|repeat split; discriminate]. cbn [optional] in H. apply str_eqb_eq in H. subst o. repeat split; discriminate.
Qed.
Lemma closing_bare (t : token) : closing N t = true -> (forall w, t <> Word w) /\ is_op "." t = false /\ is_op "(" t = false.
Proof.
  intro H. destruct t; try discriminate. unfold closing in H. apply Bool.orb_true_iff in H. destruct H as [H|H]; apply str_eqb_eq in H; subst o; repeat split; discriminate.
Qed.
Lemma closes_split (l : list token) : closes N l = true -> exists t r, l = t :: r /\ closing N t = true.
Proof. destruct l as [|t r]; [discriminate|]. intro H. exists t, r. split; [reflexivity|exact H]. Qed.
(** The next tokens as far as uses sees them *)
Lemma next_plain (l : list token) : match l with o :: _ => is_op "." o | [] => false end = match plain l with o :: _ => is_op "." o | [] => false end.
Proof.
  destruct l as [|o l]; [reflexivity|]. cbn [plain]. destruct (optional N o && closes N (plain l)) eqn:E; [|reflexivity].
  apply andb_prop in E. destruct E as [E1 E2]. destruct (closes_split _ E2) as (t & r & -> & Ht). rewrite (proj1 (proj2 (optional_bare o E1))), (proj1 (proj2 (closing_bare t Ht))). reflexivity.
Qed.
Lemma uses_plain p (l : list token) : forall dot, uses p dot (plain l) = uses p dot l.
Proof.
  induction l as [|t l IH]; intro dot; [reflexivity|]. cbn [plain]. destruct (optional N t && closes N (plain l)) eqn:E.
  - apply andb_prop in E. destruct E as [E1 E2]. destruct (optional_bare t E1) as (A & B & _). rewrite (uses_bare p dot t l A B), <- (IH false). destruct (closes_split _ E2) as (u & r & -> & Hu).
    destruct (closing_bare u Hu) as (A' & B' & _). rewrite !(uses_bare p _ u r A' B'). reflexivity.
  - cbn [uses]. rewrite IH. f_equal. destruct t; try reflexivity.
    destruct l as [|o l]; [reflexivity|]. cbn [plain].
    destruct (optional N o && closes N (plain l)) eqn:E2.
    + apply andb_prop in E2. destruct E2 as [E3 E4]. destruct (closes_split _ E4) as (u & r & -> & Hu). rewrite (proj1 (proj2 (optional_bare o E3))), (proj1 (proj2 (closing_bare u Hu))). rewrite Bool.andb_false_r. cbn [andb].
      destruct r as [|[]]; destruct l as [|[]]; reflexivity.
    + destruct (negb dot && is_op "." o) eqn:D; [|cbn [andb]; destruct (plain l) as [|[]]; destruct l as [|[]]; reflexivity].
      destruct l as [|x l]; [reflexivity|]. cbn [plain]. destruct (optional N x && closes N (plain l)) eqn:E3; [|reflexivity].
      apply andb_prop in E3. destruct E3 as [E4 E5]. destruct (optional_bare x E4) as (X & _). destruct (closes_split _ E5) as (u & r & -> & Hu). destruct (closing_bare u Hu) as (U & _).
      destruct x; try (destruct u; try reflexivity; exfalso; exact (U w0 eq_refl)). exfalso. exact (X w0 eq_refl).
Qed.
Lemma calls_bare prev t l : (forall w, t <> Word w) -> calls prev (t :: l) = calls (Some t) l.
Proof. intros H1. cbn [calls]. destruct t; try reflexivity. exfalso. exact (H1 w eq_refl). Qed.
Lemma calls_plain (l : list token) : forall prev, calls prev (plain l) = calls prev l.
Proof.
  induction l as [|t l IH]; intro prev; [reflexivity|]. cbn [plain]. destruct (optional N t && closes N (plain l)) eqn:E.
  - apply andb_prop in E. destruct E as [E1 E2]. destruct (optional_bare t E1) as (A & _). rewrite (calls_bare prev t l A), <- (IH (Some t)). destruct (closes_split _ E2) as (u & r & -> & Hu).
    destruct (closing_bare u Hu) as (A' & _). rewrite !(calls_bare _ u r A'). reflexivity.
  - cbn [calls]. rewrite IH. f_equal. destruct t; try reflexivity.
    destruct l as [|o l]; [reflexivity|]. cbn [plain]. destruct (optional N o && closes N (plain l)) eqn:E2; [|reflexivity].
    apply andb_prop in E2. destruct E2 as [E3 E4]. destruct (closes_split _ E4) as (u & r & -> & Hu). rewrite (proj2 (proj2 (optional_bare o E3))), (proj2 (proj2 (closing_bare u Hu))). reflexivity.
Qed.

(** Pieces after which nothing depends on what was before *)
Definition shut (a : list token) : Prop := (forall p b, uses p false (a ++ b) = uses p false a ++ uses p false b) /\ forall b, calls None (a ++ b) = calls None a ++ calls None b.
Definition rest (t : token) : bool := match t with Semi => true | Op o => existsb (str_eqb o) (map T ["("; "{"; ","; "}"]%string) | _ => false end.
Lemma uses_stop p t b : rest t = true -> forall a dot, uses p dot ((a ++ [t]) ++ b) = uses p dot (a ++ [t]) ++ uses p false b.
Proof.
  intros Ht.
  assert (D : is_op "." t = false) by (destruct t; try discriminate; [|reflexivity]; cbn [rest] in Ht; apply existsb_exists in Ht; destruct Ht as (x & Hx & E); apply str_eqb_eq in E; subst x; repeat destruct Hx as [<-|Hx]; try reflexivity; destruct Hx).
  assert (W : forall w, t <> Word w) by (intros w E; subst t; discriminate).
  induction a as [|u a IH]; intro dot.
  - cbn [app]. rewrite !(uses_bare p dot t _ W D). reflexivity.
  - cbn [app uses]. rewrite IH, app_assoc. f_equal. f_equal. destruct u; try reflexivity. destruct a as [|v a]; cbn [app].
    + rewrite D, Bool.andb_false_r. cbn [andb]. destruct b as [|[]]; reflexivity.
    + destruct a as [|x a]; [|reflexivity]. cbn [app]. destruct t; try reflexivity.
Qed.
Lemma calls_stop t b : rest t = true -> forall a prev, calls prev ((a ++ [t]) ++ b) = calls prev (a ++ [t]) ++ calls None b.
Proof.
  intros Ht.
  assert (W : forall w, t <> Word w) by (intros w E; subst t; discriminate).
  assert (B : bars (Some t) = false) by (destruct t; try discriminate; [|reflexivity]; cbn [rest] in Ht; apply existsb_exists in Ht; destruct Ht as (x & Hx & E); apply str_eqb_eq in E; subst x; repeat destruct Hx as [<-|Hx]; try reflexivity; destruct Hx).
  assert (C : calls (Some t) b = calls None b) by (destruct b as [|y b]; [reflexivity|]; cbn [calls]; f_equal; destruct y; try reflexivity; destruct b; [reflexivity|]; rewrite B; reflexivity).
  induction a as [|u a IH]; intro prev.
  - cbn [app]. rewrite !(calls_bare prev t _ W). rewrite C. reflexivity.
  - cbn [app calls]. rewrite IH, app_assoc. f_equal. f_equal. destruct u; try reflexivity. destruct a as [|v a]; reflexivity.
Qed.
Definition ends_at_rest (a : list token) : bool := match rev a with t :: _ => rest t | [] => true end.
Lemma shut_rest a : ends_at_rest a = true -> shut a.
Proof.
  unfold ends_at_rest. intro H. destruct (rev a) as [|t r] eqn:E.
  - apply (f_equal (@rev token)) in E. rewrite rev_involutive in E. subst a. split; intros; reflexivity.
  - apply (f_equal (@rev token)) in E. rewrite rev_involutive in E. cbn [rev] in E. subst a. split; intros; [apply uses_stop|apply calls_stop]; exact H.
Qed.
Lemma shut_nil : shut []. Proof. split; intros; reflexivity. Qed.
Lemma shut_app a b : shut a -> shut b -> shut (a ++ b).
Proof. intros [A1 A2] [B1 B2]. split; intros; rewrite <- app_assoc; [rewrite !A1, B1, app_assoc|rewrite !A2, B2, app_assoc]; reflexivity. Qed.
Lemma shut_concat {X} (g : X -> list token) l : (forall x, shut (g x)) -> shut (concat (map g l)).
Proof. intro H. induction l as [|x l IH]; [exact shut_nil|]. cbn [map concat]. apply shut_app; [apply H|exact IH]. Qed.
Lemma uses_join p a b u v : shut a -> uses p false a = u -> uses p false b = v -> uses p false (a ++ b) = u ++ v. Proof. intros [H _] <- <-. apply H. Qed.
Lemma calls_join a b u v : shut a -> calls None a = u -> calls None b = v -> calls None (a ++ b) = u ++ v. Proof. intros [_ H] <- <-. apply H. Qed.
Lemma uses_loop {X} p (g : X -> list token) u l : (forall x, shut (g x)) -> (forall x, uses p false (g x) = u x) -> uses p false (concat (map g l)) = flat_map u l.
Proof. intros H E. induction l as [|x l IH]; [reflexivity|]. cbn [map concat flat_map]. rewrite (proj1 (H x)), E, IH. reflexivity. Qed.
Lemma calls_loop {X} (g : X -> list token) u l : (forall x, shut (g x)) -> (forall x, calls None (g x) = u x) -> calls None (concat (map g l)) = flat_map u l.
Proof. intros H E. induction l as [|x l IH]; [reflexivity|]. cbn [map concat flat_map]. rewrite (proj2 (H x)), E, IH. reflexivity. Qed.
