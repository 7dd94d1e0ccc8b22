(** Go maps with string keys, as association lists with at most one entry per key. *)
From Verif Require Import GoStr GoStrProofs.

Section M.
  Context {A : Type}.
  Definition gomap := list (str * A).
  (** [v, ok := m[k]] *)
  Fixpoint mget (m : gomap) (k : str) : option A :=
    match m with
    | [] => None
    | (k', v) :: m' => if str_eqb k k' then Some v else mget m' k
    end.
  (** [m[k] = v] *)
  Fixpoint mset (m : gomap) (k : str) (v : A) : gomap :=
    match m with
    | [] => [(k, v)]
    | (k', v') :: m' => if str_eqb k k' then (k', v) :: m' else (k', v') :: mset m' k v
    end.
  (** [delete(m, k)] *)
  Fixpoint mdel (m : gomap) (k : str) : gomap :=
    match m with
    | [] => []
    | (k', v') :: m' => if str_eqb k k' then m' else (k', v') :: mdel m' k
    end.
  Definition keys (m : gomap) : list str := map fst m.

  Lemma mget_mset_same : forall m k v, mget (mset m k v) k = Some v.
  Proof.
    induction m as [|[k' v'] m IH]; intros k v; cbn; [rewrite str_eqb_refl; reflexivity|].
    destruct (str_eqb k k') eqn:E; cbn; rewrite E; [reflexivity|apply IH].
  Qed.
  Lemma mget_mset_other : forall m k k2 v, k2 <> k -> mget (mset m k v) k2 = mget m k2.
  Proof.
    induction m as [|[k' v'] m IH]; intros k k2 v H; cbn.
    - apply str_eqb_neq in H. rewrite H. reflexivity.
    - destruct (str_eqb_spec k k') as [->|N1]; cbn.
      + apply str_eqb_neq in H. rewrite H. reflexivity.
      + destruct (str_eqb k2 k'); [reflexivity|apply IH; exact H].
  Qed.
  Lemma mget_mset : forall m k k2 v, mget (mset m k v) k2 = if str_eqb k2 k then Some v else mget m k2.
  Proof.
    intros. destruct (str_eqb_spec k2 k) as [->|N1]; [apply mget_mset_same|apply mget_mset_other; exact N1].
  Qed.
  Lemma mget_none : forall m k, mget m k = None <-> ~ In k (keys m).
  Proof.
    induction m as [|[k' v'] m IH]; intros k; cbn; [tauto|].
    destruct (str_eqb_spec k k') as [->|N1]; [split; [discriminate|intros []; auto]|].
    rewrite IH. split; [intros H [E|H2]; [auto|auto]|intros H H2; apply H; auto].
  Qed.
  Lemma mget_in : forall m k v, NoDup (keys m) -> (mget m k = Some v <-> In (k, v) m).
  Proof.
    induction m as [|[k' v'] m IH]; intros k v H; cbn; [split; [discriminate|tauto]|].
    inversion H as [|x l Hx Hl]; subst. destruct (str_eqb_spec k k') as [->|N1].
    - split; [intros [= ->]; auto|]. intros [[= ->]|H2]; [reflexivity|]. exfalso. apply Hx.
      change k' with (fst (k', v)). apply in_map. exact H2.
    - rewrite (IH k v Hl). split; [auto|]. intros [[= E1 E2]|H2]; [congruence|exact H2].
  Qed.
  Lemma keys_mset : forall m k v x, In x (keys (mset m k v)) <-> In x (keys m) \/ x = k.
  Proof.
    induction m as [|[k' v'] m IH]; intros k v x; cbn; [firstorder auto|].
    destruct (str_eqb_spec k k') as [->|N1]; cbn; [firstorder auto|]. unfold keys in IH. rewrite IH. tauto.
  Qed.
  Lemma nodup_mset : forall m k v, NoDup (keys m) -> NoDup (keys (mset m k v)).
  Proof.
    induction m as [|[k' v'] m IH]; intros k v H; cbn; [constructor; [intros []|constructor]|].
    inversion H as [|x l Hx Hl]; subst. destruct (str_eqb_spec k k') as [->|N1]; cbn; constructor; auto.
    intro H2. apply (proj1 (keys_mset m k v k')) in H2. destruct H2; [auto|congruence].
  Qed.
  Lemma mget_mdel : forall m k k2, NoDup (keys m) -> mget (mdel m k) k2 = if str_eqb k2 k then None else mget m k2.
  Proof.
    induction m as [|[k' v'] m IH]; intros k k2 H; cbn; [destruct (str_eqb k2 k); reflexivity|].
    inversion H as [|x l Hx Hl]; subst. destruct (str_eqb_spec k k') as [->|N1]; cbn.
    - destruct (str_eqb_spec k2 k') as [->|N2]; [apply mget_none; exact Hx|reflexivity].
    - destruct (str_eqb_spec k2 k') as [->|N2]; [|apply IH; exact Hl].
      apply not_eq_sym in N1. apply str_eqb_neq in N1. rewrite N1. reflexivity.
  Qed.
  Lemma keys_mdel : forall m k x, NoDup (keys m) -> (In x (keys (mdel m k)) <-> In x (keys m) /\ x <> k).
  Proof.
    intros m k x H. assert (D : forall m, mget m x <> None <-> In x (keys m)).
    { intro m0. rewrite mget_none. destruct (in_dec str_eq_dec x (keys m0)); tauto. }
    rewrite <- D, mget_mdel by exact H. rewrite <- D. destruct (str_eqb_spec x k) as [->|N1]; tauto.
  Qed.
  Lemma nodup_mdel : forall m k, NoDup (keys m) -> NoDup (keys (mdel m k)).
  Proof.
    induction m as [|[k' v'] m IH]; intros k H; cbn; [constructor|]. inversion H as [|x l Hx Hl]; subst.
    destruct (str_eqb k k'); [exact Hl|]. cbn. constructor; [|apply IH; exact Hl].
    intro H2. apply (proj1 (keys_mdel m k k' Hl)) in H2. tauto.
  Qed.
End M.
Arguments gomap A : clear implicits.
