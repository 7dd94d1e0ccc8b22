(** Proofs about Start.v: the disk. *)
From Verif Require Import GoStr GoStrProofs Strs Generator GeneratorProofs SplitJoin Start StartSpec.

Lemma path_eqb_eq' : forall a b, path_eqb a b = true <-> a = b.
Proof.
  induction a as [|x a IH]; destruct b as [|y b]; cbn [path_eqb]; split; intro H; try discriminate; try reflexivity.
  - apply Bool.andb_true_iff in H. destruct H as [H1 H2]. apply str_eqb_eq in H1. apply IH in H2. congruence.
  - injection H as -> ->. rewrite (proj2 (str_eqb_eq y y) eq_refl), (proj2 (IH b) eq_refl). reflexivity.
Qed.
Lemma put_same : forall t p e, put t p e p = Some e.
Proof. intros. unfold put. rewrite (proj2 (path_eqb_eq' p p) eq_refl). reflexivity. Qed.
Lemma put_other : forall t p e q, q <> p -> put t p e q = t q.
Proof. intros t p e q H. unfold put. destruct (path_eqb q p) eqn:E; [apply path_eqb_eq' in E; contradiction|reflexivity]. Qed.

(** MkdirAll only adds directories, on the way to what it makes. *)
Lemma mkdir_all_spec : forall e todo done t t' ok, mkdir_all e t done todo = (t', ok) ->
  forall q, t' q = t q \/ (t q = None /\ t' q = Some EDir /\ exists a b, todo = a ++ b /\ a <> [] /\ q = done ++ a).
Proof.
  intros e. induction todo as [|c todo IH]; intros done t t' ok H q; cbn [mkdir_all] in H.
  - injection H as <- <-. left. reflexivity.
  - assert (K : forall t1, mkdir_all e t1 (done ++ [c]) todo = (t', ok) ->
      t' q = t1 q \/ (t1 q = None /\ t' q = Some EDir /\ exists a b, c :: todo = a ++ b /\ a <> [] /\ q = done ++ a)).
    { intros t1 H1. destruct (IH _ _ _ _ H1 q) as [E|(E1 & E2 & a & b & -> & Ha & ->)]; [left; exact E|].
      right. split; [exact E1|]. split; [exact E2|]. exists (c :: a), b. split; [reflexivity|]. split; [discriminate|].
      rewrite <- app_assoc. reflexivity. }
    destruct (t (done ++ [c])) as [[|b]|] eqn:Et.
    + destruct (env_visible e (done ++ [c])); [exact (K _ H)|]. injection H as <- <-. left. reflexivity.
    + injection H as <- <-. left. reflexivity.
    + destruct (env_mkdir e (done ++ [c])); [|injection H as <- <-; left; reflexivity].
      destruct (list_eq_dec str_eq_dec q (done ++ [c])) as [->|Hq].
      * right. destruct (K _ H) as [E|(E & _)]; [|rewrite put_same in E; discriminate].
        split; [exact Et|]. split; [rewrite E, put_same; reflexivity|]. exists [c], todo. split; [reflexivity|]. split; [discriminate|reflexivity].
      * destruct (K _ H) as [E|(E1 & E2 & Hab)]; rewrite put_other in * by exact Hq; [left; exact E|].
        right. auto.
Qed.

Lemma target_ne : forall pkg out, target pkg out <> [].
Proof.
  intros pkg out H. unfold target, file_name in H. apply app_eq_nil in H. destruct H as [_ H]. exact (split1_ne _ _ H).
Qed.
Lemma removelast_above : forall p a b, p <> [] -> removelast p = a ++ b -> above a p.
Proof.
  intros p a b Hp E. exists (b ++ [last p []]). split; [intro K; apply app_eq_nil in K; destruct K; discriminate|].
  rewrite app_assoc, <- E. apply app_removelast_last. exact Hp.
Qed.
Lemma above_neq : forall d p, above d p -> d <> p.
Proof. intros d p (more & Hm & ->) E. rewrite <- (app_nil_r d) in E at 1. apply app_inv_head in E. congruence. Qed.

(** Everything about the disk after a run, in one statement. *)
Lemma do_start_cases : forall e t pkg out t' code, do_start e t pkg out = (t', code) ->
  let p := target pkg out in
  (env_visible e p = true /\ t p <> None /\ t' = t /\ code = 1%Z)
  \/ ((env_visible e p = false \/ t p = None)
      /\ (forall q, q <> p -> t' q = env_other e t q \/ (env_other e t q = None /\ t' q = Some EDir /\ above q p))
      /\ ((t' p = env_other e t p /\ code = 1%Z)
          \/ (env_visible e p = true /\ env_other e t p <> Some EDir
              /\ ((t' p = Some (EFile (start_proto (remove_dot_proto_suffix (given pkg)))) /\ code = 0%Z /\ env_written e = None)
                  \/ (code = 1%Z /\ exists n, env_written e = Some n /\ t' p = Some (EFile (firstn n (start_proto (remove_dot_proto_suffix (given pkg))))))))))
.
Proof.
  intros e t pkg out t' code H p. unfold do_start in H. fold (given pkg) in H. fold (target pkg out) in H. fold p in H.
  unfold stat_ok in H.
  destruct (env_visible e p && match t p with Some _ => true | None => false end) eqn:Es.
  { apply Bool.andb_true_iff in Es. destruct Es as [E1 E2]. injection H as <- <-. left. split; [exact E1|]. split; [|auto].
    intro K. rewrite K in E2. discriminate. }
  right. split.
  { apply Bool.andb_false_iff in Es. destruct Es as [E|E]; [left; exact E|]. right. destruct (t p); [discriminate|reflexivity]. }
  set (t0 := env_other e t) in *.
  destruct (match out with [] => (t0, true) | _ => mkdir_all e t0 [] (removelast p) end) as [t1 ok] eqn:Em.
  assert (D : forall q, t1 q = t0 q \/ (t0 q = None /\ t1 q = Some EDir /\ above q p)).
  { intro q. assert (Z : out = [] \/ mkdir_all e t0 [] (removelast p) = (t1, ok)) by (destruct out; auto).
    destruct Z as [-> | Z]; [injection Em as <- <-; left; reflexivity|].
    destruct (mkdir_all_spec _ _ _ _ _ _ Z q) as [E|(E1 & E2 & a & b & Eab & _ & ->)]; [left; exact E|]. right.
    split; [exact E1|]. split; [exact E2|]. exact (removelast_above _ _ _ (target_ne _ _) Eab). }
  assert (Dp : t1 p = t0 p).
  { destruct (D p) as [E|(_ & _ & K)]; [exact E|]. exfalso. exact (above_neq _ _ K eq_refl). }
  destruct ok; cbn [negb] in H.
  2:{ injection H as <- <-. split; [intros q _; apply D|left; auto]. }
  unfold create in H. destruct (env_create e && env_visible e p && is_dir t1 (removelast p) && negb (is_dir t1 p)) eqn:Ec.
  2:{ injection H as <- <-. split; [intros q _; apply D|left; auto]. }
  apply Bool.andb_true_iff in Ec. destruct Ec as [Ec Ed]. apply Bool.andb_true_iff in Ec. destruct Ec as [Ec _].
  apply Bool.andb_true_iff in Ec. destruct Ec as [_ Ev].
  assert (Hd : t0 p <> Some EDir).
  { intro K. rewrite <- Dp in K. unfold is_dir in Ed. rewrite K in Ed. destruct p eqn:Ep; discriminate. }
  destruct (env_written e) as [n|] eqn:Ew; injection H as <- <-.
  - split; [intros q Hq; rewrite !put_other by exact Hq; apply D|]. right. split; [exact Ev|]. split; [exact Hd|]. right. split; [reflexivity|].
    exists n. split; [reflexivity|]. rewrite put_same. reflexivity.
  - split; [intros q Hq; rewrite !put_other by exact Hq; apply D|]. right. split; [exact Ev|]. split; [exact Hd|]. left.
    split; [rewrite put_same; reflexivity|]. auto.
Qed.
