(** Proofs about Paths.v. *)
From Verif Require Import GoStr GoStrProofs SplitJoin HttpSpec Paths PathsSpec.

Lemma clean_rooted : forall es st, Forall plain st -> Forall (free c_slash) es ->
  clean_elems true es st = fold_left go_elem es (rev st) /\ Forall plain (clean_elems true es st).
Proof.
  induction es as [|e es IH]; intros st Hp Hf; [split; [reflexivity|apply Forall_rev; exact Hp]|]. inversion Hf; subst. cbn [clean_elems fold_left].
  unfold go_elem at 2. destruct (str_eqb e [] || str_eqb e (T ".")) eqn:E1; [apply IH; assumption|].
  apply orb_false_iff in E1. destruct E1 as [E1 E2]. destruct (str_eqb e (T "..")) eqn:E3.
  - destruct st as [|t st']; [apply (IH [] Hp H2)|]. inversion Hp as [|x y Px Py]; subst.
    destruct Px as (_ & _ & Pd & _). destruct (str_eqb_spec t (T "..")) as [Q|_]; [contradiction|].
    cbn [rev]. rewrite removelast_last. apply IH; assumption.
  - destruct (IH (e :: st)) as [IH1 IH2]; [constructor; [|exact Hp]|exact H2|].
    + apply str_eqb_neq in E1, E2, E3. repeat (split; [assumption|]). exact H1.
    + cbn [rev] in IH1. auto.
Qed.

Lemma plain_free : forall l, Forall plain l -> Forall (free c_slash) l.
Proof. intros l H. eapply Forall_impl; [|exact H]. intros a (_ & _ & _ & K). exact K. Qed.

Lemma is_abs_cons : forall s, is_abs s = true <-> exists t, s = c_slash :: t.
Proof.
  intros [|c s]; unfold is_abs; change (T "/") with [c_slash]; cbn [has_prefix]; [split; [discriminate|intros (t & E); discriminate]|].
  split.
  - intro H. apply andb_true_iff in H. destruct H as [H _]. apply N.eqb_eq in H. subst c. exists s. reflexivity.
  - intros (t & E). injection E as -> ->. destruct t; reflexivity.
Qed.
Lemma goes_abs : forall from s, is_abs s = true -> goes from s = fold_left go_elem (split1 c_slash s) [].
Proof. intros from s H. apply is_abs_cons in H. destruct H as (t & ->). reflexivity. Qed.
Lemma goes_rel : forall from s, is_abs s = false -> goes from s = fold_left go_elem (split1 c_slash s) from.
Proof.
  intros from [|c s] H; [reflexivity|]. unfold goes. destruct (N.eqb_spec c c_slash) as [->|_]; [|reflexivity].
  exfalso. assert (K : is_abs (c_slash :: s) = true) by (apply is_abs_cons; eexists; reflexivity). congruence.
Qed.

Lemma clean_abs : forall s from, is_abs s = true -> clean s = text_of (goes from s) /\ Forall plain (goes from s).
Proof.
  intros s from H. rewrite (goes_abs from s H). unfold clean. rewrite H.
  destruct (clean_rooted (split1 c_slash s) [] (Forall_nil _) (split1_free _ _)) as [E P]. rewrite E in *. auto.
Qed.

(** ** Joining *)
Lemma split1_join2 : forall c a b, split1 c (a ++ c :: b) = split1 c a ++ split1 c b.
Proof.
  intros c a b. rewrite <- (join_split c a) at 1. pose proof (split1_free c a) as F. pose proof (split1_ne c a) as N.
  revert F N. generalize (split1 c a). induction l as [|w l IH]; intros F N; [congruence|]. inversion F; subst.
  destruct l as [|w2 l].
  - cbn [join]. rewrite split1_app by assumption. reflexivity.
  - change (join [c] (w :: w2 :: l)) with (w ++ [c] ++ join [c] (w2 :: l)). rewrite <- !app_assoc. cbn [app].
    rewrite split1_app by assumption. rewrite IH by (assumption || discriminate). reflexivity.
Qed.
Lemma goes_join : forall from a b, is_abs a = true -> goes from (a ++ c_slash :: b) = fold_left go_elem (split1 c_slash b) (goes from a).
Proof.
  intros from a b H. rewrite (goes_abs from a H). rewrite goes_abs.
  - rewrite split1_join2, fold_left_app. reflexivity.
  - apply is_abs_cons in H. destruct H as (t & ->). apply is_abs_cons. eexists. reflexivity.
Qed.
Lemma abs_app : forall a b, is_abs a = true -> is_abs (a ++ b) = true.
Proof. intros a b H. apply is_abs_cons in H. destruct H as (t & ->). apply is_abs_cons. eexists. reflexivity. Qed.

Lemma join2 : forall a b, is_abs a = true -> fp_join [a; b] = text_of (fold_left go_elem (split1 c_slash b) (goes [] a))
  /\ Forall plain (fold_left go_elem (split1 c_slash b) (goes [] a)).
Proof.
  intros a b H. assert (E : fp_join [a; b] = clean (a ++ c_slash :: b)) by (apply is_abs_cons in H; destruct H as (t & ->); reflexivity).
  rewrite E, <- goes_join by exact H. apply clean_abs. apply abs_app. exact H.
Qed.
Lemma join3 : forall a b d, is_abs a = true -> fp_join [a; b; d] = text_of (fold_left go_elem (split1 c_slash d) (fold_left go_elem (split1 c_slash b) (goes [] a)))
  /\ Forall plain (fold_left go_elem (split1 c_slash d) (fold_left go_elem (split1 c_slash b) (goes [] a))).
Proof.
  intros a b d H. assert (E : fp_join [a; b; d] = clean ((a ++ c_slash :: b) ++ c_slash :: d)).
  { apply is_abs_cons in H; destruct H as (t & ->). rewrite <- app_assoc. reflexivity. }
  rewrite E, <- goes_join by exact H. rewrite <- goes_join by (apply abs_app; exact H). apply clean_abs. apply abs_app. apply abs_app. exact H.
Qed.

(** The text of a directory leads to it. *)
Lemma go_plain : forall l from, Forall plain l -> fold_left go_elem l from = from ++ l.
Proof.
  induction l as [|e l IH]; intros from H; [rewrite app_nil_r; reflexivity|]. inversion H as [|x y (P1 & P2 & P3 & P4) Hl]; subst.
  cbn [fold_left]. unfold go_elem at 2. apply str_eqb_neq in P1, P2, P3. rewrite P1, P2, P3. cbn [orb]. rewrite IH by exact Hl.
  rewrite <- app_assoc. reflexivity.
Qed.
Lemma text_of_goes : forall d, Forall plain d -> goes [] (text_of d) = d.
Proof.
  intros d H. rewrite goes_abs by (apply is_abs_cons; eexists; reflexivity). unfold text_of.
  change (c_slash :: join [c_slash] d) with ([] ++ c_slash :: join [c_slash] d). rewrite split1_join2. cbn [split1 app fold_left].
  change (go_elem [] []) with (@nil str). destruct d as [|e d]; [reflexivity|]. rewrite split_join; [|discriminate|apply plain_free; exact H].
  rewrite go_plain by exact H. reflexivity.
Qed.
Lemma text_abs : forall d, is_abs (text_of d) = true.
Proof. intro d. apply is_abs_cons. eexists. reflexivity. Qed.
Lemma text_inj : forall d d', Forall plain d -> Forall plain d' -> text_of d = text_of d' -> d = d'.
Proof. intros d d' H H' E. rewrite <- (text_of_goes d H), E. apply text_of_goes. exact H'. Qed.

Lemma last_split : forall s, str_eqb (fp_file s) [] = true <-> (s = [] \/ ends_in_slash s = true).
Proof.
  intro s. unfold fp_file, ends_in_slash. destruct (rev s) as [|x r] eqn:E.
  - assert (s = []) by (rewrite <- (rev_involutive s), E; reflexivity). subst s. split; [auto|reflexivity].
  - assert (Es : s = rev r ++ [x]) by (rewrite <- (rev_involutive s), E; reflexivity). rewrite Es. destruct (N.eqb_spec x c_slash) as [->|Hx].
    + rewrite split1_snoc_sep, last_last. split; [auto|reflexivity].
    + destruct (split1_snoc c_slash (rev r) x Hx) as (l & w & _ & K). rewrite K, last_last. split; [destruct w; discriminate|].
      intros [K2|K2]; [destruct (rev r); discriminate|discriminate].
Qed.

Lemma local_not_abs : forall s, is_local_import s = true -> is_abs s = false.
Proof.
  intros [|c s] H; [reflexivity|]. destruct (is_abs (c :: s)) eqn:E; [|reflexivity]. apply is_abs_cons in E. destruct E as (t & E). injection E as -> ->.
  exfalso. unfold is_local_import in H. cbn in H. discriminate.
Qed.

(** ** Unrooted paths *)
Lemma removelast_snoc : forall (d : dir) x, removelast (d ++ [x]) = d.
Proof. intros. apply removelast_last. Qed.
Definition stackok (st : list str) : Prop := exists p k, st = p ++ repeat (T "..") k /\ Forall plain p.
Lemma fold_dd : forall k d, fold_left go_elem (repeat (T "..") k) d = Nat.iter k (@removelast str) d.
Proof.
  induction k as [|k IH]; intro d; [reflexivity|]. cbn [repeat fold_left]. rewrite IH. change (go_elem d (T "..")) with (removelast d).
  clear IH. induction k as [|k IH]; [reflexivity|]. cbn [Nat.iter nat_rect]. f_equal. exact IH.
Qed.
Lemma fold_ok : forall p k d, Forall plain p -> fold_left go_elem (rev (p ++ repeat (T "..") k)) d = Nat.iter k (@removelast str) d ++ rev p.
Proof.
  intros p k d H. rewrite rev_app_distr, fold_left_app, go_plain by (apply Forall_rev; exact H). f_equal.
  assert (E : rev (repeat (T "..") k) = repeat (T "..") k).
  { clear. induction k as [|k IH]; [reflexivity|]. cbn [repeat rev]. rewrite IH. symmetry. apply repeat_cons. }
  rewrite E. apply fold_dd.
Qed.
Lemma clean_unrooted : forall es st d, stackok st -> Forall (free c_slash) es ->
  fold_left go_elem (clean_elems false es st) d = fold_left go_elem es (fold_left go_elem (rev st) d) /\ Forall (free c_slash) (clean_elems false es st) /\ ~ In [] (clean_elems false es st).
Proof.
  induction es as [|e es IH]; intros st d Hs Hf.
  - cbn [clean_elems fold_left]. split; [reflexivity|]. destruct Hs as (p & k & -> & Hp). split.
    + apply Forall_rev, Forall_app. split; [apply plain_free; exact Hp|]. apply Forall_forall. intros x Hx. apply repeat_spec in Hx. subst x. intro K. vm_compute in K. repeat destruct K as [K|K]; discriminate || contradiction.
    + intro K. apply in_rev in K. apply in_app_or in K. destruct K as [K|K]; [rewrite Forall_forall in Hp; destruct (Hp _ K) as [N _]; congruence|apply repeat_spec in K; discriminate].
  - inversion Hf; subst. cbn [clean_elems fold_left]. unfold go_elem at 3. destruct (str_eqb e [] || str_eqb e (T ".")) eqn:E1; [apply IH; assumption|].
    apply orb_false_iff in E1. destruct E1 as [E1 E2]. destruct (str_eqb e (T "..")) eqn:E3.
    + apply str_eqb_eq in E3. subst e. destruct Hs as (p & k & -> & Hp). destruct p as [|t p].
      * destruct k as [|k]; cbn [repeat app].
        { destruct (IH [T ".."] d) as [A B]; [exists [], 1; split; [reflexivity|constructor]|exact H2|]. split; [exact A|exact B]. }
        { change (str_eqb (T "..") (T "..")) with true. cbn iota. destruct (IH (T ".." :: T ".." :: repeat (T "..") k) d) as [A B]; [exists [], (S (S k)); split; [reflexivity|constructor]|exact H2|].
          split; [|exact B]. rewrite A. f_equal. change (T ".." :: T ".." :: repeat (T "..") k) with ([] ++ repeat (T "..") (S (S k))). change (T ".." :: repeat (T "..") k) with ([] ++ repeat (T "..") (S k)).
          rewrite !fold_ok by constructor. cbn [rev]. rewrite !app_nil_r. reflexivity. }
      * inversion Hp as [|x y Px Py]; subst. cbn [app]. destruct Px as (_ & _ & Pd & _). destruct (str_eqb_spec t (T "..")) as [Q|_]; [contradiction|].
        destruct (IH (p ++ repeat (T "..") k) d) as [A B]; [exists p, k; auto|exact H2|]. split; [|exact B]. rewrite A. f_equal.
        cbn [rev]. rewrite fold_left_app. cbn [fold_left]. unfold go_elem at 2.
        inversion Hp as [|x y (P1 & P2 & P3 & P4) _]; subst. apply str_eqb_neq in P1, P2, P3. rewrite P1, P2, P3. cbn [orb]. rewrite removelast_last. reflexivity.
    + apply str_eqb_neq in E1, E2, E3. assert (Pe : plain e) by (repeat (split; [assumption|]); exact H1).
      destruct Hs as (p & k & -> & Hp). destruct (IH (e :: p ++ repeat (T "..") k) d) as [A B]; [exists (e :: p), k; split; [reflexivity|constructor; assumption]|exact H2|].
      split; [|exact B]. rewrite A. f_equal. cbn [rev]. rewrite fold_left_app. cbn [fold_left]. unfold go_elem at 1. apply str_eqb_neq in E1, E2, E3. rewrite E1, E2, E3. reflexivity.
Qed.
(** A cleaned path leads where the path leads, from anywhere. *)
Lemma clean_means : forall d s, goes d (clean s) = goes d s /\ is_abs (clean s) = is_abs s.
Proof.
  intros d s. destruct (is_abs s) eqn:A.
  - destruct (clean_abs s d A) as [E P]. rewrite E. split; [|apply text_abs]. rewrite goes_abs by apply text_abs. rewrite <- (goes_abs [] _ (text_abs _)). apply text_of_goes. exact P.
  - rewrite (goes_rel d s A). unfold clean. rewrite A. destruct (clean_unrooted (split1 c_slash s) [] d) as (E & F & N); [exists [], 0; split; [reflexivity|constructor]|apply split1_free|].
    cbn [rev fold_left] in E. destruct (clean_elems false (split1 c_slash s) []) as [|x l] eqn:Ec; [split; [exact E|reflexivity]|].
    assert (NA : is_abs (join [c_slash] (x :: l)) = false).
    { destruct (is_abs (join [c_slash] (x :: l))) eqn:K; [|reflexivity]. apply is_abs_cons in K. destruct K as (t & K). inversion F as [|y z Fx Fl]; subst. exfalso.
      destruct x as [|c x]; [apply N; left; reflexivity|]. destruct l; cbn [join] in K; [injection K as -> _|cbn [app] in K; injection K as -> _]; apply Fx; left; reflexivity. }
    split; [|exact NA]. rewrite (goes_rel d _ NA), split_join by (discriminate || exact F). exact E.
Qed.
Lemma goes_then : forall d a b, a <> [] -> goes d (a ++ c_slash :: b) = fold_left go_elem (split1 c_slash b) (goes d a).
Proof.
  intros d a b H. destruct (is_abs a) eqn:A; [apply goes_join; exact A|]. rewrite (goes_rel d a A), goes_rel.
  - rewrite split1_join2, fold_left_app. reflexivity.
  - destruct a as [|c a]; [congruence|]. destruct (is_abs ((c :: a) ++ c_slash :: b)) eqn:K; [|reflexivity]. apply is_abs_cons in K. destruct K as (t & K). cbn [app] in K. injection K as -> _.
    assert (is_abs (c_slash :: a) = true) by (apply is_abs_cons; eexists; reflexivity). congruence.
Qed.
(** A joined path leads along its elements one after the other, the first that is not empty deciding whether it starts at the root. *)
Lemma goes_joined : forall l a d, a <> [] -> goes d (join [c_slash] (a :: l)) = fold_left (fun d e => fold_left go_elem (split1 c_slash e) d) l (goes d a).
Proof.
  induction l as [|b l IH]; intros a d H; [reflexivity|]. cbn [fold_left]. rewrite <- (goes_then d a b H).
  change (join [c_slash] (a :: b :: l)) with (a ++ c_slash :: join [c_slash] (b :: l)).
  assert (E : a ++ c_slash :: join [c_slash] (b :: l) = join [c_slash] ((a ++ c_slash :: b) :: l)).
  { destruct l as [|b2 l]; [reflexivity|]. change (join [c_slash] (b :: b2 :: l)) with (b ++ [c_slash] ++ join [c_slash] (b2 :: l)). change (join [c_slash] ((a ++ c_slash :: b) :: b2 :: l)) with ((a ++ c_slash :: b) ++ [c_slash] ++ join [c_slash] (b2 :: l)).
    rewrite <- app_assoc. reflexivity. }
  rewrite E. apply IH. destruct a; [congruence|discriminate].
Qed.
Lemma fp_join_cons : forall a l, a <> [] -> fp_join (a :: l) = clean (join [c_slash] (a :: l)).
Proof. intros [|c a] l H; [congruence|reflexivity]. Qed.
