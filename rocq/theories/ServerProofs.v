(** Proofs about Server.v. *)
From Verif Require Import GoStr GoStrProofs Server ServerSpec.

(** ** Run *)
Section R.
Variable r : rendering.
Variable c : config.
Notation s0 := (initial r c).

Lemma step_ret : forall s l s', step s l s' -> ret s' = ret s \/ exists g v, l = LReceive g v /\ ret s = None /\ ret s' = Some v.
Proof. intros s l s' H. destruct H; cbn [ret set_pc]; auto. right. exists g, v. auto. Qed.

(** The goroutines there are were started, and the ones to come are the rest of the list. *)
Record inv (tr : list label) (s : state) : Prop := {
  i_list : exists before, to_start r c = before ++ todo s /\ forall g, gos s g <> None <-> In g before;
  i_sending : forall g v, gos s g = Some (PSending v) -> In (LReport g v) tr;
  i_report : forall g v, In (LReport g v) tr -> gos s g = Some (PSending v) \/ In (LReceive g v) tr;
  i_fresh : forall g, gos s g = None -> forall v, ~ In (LReport g v) tr;
  i_first : forall g, gos s g = Some PFirst \/ gos s g = Some PSecond -> forall v, ~ In (LReport g v) tr;
  i_ret : forall v, ret s = Some v -> exists g, In (LReceive g v) tr;
  i_none : ret s = None -> forall g v, ~ In (LReceive g v) tr;
  i_done : ret s <> None -> todo s = [] }.

Lemma no_dup_start : NoDup (to_start r c).
Proof.
  assert (K : forall l, to_start r c = l -> NoDup l); [|exact (K _ eq_refl)].
  unfold to_start. destruct (c_debug c), (r_http r && negb (empty (c_http c))), (r_grpc r && negb (empty (c_grpc c))), (r_nats r && negb (empty (c_nats c)));
    intros l <-; cbn [app]; repeat (apply NoDup_cons; [cbn [In]; let H := fresh in intro H; repeat (destruct H as [H|H]; [discriminate|]); destruct H|]); apply NoDup_nil.
Qed.

Lemma in_snoc : forall (x y : label) tr, In x (tr ++ [y]) <-> In x tr \/ x = y.
Proof. intros x y tr. rewrite in_app_iff. cbn [In]. split; intros [H|H]; auto. destruct H as [H|[]]; auto. Qed.

Lemma set_pc_same : forall s g p, gos (set_pc s g p) g = Some p.
Proof. intros. cbn [set_pc gos]. destruct (gid_eq_dec g g); [reflexivity|congruence]. Qed.
Lemma set_pc_other : forall s g p h, h <> g -> gos (set_pc s g p) h = gos s h.
Proof. intros. cbn [set_pc gos]. destruct (gid_eq_dec h g); [congruence|reflexivity]. Qed.

Lemma inv_run : forall tr s, run s0 tr s -> inv tr s.
Proof.
  intros tr s H. induction H as [|tr s1 l s2 H IH Hs].
  - constructor; cbn [initial todo gos ret]; try (intros; discriminate); try congruence; try (intros; contradiction);
      try (intros g _ v K; exact K); try (intros _ g v K; exact K); try (intros g v []).
    + exists []. split; [reflexivity|]. intro g. split; [congruence|intros []].
  - destruct IH as [(before & El & Hb) I2 I3 I4 I5 I6 I7 I8].
    assert (SP : forall g p, gos s1 g <> None ->
      exists before', to_start r c = before' ++ todo (set_pc s1 g p) /\ forall h, gos (set_pc s1 g p) h <> None <-> In h before').
    { intros g p Hg. exists before. split; [exact El|]. intro h. destruct (gid_eq_dec h g) as [->|Hn].
      - rewrite set_pc_same. split; [intros _; apply Hb; exact Hg|discriminate].
      - rewrite set_pc_other by exact Hn. apply Hb. }
    destruct Hs as [s g gs Et|s g v Hg|s g Hg Ht|s g v Hg|s Hg|s g v Et Er Hg].
    + (* start *)
      assert (Hnew : gos s g = None).
      { destruct (gos s g) eqn:E; [|reflexivity]. exfalso. assert (K : In g before) by (apply Hb; congruence).
        pose proof no_dup_start as N. rewrite El, Et in N. apply NoDup_remove_2 in N. apply N. apply in_or_app. left. exact K. }
      constructor; cbn [todo gos ret].
      * exists (before ++ [g]). split; [rewrite <- app_assoc, El, Et; reflexivity|]. intro h. rewrite in_app_iff. cbn [In].
        destruct (gid_eq_dec h g) as [->|Hn]; [split; [intros _; right; left; reflexivity|discriminate]|]. rewrite Hb.
        split; [intro K; left; exact K|intros [K|[K|[]]]; [exact K|congruence]].
      * intros h v K. apply in_snoc. left. destruct (gid_eq_dec h g); [discriminate|]. apply I2. exact K.
      * intros h v K. apply in_snoc in K. destruct K as [K|K]; [|discriminate]. rewrite in_snoc.
        destruct (gid_eq_dec h g) as [->|Hn]; [exfalso; exact (I4 _ Hnew _ K)|]. destruct (I3 _ _ K); auto.
      * intros h K v Kr. apply in_snoc in Kr. destruct Kr as [Kr|Kr]; [|discriminate]. destruct (gid_eq_dec h g); [discriminate|]. exact (I4 _ K _ Kr).
      * intros h K v Kr. apply in_snoc in Kr. destruct Kr as [Kr|Kr]; [|discriminate]. destruct (gid_eq_dec h g) as [->|Hn]; [exact (I4 _ Hnew _ Kr)|exact (I5 _ K _ Kr)].
      * intros v K. destruct (I6 v K) as [h Hh]. exists h. apply in_snoc. left. exact Hh.
      * intros K h v Kr. apply in_snoc in Kr. destruct Kr as [Kr|Kr]; [exact (I7 K _ _ Kr)|discriminate].
      * intro K. specialize (I8 K). congruence.
    + (* report 1 *)
      constructor; [apply SP; congruence| | | | |intros w K; destruct (I6 w K) as [h Hh]; exists h; apply in_snoc; left; exact Hh
        |intros K h w Kr; apply in_snoc in Kr; destruct Kr as [Kr|Kr]; [exact (I7 K _ _ Kr)|discriminate]|exact I8].
      * intros h w K. apply in_snoc. destruct (gid_eq_dec h g) as [->|Hn].
        -- rewrite set_pc_same in K. right. congruence.
        -- rewrite set_pc_other in K by exact Hn. left. apply I2. exact K.
      * intros h w K. apply in_snoc in K. rewrite in_snoc. destruct (gid_eq_dec h g) as [->|Hn].
        -- rewrite set_pc_same. destruct K as [K|K]; [exfalso; exact (I5 g (or_introl Hg) _ K)|]. left. congruence.
        -- rewrite set_pc_other by exact Hn. destruct K as [K|K]; [destruct (I3 _ _ K); auto|congruence].
      * intros h K w Kr. apply in_snoc in Kr. destruct (gid_eq_dec h g) as [->|Hn]; [rewrite set_pc_same in K; discriminate|].
        rewrite set_pc_other in K by exact Hn. destruct Kr as [Kr|Kr]; [exact (I4 _ K _ Kr)|congruence].
      * intros h K w Kr. apply in_snoc in Kr. destruct (gid_eq_dec h g) as [->|Hn]; [rewrite set_pc_same in K; destruct K; discriminate|].
        rewrite set_pc_other in K by exact Hn. destruct Kr as [Kr|Kr]; [exact (I5 _ K _ Kr)|congruence].
    + (* phase *)
      constructor; [apply SP; congruence| | | | |intros w K; destruct (I6 w K) as [h Hh]; exists h; apply in_snoc; left; exact Hh
        |intros K h w Kr; apply in_snoc in Kr; destruct Kr as [Kr|Kr]; [exact (I7 K _ _ Kr)|discriminate]|exact I8].
      * intros h w K. apply in_snoc. left. destruct (gid_eq_dec h g) as [->|Hn]; [rewrite set_pc_same in K; discriminate|].
        rewrite set_pc_other in K by exact Hn. apply I2. exact K.
      * intros h w K. apply in_snoc in K. destruct K as [K|K]; [|discriminate]. rewrite in_snoc. destruct (gid_eq_dec h g) as [->|Hn].
        -- exfalso. exact (I5 g (or_introl Hg) _ K).
        -- rewrite set_pc_other by exact Hn. destruct (I3 _ _ K); auto.
      * intros h K w Kr. apply in_snoc in Kr. destruct Kr as [Kr|Kr]; [|discriminate]. destruct (gid_eq_dec h g) as [->|Hn]; [rewrite set_pc_same in K; discriminate|].
        rewrite set_pc_other in K by exact Hn. exact (I4 _ K _ Kr).
      * intros h K w Kr. apply in_snoc in Kr. destruct Kr as [Kr|Kr]; [|discriminate]. destruct (gid_eq_dec h g) as [->|Hn]; [exact (I5 g (or_introl Hg) _ Kr)|].
        rewrite set_pc_other in K by exact Hn. exact (I5 _ K _ Kr).
    + (* report 2 *)
      constructor; [apply SP; congruence| | | | |intros w K; destruct (I6 w K) as [h Hh]; exists h; apply in_snoc; left; exact Hh
        |intros K h w Kr; apply in_snoc in Kr; destruct Kr as [Kr|Kr]; [exact (I7 K _ _ Kr)|discriminate]|exact I8].
      * intros h w K. apply in_snoc. destruct (gid_eq_dec h g) as [->|Hn].
        -- rewrite set_pc_same in K. right. congruence.
        -- rewrite set_pc_other in K by exact Hn. left. apply I2. exact K.
      * intros h w K. apply in_snoc in K. rewrite in_snoc. destruct (gid_eq_dec h g) as [->|Hn].
        -- rewrite set_pc_same. destruct K as [K|K]; [exfalso; exact (I5 g (or_intror Hg) _ K)|]. left. congruence.
        -- rewrite set_pc_other by exact Hn. destruct K as [K|K]; [destruct (I3 _ _ K); auto|congruence].
      * intros h K w Kr. apply in_snoc in Kr. destruct (gid_eq_dec h g) as [->|Hn]; [rewrite set_pc_same in K; discriminate|].
        rewrite set_pc_other in K by exact Hn. destruct Kr as [Kr|Kr]; [exact (I4 _ K _ Kr)|congruence].
      * intros h K w Kr. apply in_snoc in Kr. destruct (gid_eq_dec h g) as [->|Hn]; [rewrite set_pc_same in K; destruct K; discriminate|].
        rewrite set_pc_other in K by exact Hn. destruct Kr as [Kr|Kr]; [exact (I5 _ K _ Kr)|congruence].
    + (* quiet *)
      constructor; [apply SP; congruence| | | | |intros w K; destruct (I6 w K) as [h Hh]; exists h; apply in_snoc; left; exact Hh
        |intros K h w Kr; apply in_snoc in Kr; destruct Kr as [Kr|Kr]; [exact (I7 K _ _ Kr)|discriminate]|exact I8].
      * intros h w K. apply in_snoc. left. destruct (gid_eq_dec h GNats) as [->|Hn]; [rewrite set_pc_same in K; discriminate|].
        rewrite set_pc_other in K by exact Hn. apply I2. exact K.
      * intros h w K. apply in_snoc in K. destruct K as [K|K]; [|discriminate]. rewrite in_snoc. destruct (gid_eq_dec h GNats) as [->|Hn].
        -- exfalso. exact (I5 GNats (or_intror Hg) _ K).
        -- rewrite set_pc_other by exact Hn. destruct (I3 _ _ K); auto.
      * intros h K w Kr. apply in_snoc in Kr. destruct Kr as [Kr|Kr]; [|discriminate]. destruct (gid_eq_dec h GNats) as [->|Hn]; [rewrite set_pc_same in K; discriminate|].
        rewrite set_pc_other in K by exact Hn. exact (I4 _ K _ Kr).
      * intros h K w Kr. apply in_snoc in Kr. destruct Kr as [Kr|Kr]; [|discriminate]. destruct (gid_eq_dec h GNats) as [->|Hn];
          [rewrite set_pc_same in K; destruct K; discriminate|].
        rewrite set_pc_other in K by exact Hn. exact (I5 _ K _ Kr).
    + (* receive *)
      constructor; cbn [todo gos ret].
      * exists before. split; [rewrite Et in El; exact El|]. intro h. destruct (gid_eq_dec h g) as [->|Hn].
        -- split; [intros _; apply Hb; congruence|discriminate].
        -- apply Hb.
      * intros h w K. apply in_snoc. left. destruct (gid_eq_dec h g); [discriminate|]. apply I2. exact K.
      * intros h w K. apply in_snoc in K. destruct K as [K|K]; [|discriminate]. rewrite in_snoc. destruct (gid_eq_dec h g) as [->|Hn].
        -- destruct (I3 _ _ K) as [K2|K2]; [|auto]. right. right. congruence.
        -- destruct (I3 _ _ K); auto.
      * intros h K w Kr. apply in_snoc in Kr. destruct Kr as [Kr|Kr]; [|discriminate]. destruct (gid_eq_dec h g); [discriminate|]. exact (I4 _ K _ Kr).
      * intros h K w Kr. apply in_snoc in Kr. destruct Kr as [Kr|Kr]; [|discriminate]. destruct (gid_eq_dec h g) as [->|Hn]; [destruct K; discriminate|exact (I5 _ K _ Kr)].
      * intros w K. injection K as <-. exists g. apply in_snoc. right. reflexivity.
      * discriminate.
      * reflexivity.
Qed.

(** A receive comes after a report of the same value by the same goroutine. *)
Lemma receive_after : forall tr s, run s0 tr s -> forall g v, In (LReceive g v) tr ->
  exists a b d, tr = a ++ LReport g v :: b ++ LReceive g v :: d.
Proof.
  intros tr s H. induction H as [|tr s1 l s2 H IH Hs]; intros g v K; [destruct K|]. apply in_snoc in K. destruct K as [K|K].
  - destruct (IH g v K) as (a & b & d & ->). exists a, b, (d ++ [l]). rewrite <- !app_assoc. cbn [app]. rewrite <- app_assoc. reflexivity.
  - subst l. inversion Hs as [| | | | |s g1 v1 Et Er Hg]; subst. pose proof (i_sending _ _ (inv_run _ _ H) _ _ Hg) as K.
    apply in_split in K. destruct K as (a & b & ->). exists a, b, []. rewrite <- app_assoc. reflexivity.
Qed.

Lemma one_receive : forall tr s, run s0 tr s -> forall g v g' v', In (LReceive g v) tr -> In (LReceive g' v') tr -> g = g' /\ v = v' /\ ret s = Some v.
Proof.
  intros tr s H. induction H as [|tr s1 l s2 H IH Hs]; intros g v g' v' K K'; [destruct K|]. apply in_snoc in K. apply in_snoc in K'.
  destruct K as [K|K], K' as [K'|K'].
  - destruct (IH _ _ _ _ K K') as (E1 & E2 & E3). split; [exact E1|]. split; [exact E2|].
    destruct (step_ret _ _ _ Hs) as [E|(g1 & v1 & _ & E & _)]; congruence.
  - subst l. inversion Hs as [| | | | |s g1 v1 Et Er Hg]; subst. exfalso. exact (i_none _ _ (inv_run _ _ H) Er _ _ K).
  - subst l. inversion Hs as [| | | | |s g1 v1 Et Er Hg]; subst. exfalso. exact (i_none _ _ (inv_run _ _ H) Er _ _ K').
  - subst l. inversion K'; subst. split; [reflexivity|]. split; [reflexivity|]. inversion Hs; subst. reflexivity.
Qed.

(** ** Main can always finish once something was reported. *)
Lemma run_trans : forall s tr s1, run s tr s1 -> forall tr' s2, run s1 tr' s2 -> run s (tr ++ tr') s2.
Proof.
  intros s tr s1 H tr' s2 H'. induction H' as [|tr' s2 l s3 H' IH Hs]; [rewrite app_nil_r; exact H|].
  rewrite app_assoc. eapply RSnoc; eassumption.
Qed.
(** The go statements left: each takes one step and nothing else changes for the goroutines already there. *)
Lemma start_all : forall gs s, todo s = gs -> NoDup gs -> (forall g, In g gs -> gos s g = None) ->
  exists s', run s (map LStart gs) s' /\ todo s' = [] /\ ret s' = ret s
    /\ (forall g, ~ In g gs -> gos s' g = gos s g) /\ (forall g, In g gs -> gos s' g = Some PFirst).
Proof.
  induction gs as [|g gs IH]; intros s Et Hn Hf.
  - exists s. split; [apply RNil|]. split; [exact Et|]. split; [reflexivity|]. split; [reflexivity|intros g []].
  - inversion Hn as [|x y Hx Hy]; subst.
    set (s1 := mkState gs (fun h => if gid_eq_dec h g then Some PFirst else gos s h) (ret s)).
    destruct (IH s1 eq_refl Hy) as (s' & R' & E1 & E2 & E3 & E4).
    { intros h Hh. cbn [s1 gos]. destruct (gid_eq_dec h g) as [->|_]; [contradiction|]. apply Hf. right. exact Hh. }
    exists s'. split.
    + change (map LStart (g :: gs)) with ([LStart g] ++ map LStart gs). apply (run_trans s [LStart g] s1); [|exact R'].
      apply (RSnoc s [] s); [apply RNil|]. apply SStart. exact Et.
    + split; [exact E1|]. split; [exact E2|]. split.
      * intros h Hh. rewrite E3 by (intro K; apply Hh; right; exact K). cbn [s1 gos]. destruct (gid_eq_dec h g) as [->|_]; [exfalso; apply Hh; left; reflexivity|reflexivity].
      * intros h [->|Hh]; [rewrite E3 by exact Hx; cbn [s1 gos]; destruct (gid_eq_dec h h); congruence|]. exact (E4 h Hh).
Qed.

Lemma rest_fresh : forall tr s, run s0 tr s -> NoDup (todo s) /\ forall g, In g (todo s) -> gos s g = None.
Proof.
  intros tr s H. destruct (i_list _ _ (inv_run _ _ H)) as (before & El & Hb). pose proof no_dup_start as N. rewrite El in N.
  assert (N2 : NoDup (todo s)).
  { clear - N. induction before as [|x b IH]; [exact N|]. inversion N; subst. auto. }
  split; [exact N2|]. intros g Hg. destruct (gos s g) eqn:E; [|reflexivity]. exfalso.
  assert (K : In g before) by (apply Hb; congruence). clear - N K Hg. induction before as [|x b IH]; [destruct K|].
  inversion N; subst. destruct K as [->|K]; [apply H1; apply in_or_app; right; exact Hg|auto].
Qed.

Lemma can_return : forall tr s g v, run s0 tr s -> ret s = None -> In (LReport g v) tr ->
  exists s', run s (map LStart (todo s) ++ [LReceive g v]) s' /\ ret s' = Some v.
Proof.
  intros tr s g v H Hr Hg. pose proof (inv_run _ _ H) as I. destruct (i_report _ _ I _ _ Hg) as [K|K]; [|exfalso; exact (i_none _ _ I Hr _ _ K)].
  destruct (rest_fresh _ _ H) as [N F]. destruct (start_all (todo s) s eq_refl N F) as (s1 & R1 & E1 & E2 & E3 & _).
  assert (K1 : gos s1 g = Some (PSending v)).
  { rewrite E3; [exact K|]. intro Hin. rewrite (F _ Hin) in K. discriminate. }
  eexists. split; [eapply RSnoc; [exact R1|apply SReceive; [exact E1|congruence|exact K1]]|reflexivity].
Qed.

(** A signal ends Run from every state. *)
Lemma signal_ends : forall tr s v, run s0 tr s -> ret s = None -> (forall w, ~ In (LReport GInterrupt w) tr) ->
  exists s', run s (map LStart (todo s) ++ [LReport GInterrupt v; LReceive GInterrupt v]) s' /\ ret s' = Some v.
Proof.
  intros tr s v H Hr Hn. pose proof (inv_run _ _ H) as I. destruct (rest_fresh _ _ H) as [N F].
  destruct (start_all (todo s) s eq_refl N F) as (s1 & R1 & E1 & E2 & E3 & E4).
  assert (R1' : run s0 (tr ++ map LStart (todo s)) s1) by (apply (run_trans _ _ _ H); exact R1).
  assert (K : gos s1 GInterrupt = Some PFirst).
  { destruct (i_list _ _ I) as (before & El & Hb). assert (Hin : In GInterrupt (to_start r c)) by (left; reflexivity). rewrite El in Hin.
    apply in_app_or in Hin. destruct Hin as [Hin|Hin]; [|exact (E4 _ Hin)].
    assert (Hnt : ~ In GInterrupt (todo s)) by (intro Q; apply (proj2 (Hb GInterrupt) Hin); exact (F _ Q)).
    rewrite E3 by exact Hnt.
    assert (P : forall tr s, run s0 tr s -> (forall w, ~ In (LReport GInterrupt w) tr) -> gos s GInterrupt <> None -> gos s GInterrupt = Some PFirst).
    { clear. intros tr s H. induction H as [|tr s1 l s2 H IH Hs]; intros Hn Hg; [cbn in Hg; congruence|].
      assert (Hn' : forall w, ~ In (LReport GInterrupt w) tr) by (intros w K; apply (Hn w); apply in_snoc; left; exact K).
      specialize (IH Hn').
      destruct Hs as [s g gs Et|s g v Hg1|s g Hg1 Ht|s g v Hg1|s Hg1|s g v Et Er Hg1].
      - cbn [gos] in *. destruct (gid_eq_dec GInterrupt g); [reflexivity|]. auto.
      - destruct (gid_eq_dec GInterrupt g) as [<-|Hx]; [exfalso; apply (Hn v); apply in_snoc; right; reflexivity|].
        rewrite set_pc_other in * by exact Hx. auto.
      - destruct (gid_eq_dec GInterrupt g) as [<-|Hx]; [discriminate|]. rewrite set_pc_other in * by exact Hx. auto.
      - destruct (gid_eq_dec GInterrupt g) as [<-|Hx]; [exfalso; apply (Hn v); apply in_snoc; right; reflexivity|].
        rewrite set_pc_other in * by exact Hx. auto.
      - rewrite set_pc_other in * by discriminate. auto.
      - cbn [gos] in *. destruct (gid_eq_dec GInterrupt g) as [<-|Hx]; [|auto]. exfalso. pose proof (i_sending _ _ (inv_run _ _ H) _ _ Hg1) as K. exact (Hn' _ K). }
    apply (P tr s H Hn). apply Hb. exact Hin. }
  set (s2 := set_pc s1 GInterrupt (PSending v)).
  assert (R2 : run s1 [LReport GInterrupt v] s2) by (apply (RSnoc s1 [] s1); [apply RNil|apply SReport1; exact K]).
  eexists. split.
  - apply (run_trans _ _ _ R1). change [LReport GInterrupt v; LReceive GInterrupt v] with ([LReport GInterrupt v] ++ [LReceive GInterrupt v]).
    apply (run_trans _ _ _ R2). apply (RSnoc s2 [] s2); [apply RNil|]. apply (SReceive s2 GInterrupt v).
    + exact E1.
    + cbn [s2 set_pc ret]. congruence.
    + apply set_pc_same.
  - reflexivity.
Qed.

Lemma reporters_started : forall tr s g v, run s0 tr s -> In (LReport g v) tr -> In g (to_start r c).
Proof.
  intros tr s g v H K. destruct (i_list _ _ (inv_run _ _ H)) as (before & El & Hb). rewrite El. apply in_or_app. left. apply Hb.
  intro E. exact (i_fresh _ _ (inv_run _ _ H) _ E _ K).
Qed.
End R.
