(** Proofs about the scanner model: flags, package state, un-reading. *)
From Verif Require Import GoStr GoStrProofs Scanner ScannerSpec ScanRun ScannerProofs.

Lemma count_units_snoc : forall w vs v,
  count_units w (vs ++ [v]) = (count_units w vs + (if str_eqb w v then 1 else 0))%Z.
Proof.
  intros w vs v. unfold count_units. rewrite filter_app, app_length. cbn [filter].
  destruct (str_eqb w v); cbn [length]; lia.
Qed.

Lemma firstn_snoc : forall A (l : list A) i x, nth_error l i = Some x ->
  firstn (S i) l = firstn i l ++ [x].
Proof.
  induction l as [|y l IH]; intros i x H; [destruct i; discriminate|].
  destruct i as [|i]; [injection H as <-; reflexivity|].
  cbn [nth_error] in H. cbn [firstn app]. f_equal. apply IH. exact H.
Qed.

Section Flags.
Variable U : unicode.
Variable reg0 : region.
Variable us : list scan_unit.
Variable tail : str.
Hypothesis Hstep : forall i u, nth_error us i = Some u ->
  unit_region u = region_step (su_val u)
                    (Nat.ltb (S i) (length us) || nonempty tail) (region_before reg0 us i).

Let vs := map su_val us.
Let hdr0 := fst (fst reg0).
Let body0 := snd (fst reg0).
Let d0 := snd reg0.

Lemma at_val : forall i u, nth_error us i = Some u -> nth_error vs i = Some (su_val u).
Proof. intros i u H. unfold vs. rewrite nth_error_map, H. reflexivity. Qed.

Lemma region_before_S : forall i u, nth_error us i = Some u -> region_before reg0 us (S i) = unit_region u.
Proof. intros i u H. cbn. rewrite H. reflexivity. Qed.

Lemma prev_unit : forall i u, nth_error us (S i) = Some u -> exists u', nth_error us i = Some u'.
Proof.
  intros i u H. destruct (nth_error us i) eqn:E; [eexists; reflexivity|].
  apply nth_error_None in E. assert (S i < length us)%nat by (apply nth_error_Some; congruence). lia.
Qed.

Lemma depth_step : forall i v, nth_error vs (S i) = Some v ->
  depth_at d0 vs (S i) = (depth_at d0 vs i + (if str_eqb (T "{") v then 1 else 0)
                          - (if str_eqb (T "}") v then 1 else 0))%Z.
Proof.
  intros i v H. unfold depth_at. rewrite (firstn_snoc _ vs (S i) v H), !count_units_snoc. lia.
Qed.

Lemma region_step_depth : forall v more s,
  snd (region_step v more s) = (snd s + (if str_eqb (T "{") v then 1 else 0)
                          - (if str_eqb (T "}") v then 1 else 0))%Z.
Proof.
  intros v more [[h b] d]. unfold region_step. rewrite (str_eqb_sym (T "{")), (str_eqb_sym (T "}")).
  destruct (str_eqb_spec v (T "service")) as [->|]; [cbn; lia|].
  destruct (str_eqb_spec v (T "{")) as [->|]; [destruct h; cbn; lia|].
  destruct (str_eqb_spec v (T "}")) as [->|]; cbn; lia.
Qed.

Lemma flags_depth : forall i u, nth_error us i = Some u -> su_brace u = depth_at d0 vs i.
Proof.
  induction i as [|i IH]; intros u H.
  - pose proof (Hstep 0 u H) as E. apply (f_equal snd) in E. rewrite region_step_depth in E.
    cbn [unit_region snd region_before] in E. rewrite E. unfold depth_at.
    rewrite (firstn_snoc _ vs 0 (su_val u) (at_val _ _ H)), !count_units_snoc. cbn [firstn].
    unfold d0. change (count_units (T "{") []) with 0%Z. change (count_units (T "}") []) with 0%Z. lia.
  - destruct (prev_unit i u H) as (u' & Hu').
    pose proof (Hstep (S i) u H) as E. apply (f_equal snd) in E. rewrite region_step_depth in E.
    rewrite (region_before_S i u' Hu') in E. cbn [unit_region snd] in E.
    rewrite E, (IH u' Hu'), (depth_step i (su_val u) (at_val _ _ H)). reflexivity.
Qed.

Definition followed (i : nat) : bool := Nat.ltb (S i) (length us) || nonempty tail.
Lemma followed_iff : forall i, followed i = true <-> (S i < length vs \/ tail <> []).
Proof.
  intros i. unfold followed, vs. rewrite map_length, orb_true_iff, Nat.ltb_lt.
  destruct tail; cbn; split; intros [H|H]; auto; try discriminate; try congruence. right; discriminate.
Qed.

Definition hdr_before (i : nat) : Prop :=
  match i with O => hdr0 = true | S k => in_header_at hdr0 vs tail k end.

Lemma hdr_step : forall i v, nth_error vs i = Some v ->
  (in_header_at hdr0 vs tail i <->
   (v = T "service" /\ (followed i = true \/ hdr_before i)) \/
   (v <> T "service" /\ v <> T "{" /\ hdr_before i)).
Proof.
  intros i v Hv. unfold in_header_at, at_unit. split.
  - intros [(j & Hj & Hs & Hf & Hk)|(Hh & Hk)].
    + destruct (Nat.eq_dec j i) as [->|Hne].
      * left. assert (v = T "service") by congruence. split; [assumption|]. left.
        apply followed_iff; exact Hf.
      * assert (Hnb : v <> T "{") by (intros ->; apply (Hk i); [lia|exact Hv]).
        assert (Hb : hdr_before i).
        { destruct i as [|i]; [lia|]. cbn. left. exists j. split; [lia|]. split; [exact Hs|]. split; [exact Hf|].
          intros k Hk2. apply Hk. lia. }
        destruct (str_eq_dec v (T "service")); [left|right]; auto.
    + assert (Hnb : v <> T "{") by (intros ->; apply (Hk i); [lia|exact Hv]).
      assert (Hb : hdr_before i).
      { destruct i as [|i]; cbn; [exact Hh|]. right. split; [exact Hh|]. intros k Hk2. apply Hk. lia. }
      destruct (str_eq_dec v (T "service")); [left|right]; auto.
  - intros H.
    assert (Hb : hdr_before i /\ v <> T "{" \/ (v = T "service" /\ followed i = true)).
    { destruct H as [(-> & [Hf|Hb])|(H1 & H2 & H3)]; [right; auto|left|left; auto].
      split; [exact Hb|]. discriminate. }
    clear H. destruct Hb as [(Hb & Hnb)|(-> & Hf)].
    + destruct i as [|i]; cbn in Hb.
      * right. split; [exact Hb|]. intros k Hk Hc. assert (k = 0) by lia; subst. congruence.
      * destruct Hb as [(j & Hj & Hs & Hf & Hk)|(Hh & Hk)].
        -- left. exists j. split; [lia|]. split; [exact Hs|]. split; [exact Hf|]. intros k Hk2 Hc.
           destruct (Nat.eq_dec k (S i)) as [->|]; [congruence|]. apply (Hk k); [lia|exact Hc].
        -- right. split; [exact Hh|]. intros k Hk2 Hc.
           destruct (Nat.eq_dec k (S i)) as [->|]; [congruence|]. apply (Hk k); [lia|exact Hc].
    + left. exists i. split; [lia|]. split; [exact Hv|]. split; [apply followed_iff; exact Hf|]. intros k Hk. lia.
Qed.

Lemma region_step_hdr : forall v more s,
  fst (fst (region_step v more s)) = true <->
  (v = T "service" /\ (more = true \/ fst (fst s) = true)) \/
  (v <> T "service" /\ v <> T "{" /\ fst (fst s) = true).
Proof.
  intros v more [[h b] d]. unfold region_step. cbn [fst snd].
  destruct (str_eqb_spec v (T "service")) as [->|Hs].
  { cbn. destruct more, h; split; intro H; auto; try discriminate.
    destruct H as [(_ & [H|H])|(H & _)]; first [discriminate | congruence]. }
  destruct (str_eqb_spec v (T "{")) as [->|Hb].
  { split; intro H; [destruct h; discriminate|].
    destruct H as [(H & _)|(_ & H & _)]; [discriminate|exfalso; apply H; reflexivity]. }
  destruct (str_eqb_spec v (T "}")) as [Hc|Hc]; cbn [fst snd]; split; intro H.
  - right. auto.
  - destruct H as [(H & _)|(_ & _ & H)]; [congruence|exact H].
  - right. auto.
  - destruct H as [(H & _)|(_ & _ & H)]; [congruence|exact H].
Qed.

Lemma flags_header : forall i u, nth_error us i = Some u ->
  (su_def u = true <-> in_header_at hdr0 vs tail i).
Proof.
  induction i as [|i IH]; intros u H; rewrite (hdr_step _ _ (at_val _ _ H));
    pose proof (Hstep _ u H) as E; apply (f_equal (fun x => fst (fst x))) in E;
    cbn [unit_region fst] in E; rewrite E, region_step_hdr.
  - cbn [region_before hdr_before]. unfold hdr0, followed. reflexivity.
  - destruct (prev_unit i u H) as (u' & Hu'). rewrite (region_before_S i u' Hu').
    cbn [unit_region fst hdr_before]. rewrite (IH u' Hu'). unfold followed. reflexivity.
Qed.

Lemma flags_hdr_before : forall i u, nth_error us i = Some u ->
  (fst (fst (region_before reg0 us i)) = true <-> hdr_before i).
Proof.
  intros [|i] u H; [reflexivity|]. destruct (prev_unit i u H) as (u' & Hu').
  rewrite (region_before_S i u' Hu'). cbn. apply flags_header. exact Hu'.
Qed.

Lemma flags_body : forall i u, nth_error us i = Some u ->
  (su_body u = true <-> in_body_at hdr0 body0 d0 vs tail i).
Proof.
  assert (Hbody : forall v more s, snd (fst (region_step v more s)) = true <->
     (v = T "{" /\ (fst (fst s) = true \/ snd (fst s) = true)) \/
     (v <> T "{" /\ snd (fst s) = true /\ ~ (v = T "}" /\ snd s - 1 = 0)%Z)).
  { intros v more [[h b] d]. unfold region_step. cbn [fst snd].
    destruct (str_eqb_spec v (T "service")) as [->|Hs].
    { cbn [fst snd]. split; intro H; [right|].
      - repeat split; auto; try discriminate. intros [H2 _]; discriminate.
      - destruct H as [(H & _)|(_ & H & _)]; [discriminate|exact H]. }
    destruct (str_eqb_spec v (T "{")) as [->|Hb].
    { destruct h; cbn [fst snd]; split; intro H; auto. 
      destruct H as [(_ & [H|H])|(H & _)]; first [discriminate | congruence]. }
    destruct (str_eqb_spec v (T "}")) as [->|Hc]; cbn [fst snd].
    - rewrite andb_true_iff, negb_true_iff, Z.eqb_neq. split; intro H.
      + right. repeat split; [discriminate|tauto|]. intros [_ H2]. tauto.
      + destruct H as [(H & _)|(_ & H & H2)]; [discriminate|]. split; [exact H|]. intro E. apply H2. auto.
    - split; intro H.
      + right. repeat split; auto. intros [H2 _]. first [discriminate | congruence].
      + destruct H as [(H & _)|(_ & H & _)]; first [discriminate | congruence]. }
  set (closes := fun m => at_unit vs m (T "}") /\ depth_at d0 vs m = 0%Z).
  assert (Hcl : forall i u, nth_error us i = Some u ->
     (closes i <-> su_val u = T "}" /\ (snd (region_before reg0 us i) - 1 = 0)%Z)).
  { intros i u H. unfold closes, at_unit. rewrite (at_val _ _ H), <- (flags_depth i u H).
    pose proof (Hstep _ u H) as E. apply (f_equal snd) in E. rewrite region_step_depth in E.
    cbn [unit_region snd] in E. rewrite E. split.
    - intros [E1 E2]. injection E1 as E1. rewrite E1 in *. split; [reflexivity|].
      cbn in E2. rewrite ?str_eqb_refl in E2. replace (str_eqb (T "{") (T "}")) with false in E2 by reflexivity.
      cbn in E2. lia.
    - intros [E1 E2]. rewrite E1. split; [reflexivity|].
      replace (str_eqb (T "{") (T "}")) with false by reflexivity. rewrite str_eqb_refl. lia. }
  induction i as [|i IH]; intros u H;
    pose proof (Hstep _ u H) as E; apply (f_equal (fun x => snd (fst x))) in E;
    cbn [unit_region fst snd] in E; rewrite E, Hbody; rewrite <- (Hcl _ u H);
    pose proof (flags_hdr_before _ u H) as Hhb; rewrite Hhb; clear E.
  - cbn [region_before]. fold body0. unfold in_body_at. fold closes.
    split.
    + intros [(Hv & [Hh|Hb])|(Hv & Hb & Hc)].
      * left. exists 0. split; [lia|]. split; [unfold at_unit; rewrite (at_val _ _ H), Hv; reflexivity|].
        split; [exact Hh|]. intros m Hm. lia.
      * right. split; [exact Hb|]. intros m Hm. replace m with 0 by lia. intro Hcl0.
        apply (Hcl _ u H) in Hcl0. rewrite Hv in Hcl0. destruct Hcl0; discriminate.
      * right. split; [exact Hb|]. intros m Hm. replace m with 0 by lia. exact Hc.
    + intros [(k & Hk & Hat & Hh & _)|(Hb & Hc)].
      * assert (k = 0) by lia; subst k. left. unfold at_unit in Hat. rewrite (at_val _ _ H) in Hat.
        split; [congruence|]. left. exact Hh.
      * destruct (str_eq_dec (su_val u) (T "{")) as [Hv|Hv]; [left; auto|right].
        split; [exact Hv|]. split; [exact Hb|]. apply Hc. lia.
  - destruct (prev_unit i u H) as (u' & Hu'). rewrite (region_before_S i u' Hu') .
    cbn [unit_region fst snd]. rewrite (IH u' Hu'). unfold in_body_at. fold closes.
    split.
    + intros [(Hv & [Hh|Hb])|(Hv & Hb & Hc)].
      * left. exists (S i). split; [lia|]. split; [unfold at_unit; rewrite (at_val _ _ H), Hv; reflexivity|].
        split; [exact Hh|]. intros m Hm. lia.
      * assert (Hnc : ~ closes (S i)).
        { intro C. apply (Hcl _ u H) in C. rewrite Hv in C. destruct C; discriminate. }
        destruct Hb as [(k & Hk & Hat & Hh & Hm)|(Hb & Hm)].
        -- left. exists k. split; [lia|]. split; [exact Hat|]. split; [exact Hh|]. intros m Hm2 C.
           destruct (Nat.eq_dec m (S i)) as [->|]; [contradiction|]. apply (Hm m); [lia|exact C].
        -- right. split; [exact Hb|]. intros m Hm2 C.
           destruct (Nat.eq_dec m (S i)) as [->|]; [contradiction|]. apply (Hm m); [lia|exact C].
      * destruct Hb as [(k & Hk & Hat & Hh & Hm)|(Hb & Hm)].
        -- left. exists k. split; [lia|]. split; [exact Hat|]. split; [exact Hh|]. intros m Hm2 C.
           destruct (Nat.eq_dec m (S i)) as [->|]; [contradiction|]. apply (Hm m); [lia|exact C].
        -- right. split; [exact Hb|]. intros m Hm2 C.
           destruct (Nat.eq_dec m (S i)) as [->|]; [contradiction|]. apply (Hm m); [lia|exact C].
    + intros [(k & Hk & Hat & Hh & Hm)|(Hb & Hm)].
      * destruct (Nat.eq_dec k (S i)) as [->|Hne].
        -- left. unfold at_unit in Hat. rewrite (at_val _ _ H) in Hat. split; [first [discriminate | congruence]|]. left. exact Hh.
        -- assert (Hp : in_body_at hdr0 body0 d0 vs tail i).
           { left. exists k. split; [lia|]. split; [exact Hat|]. split; [exact Hh|].
             intros m Hm2. apply Hm. lia. }
           destruct (str_eq_dec (su_val u) (T "{")) as [Hv|Hv]; [left; auto|right].
           split; [exact Hv|]. split; [exact Hp|]. apply Hm. lia.
      * assert (Hp : in_body_at hdr0 body0 d0 vs tail i).
        { right. split; [exact Hb|]. intros m Hm2. apply Hm. lia. }
        destruct (str_eq_dec (su_val u) (T "{")) as [Hv|Hv]; [left; auto|right].
        split; [exact Hv|]. split; [exact Hp|]. apply Hm. lia.
Qed.

End Flags.

(** ** Package state across files *)

Lemma closed_file_globals : forall U f us r g, unicode_ok U -> closed_file U f ->
  scan U globals0 f = Some (us, r, g) -> g = globals0.
Proof.
  intros U f us r g HU Hc E.
  destruct (scan_spec U HU globals0 f) as (us2 & r2 & g2 & ps & tail & E2 & _ & _ & Hs).
  rewrite E in E2. injection E2 as <- <- <-.
  pose proof (scanned_final _ _ _ _ _ _ Hs) as Hf. specialize (Hc us r g E).
  destruct (rev us) as [|u l]; cbn in *.
  - destruct g; cbn in Hf. inversion Hf; reflexivity.
  - destruct (Hc u eq_refl) as (H1 & H2 & H3). destruct g as [gb gd gl].
    unfold unit_region, region_of in Hf. cbn in Hf. inversion Hf; subst. rewrite H1, H2, H3. reflexivity.
Qed.

Lemma scan_history_closed : forall U earlier, unicode_ok U -> Forall (closed_file U) earlier ->
  scan_history U globals0 earlier = Some globals0.
Proof.
  intros U earlier HU H. induction H as [|f fs Hf _ IH]; cbn [scan_history]; [reflexivity|].
  destruct (scan_spec U HU globals0 f) as (us2 & r2 & g2 & ps & tail & E2 & _).
  rewrite E2. rewrite (closed_file_globals U f us2 r2 g2 HU Hf E2). exact IH.
Qed.

(** ** Reading and un-reading units *)
(** The scanner after exactly [n] successful reads of [buf]. *)
Definition after_units (buf : list scan_unit) (n : nat) : scanner :=
  match n with
  | O => new_scanner buf
  | S p => match nth_error buf p with
           | Some u => mkScanner (su_def u) (su_body u) (su_brace u) buf n (su_line u)
           | None => new_scanner buf
           end
  end.

Lemma after_units_pos : forall buf n, n <= length buf -> sc_pos (after_units buf n) = n.
Proof.
  intros buf [|p] H; [reflexivity|]. cbn. destruct (nth_error buf p) eqn:E; [reflexivity|].
  apply nth_error_None in E. lia.
Qed.
Lemma after_units_buf : forall buf n, sc_buf (after_units buf n) = buf.
Proof. intros buf [|p]; cbn; [reflexivity|]. destruct (nth_error buf p); reflexivity. Qed.

Lemma read_after : forall buf n, n <= length buf ->
  read_unit (after_units buf n) =
  match nth_error buf n with
  | Some u => (Some (su_val u), after_units buf (S n))
  | None => (None, after_units buf n)
  end.
Proof.
  intros buf n H. unfold read_unit. rewrite after_units_buf, after_units_pos by exact H.
  destruct (nth_error buf n) eqn:E; [|reflexivity]. cbn [after_units]. rewrite E. reflexivity.
Qed.

Lemma unread_after : forall buf n, S (S n) <= length buf ->
  unread_unit (after_units buf (S (S n))) = UROk (after_units buf (S n)).
Proof.
  intros buf n H. unfold unread_unit. rewrite after_units_pos, after_units_buf by exact H.
  cbn [after_units]. destruct (nth_error buf n) eqn:E; [reflexivity|].
  apply nth_error_None in E. lia.
Qed.

Lemma ops_run_after : forall buf os n s, n <= length buf ->
  scan_ops_run (after_units buf n) os = Some s -> exists m, m <= length buf /\ s = after_units buf m.
Proof.
  intros buf os. induction os as [|o os IH]; intros n s Hn H; cbn [scan_ops_run] in H.
  - injection H as <-. exists n. auto.
  - destruct o; cbn [scan_op_step] in H.
    + rewrite read_after in H by exact Hn. destruct (nth_error buf n) eqn:E; cbn [snd] in H.
      * apply IH in H; [exact H|]. assert (n < length buf) by (apply nth_error_Some; congruence). lia.
      * apply IH in H; [exact H|exact Hn].
    + destruct n as [|[|n]].
      * change (scan_ops_run (after_units buf 0) os = Some s) in H. apply IH in H; [exact H|lia].
      * unfold unread_unit in H. rewrite after_units_pos in H by exact Hn. discriminate.
      * rewrite unread_after in H by exact Hn. apply IH in H; [exact H|lia].
Qed.

Lemma unread_to_loop_after : forall buf p fuel n, 1 <= p -> p <= n -> n <= length buf -> n - p < fuel ->
  unread_to_loop fuel (after_units buf n) p = Ret (after_units buf p, false).
Proof.
  intros buf p. induction fuel as [|fuel IH]; intros n Hp Hn Hl Hf; [lia|].
  cbn [unread_to_loop]. rewrite after_units_pos by exact Hl.
  destruct (Nat.eqb_spec n p) as [->|Hne]; [reflexivity|].
  destruct n as [|[|n]]; [lia|lia|]. rewrite unread_after by exact Hl. apply IH; lia.
Qed.

Lemma unread_to_after : forall buf n p, 1 <= p -> p <= n -> n <= length buf ->
  unread_to_position (after_units buf n) p = Ret (after_units buf p, false).
Proof.
  intros buf n p H1 H2 H3. unfold unread_to_position. apply unread_to_loop_after; try assumption.
  rewrite after_units_pos by exact H3. lia.
Qed.
