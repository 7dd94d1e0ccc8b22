(** Assembled facts behind the scanner properties. *)
From Verif Require Import GoStr GoStrProofs Scanner ScannerSpec ScanRun ScannerProofs ScannerProofs2.

Lemma subseq_app_tail : forall A (a b t : list A), subseq a b -> subseq a (b ++ t).
Proof. intros A a b t H. induction H; cbn [app]; constructor; auto. Qed.

Lemma c03_main : forall U g text us r g', unicode_ok U ->
  scan U g text = Some (us, r, g') ->
  exists pieces tail, text = concat pieces ++ tail
    /\ Forall2 unit_text pieces (map su_val us)
    /\ subseq (concat (map su_val us)) text
    /\ (tail <> [] -> starts (fun c => c = c_slash \/ c = c_dquote) tail)
    /\ (forall v rest, tail = v ++ rest -> unit_shape U v -> merges U v rest).
Proof.
  intros U g text us r g' HU E.
  destruct (scan_spec U HU g text) as (us2 & r2 & g2 & ps & tail & E2 & Ht & Hk & Hs).
  rewrite E in E2. injection E2 as <- <- <-. pose proof (scanned_forall2 _ _ _ _ _ _ Hs) as H2.
  exists ps, tail. split; [exact Ht|]. split; [exact H2|].
  split; [rewrite Ht; apply subseq_app_tail, forall2_subseq; exact H2|].
  split; [destruct Hk as [[Hk|Hk] _]; intro; [contradiction|exact Hk]|].
  apply tail_unterminated; assumption.
Qed.

Lemma squeezed_no_star : forall b v, squeezed b v -> ~ In c_star v -> b = v.
Proof.
  intros b v H. induction H as [|d b v H IH|c b v Hc H IH]; intro Hn; [reflexivity| |].
  - exfalso. apply Hn. left. reflexivity.
  - f_equal. apply IH. intro Hi. apply Hn. right. exact Hi.
Qed.

Lemma forall2_exact : forall ps vs, Forall2 unit_text ps vs ->
  (forall v b, In v vs -> v = T "/*" ++ b ++ T "*/" -> ~ In c_star b) -> ps = vs.
Proof.
  intros ps vs H. induction H as [|p v ps vs Hp H IH]; intro Hn; [reflexivity|].
  assert (E : p = v).
  { destruct Hp as [p|b w Hq]; [reflexivity|]. f_equal. f_equal. apply (squeezed_no_star _ _ Hq).
    apply (Hn _ w (or_introl eq_refl) eq_refl). }
  subst p. f_equal. apply IH. intros w b Hw. apply Hn. right. exact Hw.
Qed.

Lemma c03_lossless_main : forall U g text us r g', unicode_ok U ->
  scan U g text = Some (us, r, g') ->
  (forall u b, In u us -> su_val u = T "/*" ++ b ++ T "*/" -> ~ In c_star b) ->
  exists tail, text = concat (map su_val us) ++ tail
    /\ (tail <> [] -> starts (fun c => c = c_slash \/ c = c_dquote) tail).
Proof.
  intros U g text us r g' HU E Hn.
  destruct (c03_main U g text us r g' HU E) as (ps & tail & Ht & H2 & _ & H3 & _).
  exists tail. split; [|exact H3]. rewrite Ht. f_equal. f_equal. apply forall2_exact; [exact H2|].
  intros v b Hv Eb. apply in_map_iff in Hv. destruct Hv as (u & <- & Hu). apply (Hn u b Hu Eb).
Qed.

Lemma c04_main : forall U g text us r g', unicode_ok U ->
  scan U g text = Some (us, r, g') ->
  exists pieces tail, text = concat pieces ++ tail /\ Forall2 unit_text pieces (map su_val us)
    /\ forall i u, nth_error us i = Some u ->
         su_line u = (1 + newlines (concat (firstn (S i) pieces)))%Z.
Proof.
  intros U g text us r g' HU E.
  destruct (scan_spec U HU g text) as (us2 & r2 & g2 & ps & tail & E2 & Ht & Hk & Hs).
  rewrite E in E2. injection E2 as <- <- <-.
  exists ps, tail. split; [exact Ht|]. split; [exact (scanned_forall2 _ _ _ _ _ _ Hs)|].
  exact (scanned_lines _ _ _ _ _ _ Hs).
Qed.

Lemma c05_main : forall U g text us r g', unicode_ok U ->
  scan U g text = Some (us, r, g') ->
  exists pieces tail, text = concat pieces ++ tail /\ Forall2 unit_text pieces (map su_val us)
    /\ forall i u, nth_error us i = Some u ->
         su_brace u = depth_at (g_brace g) (map su_val us) i
         /\ (su_def u = true <-> in_header_at (g_def g) (map su_val us) tail i)
         /\ (su_body u = true <-> in_body_at (g_def g) (g_body g) (g_brace g) (map su_val us) tail i).
Proof.
  intros U g text us r g' HU E.
  destruct (scan_spec U HU g text) as (us2 & r2 & g2 & ps & tail & E2 & Ht & Hk & Hs).
  rewrite E in E2. injection E2 as <- <- <-.
  exists ps, tail. split; [exact Ht|]. split; [exact (scanned_forall2 _ _ _ _ _ _ Hs)|].
  pose proof (scanned_region_step _ _ _ _ _ _ Hs) as Hstep.
  intros i u Hu. split; [exact (flags_depth _ _ _ Hstep i u Hu)|].
  split; [exact (flags_header _ _ _ Hstep i u Hu)|exact (flags_body _ _ _ Hstep i u Hu)].
Qed.

Lemma c07_unread : forall us os s v s', scan_ops_run (new_scanner us) os = Some s ->
  1 <= sc_pos s -> read_unit s = (Some v, s') -> unread_unit s' = UROk s.
Proof.
  intros us os s v s' H Hp Hr.
  destruct (ops_run_after us os 0 s (Nat.le_0_l _) H) as (m & Hm & ->).
  rewrite after_units_pos in Hp by exact Hm. rewrite read_after in Hr by exact Hm.
  destruct (nth_error us m) as [u|] eqn:E; [|discriminate]. injection Hr as <- <-.
  assert (m < length us) by (apply nth_error_Some; congruence).
  destruct m as [|m]; [lia|]. apply unread_after. lia.
Qed.

Lemma c07_unread_to : forall us os1 os2 s s', scan_ops_run (new_scanner us) os1 = Some s ->
  scan_ops_run s os2 = Some s' -> 1 <= sc_pos s -> sc_pos s <= sc_pos s' ->
  unread_to_position s' (sc_pos s) = Ret (s, false).
Proof.
  intros us os1 os2 s s' H1 H2 Hp Hle.
  destruct (ops_run_after us os1 0 s (Nat.le_0_l _) H1) as (m & Hm & ->).
  destruct (ops_run_after us os2 m s' Hm H2) as (m' & Hm' & ->).
  rewrite !after_units_pos in * by assumption. apply unread_to_after; assumption.
Qed.
