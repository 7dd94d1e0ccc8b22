(** Proofs about the scanner model. *)
From Verif Require Import GoStr GoStrProofs Scanner ScannerSpec.

Arguments Z.add : simpl never.
Arguments Z.sub : simpl never.

(** ** Small facts *)
Lemma subseq_refl : forall A (l : list A), subseq l l.
Proof. induction l; constructor; assumption. Qed.

Lemma subseq_app : forall A (a b c d : list A), subseq a b -> subseq c d -> subseq (a ++ c) (b ++ d).
Proof.
  intros A a b c d H. revert c d. induction H; intros c d Hcd; cbn.
  - induction l as [|x l IH]; cbn; [assumption|constructor; exact IH].
  - constructor. apply IHsubseq. exact Hcd.
  - constructor. apply IHsubseq. exact Hcd.
Qed.

Lemma newlines_app : forall a b, newlines (a ++ b) = (newlines a + newlines b)%Z.
Proof. induction a as [|c a IH]; intros b; cbn [newlines app]; [reflexivity|]. rewrite IH. lia. Qed.

Lemma line_after_spec : forall c line, line_after c line = (line + newlines [c])%Z.
Proof. intros c line. unfold line_after. cbn. destruct (N.eqb c c_nl); lia. Qed.

Lemma line_before_after : forall c line, line_before c (line_after c line) = line.
Proof. intros c line. unfold line_before, line_after. destruct (N.eqb c c_nl); lia. Qed.

Definition is_identP := is_ident.
Lemma is_ident_iff : forall U c, is_ident U c = true <-> ident_rune U c.
Proof.
  intros U c. unfold is_ident, ident_rune. rewrite !orb_true_iff, N.eqb_eq. tauto.
Qed.
Lemma is_ident_false : forall U c, is_ident U c = false <-> ~ ident_rune U c.
Proof. intros U c. rewrite <- is_ident_iff. destruct (is_ident U c); split; congruence. Qed.

Lemma squeezed_subseq : forall b v, squeezed b v -> subseq v b.
Proof. intros b v H; induction H; repeat (constructor; try assumption). Qed.

Lemma unit_text_subseq : forall p v, unit_text p v -> subseq v p.
Proof.
  intros p v H. destruct H as [p|b v H]; [apply subseq_refl|].
  apply subseq_app; [apply subseq_refl|]. apply subseq_app; [|apply subseq_refl].
  apply squeezed_subseq; exact H.
Qed.

Lemma squeezed_id : forall b, ~ In c_star b -> squeezed b b.
Proof.
  induction b as [|c b IH]; intro H; [constructor|].
  apply sq_other; [intro E; apply H; left; auto|]. apply IH. intro Hi; apply H; right; exact Hi.
Qed.
Lemma squeezed_no_star : forall b v, squeezed b v -> ~ In c_star b -> v = b.
Proof.
  intros b v H. induction H as [|d b v H IH|c b v Hc H IH]; intro Hn; [reflexivity| |].
  - exfalso. apply Hn. left; reflexivity.
  - f_equal. apply IH. intro Hi; apply Hn; right; exact Hi.
Qed.

(** ** The inner loops: what they consume and what they keep *)
Lemma line_loop_spec : forall rest prev line buf r b eof,
  line_comment_loop prev rest line buf = (r, b, eof) ->
  exists p, rest = p ++ rd_rest r /\ rd_prev r = rev p ++ prev
    /\ rd_line r = (line + newlines p)%Z /\ b = buf ++ p
    /\ (if eof then rd_rest r = [] else exists q, p = q ++ [c_nl] /\ ~ In c_nl q).
Proof.
  induction rest as [|c rest IH]; intros prev line buf r b eof H; cbn [line_comment_loop] in H.
  - inversion H; subst. exists []. cbn. rewrite app_nil_r. repeat split; lia.
  - destruct (N.eqb_spec c c_nl) as [E|E].
    + inversion H; subst; clear H. exists [c_nl]. cbn [rd_rest rd_prev rd_line rev app].
      rewrite line_after_spec. repeat split.
      exists []. split; [reflexivity|]. intros [].
    + apply IH in H. destruct H as (p & H1 & H2 & H3 & H4 & H5).
      exists (c :: p). cbn [app rev]. rewrite H1 at 1.
      split; [reflexivity|]. split; [rewrite H2, <- app_assoc; reflexivity|].
      split; [rewrite H3, line_after_spec; change (c :: p) with ([c] ++ p); rewrite newlines_app; lia|].
      split; [rewrite H4, <- app_assoc; reflexivity|].
      destruct eof; [exact H5|]. destruct H5 as (q & -> & Hq).
      exists (c :: q). split; [reflexivity|]. intros [Hi|Hi]; [congruence|auto].
Qed.

Lemma block_loop_spec : forall n rest prev line buf r b eof, (length rest <= n)%nat ->
  block_comment_loop prev rest line buf = (r, b, eof) ->
  exists p v, rest = p ++ rd_rest r /\ rd_prev r = rev p ++ prev
    /\ rd_line r = (line + newlines p)%Z /\ b = buf ++ v
    /\ (if eof then rd_rest r = []
        else exists q w, p = q ++ T "*/" /\ v = w ++ T "*/" /\ squeezed q w).
Proof.
  induction n as [|n IH]; intros rest prev line buf r b eof Hn H.
  - destruct rest; [|cbn in Hn; lia]. cbn in H. inversion H; subst.
    exists [], []. cbn. rewrite app_nil_r. repeat split; lia.
  - destruct rest as [|c rest]; cbn [block_comment_loop] in H.
    + inversion H; subst. exists [], []. cbn. rewrite app_nil_r. repeat split; lia.
    + destruct (N.eqb_spec c c_star) as [E|E].
      * subst c. destruct rest as [|d rest].
        { inversion H; subst. exists [c_star], [c_star]. cbn [app rev rd_prev rd_rest rd_line].
          rewrite line_after_spec. repeat split. }
        destruct (N.eqb_spec d c_slash) as [E2|E2].
        { subst d. inversion H; subst. exists (T "*/"), (T "*/").
          cbn [app rev rd_prev rd_rest rd_line T list_ascii_of_string map].
          repeat split. rewrite !line_after_spec. cbn. lia.
          exists [], []. repeat split. constructor. }
        apply IH in H; [|cbn in Hn; lia]. destruct H as (p & v & H1 & H2 & H3 & H4 & H5).
        exists (c_star :: d :: p), (c_star :: v). cbn [app rev]. rewrite H1 at 1.
        split; [reflexivity|].
        split; [rewrite H2, <- !app_assoc; reflexivity|].
        split; [rewrite H3, !line_after_spec;
                change (c_star :: d :: p) with ([c_star] ++ [d] ++ p); rewrite !newlines_app; lia|].
        split; [rewrite H4, <- app_assoc; reflexivity|].
        destruct eof; [exact H5|]. destruct H5 as (q & w & -> & -> & Hq).
        exists (c_star :: d :: q), (c_star :: w). repeat split. constructor. exact Hq.
      * apply IH in H; [|cbn in Hn; lia]. destruct H as (p & v & H1 & H2 & H3 & H4 & H5).
        exists (c :: p), (c :: v). cbn [app rev]. rewrite H1 at 1.
        split; [reflexivity|]. split; [rewrite H2, <- app_assoc; reflexivity|].
        split; [rewrite H3, line_after_spec; change (c :: p) with ([c] ++ p); rewrite newlines_app; lia|].
        split; [rewrite H4, <- app_assoc; reflexivity|].
        destruct eof; [exact H5|]. destruct H5 as (q & w & -> & -> & Hq).
        exists (c :: q), (c :: w). repeat split. constructor; assumption.
Qed.

Lemma string_loop_spec : forall n rest prev line buf r b eof, (length rest <= n)%nat ->
  string_loop prev rest line buf = (r, b, eof) ->
  exists p, rest = p ++ rd_rest r /\ rd_prev r = rev p ++ prev
    /\ rd_line r = (line + newlines p)%Z /\ b = buf ++ p
    /\ (if eof then rd_rest r = [] else exists q, p = q ++ [c_dquote] /\ string_body q).
Proof.
  induction n as [|n IH]; intros rest prev line buf r b eof Hn H.
  - destruct rest; [|cbn in Hn; lia]. cbn in H. inversion H; subst.
    exists []. cbn. rewrite app_nil_r. repeat split; lia.
  - destruct rest as [|c rest]; cbn [string_loop] in H.
    + inversion H; subst. exists []. cbn. rewrite app_nil_r. repeat split; lia.
    + destruct (N.eqb_spec c c_backslash) as [E|E].
      * subst c. destruct rest as [|d rest].
        { inversion H; subst. exists [c_backslash]. cbn [app rev rd_prev rd_rest rd_line].
          rewrite line_after_spec. repeat split. }
        apply IH in H; [|cbn in Hn; lia]. destruct H as (p & H1 & H2 & H3 & H4 & H5).
        exists (c_backslash :: d :: p). cbn [app rev]. rewrite H1 at 1.
        split; [reflexivity|].
        split; [rewrite H2, <- !app_assoc; reflexivity|].
        split; [rewrite H3, !line_after_spec;
                change (c_backslash :: d :: p) with ([c_backslash] ++ [d] ++ p); rewrite !newlines_app; lia|].
        split; [rewrite H4, <- !app_assoc; reflexivity|].
        destruct eof; [exact H5|]. destruct H5 as (q & -> & Hq).
        exists (c_backslash :: d :: q). split; [reflexivity|]. apply sb_escape. exact Hq.
      * destruct (N.eqb_spec c c_dquote) as [E2|E2].
        { inversion H; subst. exists [c_dquote]. cbn [app rev rd_prev rd_rest rd_line].
          rewrite line_after_spec. repeat split. exists []. split; [reflexivity|constructor]. }
        apply IH in H; [|cbn in Hn; lia]. destruct H as (p & H1 & H2 & H3 & H4 & H5).
        exists (c :: p). cbn [app rev]. rewrite H1 at 1.
        split; [reflexivity|]. split; [rewrite H2, <- app_assoc; reflexivity|].
        split; [rewrite H3, line_after_spec; change (c :: p) with ([c] ++ p); rewrite newlines_app; lia|].
        split; [rewrite H4, <- app_assoc; reflexivity|].
        destruct eof; [exact H5|]. destruct H5 as (q & -> & Hq).
        exists (c :: q). split; [reflexivity|]. constructor; assumption.
Qed.

Lemma run_loop_spec : forall cls rest prev line buf r b eof,
  run_loop cls prev rest line buf = (r, b, eof) ->
  exists p, rest = p ++ rd_rest r /\ rd_prev r = rev p ++ prev
    /\ rd_line r = (line + newlines p)%Z /\ b = buf ++ p /\ Forall (fun c => cls c = true) p
    /\ (if eof then rd_rest r = [] else starts (fun c => cls c = false) (rd_rest r)).
Proof.
  induction rest as [|c rest IH]; intros prev line buf r b eof H; cbn [run_loop] in H.
  - inversion H; subst. exists []. cbn. rewrite app_nil_r. repeat split; auto; lia.
  - destruct (cls c) eqn:E.
    + apply IH in H. destruct H as (p & H1 & H2 & H3 & H4 & H5 & H6).
      exists (c :: p). cbn [app rev]. rewrite H1 at 1.
      split; [reflexivity|]. split; [rewrite H2, <- app_assoc; reflexivity|].
      split; [rewrite H3, line_after_spec; change (c :: p) with ([c] ++ p); rewrite newlines_app; lia|].
      split; [rewrite H4, <- app_assoc; reflexivity|].
      split; [constructor; assumption|exact H6].
    + inversion H; subst; clear H. exists []. unfold unread_rune. cbn [rd_prev rd_rest rd_line app rev].
      rewrite line_before_after, app_nil_r. cbn. repeat split; auto; lia.
Qed.

(** ** One unit *)
Definition region_of (g : globals) : region := (g_def g, g_body g, g_brace g).
Definition unit_region (u : scan_unit) : region := (su_def u, su_body u, su_brace u).
Definition nonempty (s : str) : bool := match s with [] => false | _ => true end.

Lemma set_return_region : forall g r b, unit_region (set_return g r b) = region_of g.
Proof. reflexivity. Qed.

(** Values that are neither "service" nor a brace leave the region alone. *)
Lemma region_step_other : forall v more s,
  v <> T "service" -> v <> T "{" -> v <> T "}" -> region_step v more s = s.
Proof.
  intros v more [[h b] d] H1 H2 H3. unfold region_step.
  apply str_eqb_neq in H1, H2, H3. rewrite H1, H2, H3. reflexivity.
Qed.

Lemma first_not_region : forall c v more s,
  c <> 115%N -> c <> c_lbrace -> c <> c_rbrace -> region_step (c :: v) more s = s.
Proof.
  intros c v more s H1 H2 H3. apply region_step_other; intro E; inversion E; subst;
    (apply H1; reflexivity) || (apply H2; reflexivity) || (apply H3; reflexivity).
Qed.

Section WithUnicode.
Variable U : unicode.
Hypothesis HU : unicode_ok U.

Lemma ascii_class : forall c, (c < 128)%N ->
  u_letter U c = is_letter c /\ u_digit U c = is_digit c /\ u_space U c = ascii_space c.
Proof. intros c Hc. apply (proj1 HU). exact Hc. Qed.

Lemma ident_ascii : forall c, (c < 128)%N ->
  is_ident U c = is_letter c || is_digit c || N.eqb c c_underscore.
Proof. intros c Hc. unfold is_ident. destruct (ascii_class c Hc) as (-> & -> & _). reflexivity. Qed.
Lemma space_ascii : forall c, (c < 128)%N -> u_space U c = ascii_space c.
Proof. intros c Hc. apply (ascii_class c Hc). Qed.

Lemma space_not_ident : forall c, u_space U c = true -> is_ident U c = false.
Proof.
  intros c Hs. unfold is_ident. destruct (proj2 HU c Hs) as [-> ->]. cbn.
  destruct (N.eqb_spec c c_underscore) as [->|]; [|reflexivity].
  rewrite space_ascii in Hs by reflexivity. discriminate.
Qed.

Lemma brace_facts :
  u_space U c_lbrace = false /\ u_space U c_rbrace = false /\ is_ident U c_lbrace = false
  /\ is_ident U c_rbrace = false /\ u_space U c_slash = false /\ is_ident U c_slash = false
  /\ u_space U c_dquote = false /\ is_ident U c_dquote = false /\ is_ident U 115 = true.
Proof.
  rewrite !space_ascii, !ident_ascii by reflexivity. cbn. repeat split.
Qed.

Lemma build_spec : forall prev rest line g u err r' g',
  build_scan_unit U (mkReader prev rest line) g = (u, err, r', g') ->
  su_line u = rd_line r' /\ unit_region u = region_of g' /\
  if err
  then rd_rest r' = [] /\ g' = g /\ (rest = [] \/ starts (fun c => c = c_slash \/ c = c_dquote) rest)
  else exists p, rest = p ++ rd_rest r' /\ p <> [] /\ rd_prev r' = rev p ++ prev
         /\ rd_line r' = (line + newlines p)%Z /\ unit_text p (su_val u)
         /\ region_of g' = region_step (su_val u) (nonempty (rd_rest r')) (region_of g).
Proof.
  destruct brace_facts as (Bs1 & Bs2 & Bi1 & Bi2 & Ss & Si & Qs & Qi & Hs).
  intros prev rest line g u err r' g' H.
  destruct rest as [|ch rest]; unfold build_scan_unit in H; cbn [read_rune rd_rest rd_prev rd_line] in H.
  { inversion H; subst. repeat split. left; reflexivity. }
  destruct (N.eqb_spec ch c_slash) as [E1|E1].
  { subst ch. destruct rest as [|c2 rest]; cbn [read_rune rd_rest rd_prev rd_line] in H.
    { inversion H; subst. repeat split. right; left; reflexivity. }
    destruct (N.eqb_spec c2 c_slash) as [E2|E2].
    { subst c2. destruct (line_comment_loop _ _ _ _) as [[r2 b2] eof] eqn:L.
      apply line_loop_spec in L. destruct L as (p & L1 & L2 & L3 & L4 & L5).
      inversion H; subst; clear H. split; [reflexivity|]. split; [reflexivity|].
      destruct err.
      - split; [exact L5|]. split; [reflexivity|]. right; left; reflexivity.
      - exists ([c_slash; c_slash] ++ p). try rewrite L1 at 1. cbn [set_return su_val].
        split; [reflexivity|]. split; [discriminate|].
        split; [rewrite L2, rev_app_distr, <- app_assoc; reflexivity|].
        split. { rewrite L3, newlines_app, !line_after_spec. cbn. lia. }
        split; [apply ut_exact|].
        symmetry; apply first_not_region; discriminate. }
    destruct (N.eqb_spec c2 c_star) as [E3|E3].
    { subst c2. destruct (block_comment_loop _ _ _ _) as [[r2 b2] eof] eqn:L.
      apply block_loop_spec with (n := length rest) in L; [|lia].
      destruct L as (p & v & L1 & L2 & L3 & L4 & L5).
      inversion H; subst; clear H. split; [reflexivity|]. split; [reflexivity|].
      destruct err.
      - split; [exact L5|]. split; [reflexivity|]. right; left; reflexivity.
      - exists ([c_slash; c_star] ++ p). try rewrite L1 at 1. cbn [set_return su_val].
        split; [reflexivity|]. split; [discriminate|].
        split; [rewrite L2, rev_app_distr, <- app_assoc; reflexivity|].
        split. { rewrite L3, newlines_app, !line_after_spec. cbn. lia. }
        split. { destruct L5 as (q & w & -> & -> & Hq). apply (ut_block q w Hq). }
        symmetry; apply first_not_region; discriminate. }
    inversion H; subst; clear H. unfold unread_rune. cbn [rd_prev rd_rest rd_line set_return su_val].
    split; [reflexivity|]. split; [reflexivity|].
    exists [c_slash]. rewrite line_before_after.
    split; [reflexivity|]. split; [discriminate|]. split; [reflexivity|].
    split; [rewrite line_after_spec; reflexivity|]. split; [apply ut_exact|].
    symmetry; apply first_not_region; discriminate. }
  destruct (N.eqb_spec ch c_dquote) as [E2|E2].
  { subst ch. destruct (string_loop _ _ _ _) as [[r2 b2] eof] eqn:L.
    apply string_loop_spec with (n := length rest) in L; [|lia].
    destruct L as (p & L1 & L2 & L3 & L4 & L5).
    inversion H; subst; clear H. split; [reflexivity|]. split; [reflexivity|].
    destruct err.
    - split; [exact L5|]. split; [reflexivity|]. right; right; reflexivity.
    - exists ([c_dquote] ++ p). try rewrite L1 at 1. cbn [set_return su_val].
      split; [reflexivity|]. split; [discriminate|].
      split; [rewrite L2, rev_app_distr, <- app_assoc; reflexivity|].
      split. { rewrite L3, newlines_app, !line_after_spec. cbn. lia. }
      split; [apply ut_exact|].
      symmetry; apply first_not_region; discriminate. }
  destruct (u_space U ch) eqn:E3.
  { destruct (run_loop _ _ _ _ _) as [[r2 b2] eof] eqn:L.
    apply run_loop_spec in L. destruct L as (p & L1 & L2 & L3 & L4 & L5 & L6).
    inversion H; subst; clear H. split; [reflexivity|]. split; [reflexivity|].
    exists (ch :: p). try rewrite L1 at 1. cbn [set_return su_val].
    split; [reflexivity|]. split; [discriminate|].
    split; [rewrite L2; cbn [rev]; rewrite <- app_assoc; reflexivity|].
    split. { rewrite L3, line_after_spec. change (ch :: p) with ([ch] ++ p). rewrite newlines_app. lia. }
    split; [apply ut_exact|].
    symmetry. apply first_not_region; intro; subst ch; [|congruence|congruence].
    pose proof (space_not_ident _ E3). congruence. }
  destruct (is_ident U ch) eqn:E4.
  { destruct (run_loop _ _ _ _ _) as [[r2 b2] eof] eqn:L.
    apply run_loop_spec in L. destruct L as (p & L1 & L2 & L3 & L4 & L5 & L6).
    cbn [app] in L4. subst b2.
    set (g2 := if eof then g else if str_eqb (ch :: p) (T "service")
               then mkGlobals (g_body g) true (g_brace g) else g) in *.
    inversion H; subst u err r' g'; clear H. split; [reflexivity|]. split; [reflexivity|].
    exists (ch :: p). try rewrite L1 at 1. cbn [set_return su_val].
    split; [reflexivity|]. split; [discriminate|].
    split; [rewrite L2; cbn [rev]; rewrite <- app_assoc; reflexivity|].
    split. { rewrite L3, line_after_spec. change (ch :: p) with ([ch] ++ p). rewrite newlines_app. lia. }
    split; [apply ut_exact|].
    unfold region_step, region_of.
    assert (Hn1 : str_eqb (ch :: p) (T "{") = false).
    { apply str_eqb_neq. intro E. inversion E; subst ch. change 123%N with c_lbrace in E4. congruence. }
    assert (Hn2 : str_eqb (ch :: p) (T "}") = false).
    { apply str_eqb_neq. intro E. inversion E; subst ch. change 125%N with c_rbrace in E4. congruence. }
    rewrite Hn1, Hn2. unfold g2.
    destruct eof.
    - rewrite L6. cbn [nonempty]. destruct (str_eqb (ch :: p) (T "service")); reflexivity.
    - destruct (rd_rest r2); [contradiction|]. cbn [nonempty].
      destruct (str_eqb (ch :: p) (T "service")); reflexivity. }
  destruct (N.eqb_spec ch c_lbrace) as [E5|E5].
  { subst ch. inversion H; subst; clear H.
    cbn [g_def g_body g_brace set_return su_val rd_rest rd_prev rd_line].
    split; [reflexivity|]. split; [reflexivity|].
    exists [c_lbrace]. split; [reflexivity|]. split; [discriminate|]. split; [reflexivity|].
    split; [apply line_after_spec|]. split; [apply ut_exact|].
    destruct g as [gb gd gl]. cbn. destruct gd; reflexivity. }
  destruct (N.eqb_spec ch c_rbrace) as [E6|E6].
  { subst ch. inversion H; subst; clear H.
    cbn [g_def g_body g_brace set_return su_val rd_rest rd_prev rd_line].
    split; [reflexivity|]. split; [reflexivity|].
    exists [c_rbrace]. split; [reflexivity|]. split; [discriminate|]. split; [reflexivity|].
    split; [apply line_after_spec|]. split; [apply ut_exact|].
    destruct g as [gb gd gl]. cbn. destruct gb; cbn; [|reflexivity].
    destruct (Z.eqb (gl - 1) 0); reflexivity. }
  inversion H; subst; clear H. cbn [set_return su_val rd_rest rd_prev rd_line].
  split; [reflexivity|]. split; [reflexivity|].
  exists [ch]. split; [reflexivity|]. split; [discriminate|]. split; [reflexivity|].
  split; [apply line_after_spec|]. split; [apply ut_exact|].
  symmetry. apply region_step_other; intro E; [discriminate E| |].
  - apply E5. injection E as E. exact E.
  - apply E6. injection E as E. exact E.
Qed.

(** ** The whole file *)

(** What the scanner produces from text [concat pieces ++ tail], starting at line [line] in region
    state [reg] and ending in [regf]. *)
Inductive scanned : Z -> region -> list str -> str -> list scan_unit -> region -> Prop :=
| scanned_nil : forall line reg tail, scanned line reg [] tail [] reg
| scanned_cons : forall line reg p ps tail u us regf,
    p <> [] -> unit_text p (su_val u) -> su_line u = (line + newlines p)%Z ->
    unit_region u = region_step (su_val u) (nonempty (concat ps ++ tail)) reg ->
    scanned (su_line u) (unit_region u) ps tail us regf ->
    scanned line reg (p :: ps) tail (u :: us) regf.

Definition tail_ok (tail : str) : Prop :=
  (tail = [] \/ starts (fun c => c = c_slash \/ c = c_dquote) tail)
  /\ exists prev line g su r g', build_scan_unit U (mkReader prev tail line) g = (su, true, r, g').

Lemma scan_loop_spec : forall fuel prev rest line g, (length rest < fuel)%nat ->
  exists us r' g' pieces tail,
    scan_loop U fuel (mkReader prev rest line) g = Some (us, r', g')
    /\ rest = concat pieces ++ tail
    /\ tail_ok tail
    /\ scanned line (region_of g) pieces tail us (region_of g').
Proof.
  induction fuel as [|fuel IH]; intros prev rest line g Hf; [lia|]. cbn [scan_loop].
  destruct (build_scan_unit U (mkReader prev rest line) g) as [[[u err] r'] g'] eqn:B.
  pose proof B as B0.
  apply build_spec in B. destruct B as (B1 & B2 & B3). destruct err.
  - destruct B3 as (_ & -> & B5). exists [], r', g, [], rest. cbn [concat app].
    split; [reflexivity|]. split; [reflexivity|]. split; [|constructor]. split; [exact B5|].
    exists prev, line, g, u, r', g. exact B0.
  - destruct B3 as (p & -> & Hp & Hprev & Hline & Ht & Hr). destruct r' as [prev' rest' line'].
    cbn [rd_rest rd_prev rd_line] in *.
    destruct (IH prev' rest' line' g') as (us & r'' & g'' & ps & tail & E & Hrest & Htail & Hs).
    { rewrite app_length in Hf. destruct p; [congruence|]. cbn in Hf. lia. }
    exists (u :: us), r'', g'', (p :: ps), tail. rewrite E. split; [reflexivity|].
    split; [cbn [concat]; rewrite Hrest at 1; rewrite app_assoc; reflexivity|].
    split; [exact Htail|].
    constructor; try assumption.
    + rewrite B1; exact Hline.
    + rewrite B2, Hr, Hrest. reflexivity.
    + rewrite B1, B2. exact Hs.
Qed.

Lemma scan_spec : forall g text,
  exists us r' g' pieces tail,
    scan U g text = Some (us, r', g')
    /\ text = concat pieces ++ tail
    /\ tail_ok tail
    /\ scanned 1 (region_of g) pieces tail us (region_of g').
Proof. intros g text. unfold scan, new_reader. apply scan_loop_spec. lia. Qed.

Lemma scanned_forall2 : forall line reg ps tail us regf,
  scanned line reg ps tail us regf -> Forall2 unit_text ps (map su_val us).
Proof. intros line reg ps tail us regf H. induction H; cbn; constructor; assumption. Qed.

Lemma scanned_nonempty : forall line reg ps tail us regf,
  scanned line reg ps tail us regf ->
  Forall (fun u => su_val u <> []) us /\ (length us <= length (concat ps))%nat.
Proof.
  intros line reg ps tail us regf H. induction H as [|line reg p ps tail u us regf Hp Ht Hl Hr Hs [IH1 IH2]].
  - split; [constructor|cbn; lia].
  - split.
    + constructor; [|assumption]. destruct Ht; [assumption|]. discriminate.
    + cbn [length concat]. rewrite app_length. destruct p; [congruence|]. cbn [length]. lia.
Qed.

Lemma forall2_subseq : forall ps vs, Forall2 unit_text ps vs -> subseq (concat vs) (concat ps).
Proof.
  intros ps vs H. induction H; cbn; [constructor|].
  apply subseq_app; [apply unit_text_subseq; assumption|assumption].
Qed.

(** C04 *)
Lemma scanned_lines : forall line reg ps tail us regf,
  scanned line reg ps tail us regf ->
  forall i u, nth_error us i = Some u ->
  su_line u = (line + newlines (concat (firstn (S i) ps)))%Z.
Proof.
  intros line reg ps tail us regf H. induction H as [|line reg p ps tail u0 us regf Hp Ht Hl Hr Hs IH];
    intros i u Hi; [destruct i; discriminate|].
  destruct i as [|i].
  - injection Hi as <-. cbn [firstn concat]. rewrite app_nil_r. exact Hl.
  - cbn in Hi. apply IH in Hi. rewrite Hi, Hl. cbn [firstn concat]. rewrite newlines_app. cbn. lia.
Qed.

(** The region of unit [i] follows from that of the unit before it. *)
Definition region_before (reg : region) (us : list scan_unit) (i : nat) : region :=
  match i with
  | O => reg
  | S j => match nth_error us j with Some u => unit_region u | None => reg end
  end.

Lemma scanned_region_step : forall line reg ps tail us regf,
  scanned line reg ps tail us regf ->
  forall i u, nth_error us i = Some u ->
  unit_region u = region_step (su_val u)
                    (Nat.ltb (S i) (length us) || nonempty tail) (region_before reg us i).
Proof.
  intros line reg ps tail us regf H. induction H as [|line reg p ps tail u0 us regf Hp Ht Hl Hr Hs IH];
    intros i u Hi; [destruct i; discriminate|].
  assert (Hne : nonempty (concat ps ++ tail) = Nat.ltb 1 (length (u0 :: us)) || nonempty tail).
  { destruct Hs as [|line2 reg2 p2 ps2 tail2 u2 us2 regf2 Hp2]; [reflexivity|].
    cbn [concat length]. destruct p2; [congruence|]. reflexivity. }
  destruct i as [|i].
  - injection Hi as <-. rewrite Hr, Hne. reflexivity.
  - cbn in Hi. pose proof Hi as Hi2. apply IH in Hi. rewrite Hi.
    replace (Nat.ltb (S (S i)) (length (u0 :: us))) with (Nat.ltb (S i) (length us)) by reflexivity.
    f_equal. destruct i as [|i]; [reflexivity|]. cbn.
    destruct (nth_error us i) eqn:E; [reflexivity|].
    apply nth_error_None in E. assert (S i < length us)%nat by (apply nth_error_Some; congruence). lia.
Qed.

Lemma scanned_final : forall line reg ps tail us regf,
  scanned line reg ps tail us regf ->
  regf = match rev us with [] => reg | u :: _ => unit_region u end.
Proof.
  intros line reg ps tail us regf H. induction H as [|line reg p ps tail u us regf Hp Ht Hl Hr Hs IH];
    [reflexivity|].
  cbn [rev]. rewrite IH. destruct (rev us); reflexivity.
Qed.

(** ** Round trip *)
Lemma line_loop_fwd : forall b prev rest line buf, ~ In c_nl b ->
  exists prev' line', line_comment_loop prev (b ++ c_nl :: rest) line buf
    = (mkReader prev' rest line', buf ++ b ++ [c_nl], false).
Proof.
  induction b as [|c b IH]; intros prev rest line buf Hb; cbn [app line_comment_loop].
  - eexists. eexists. reflexivity.
  - destruct (N.eqb_spec c c_nl) as [->|E]; [exfalso; apply Hb; left; reflexivity|].
    destruct (IH (c :: prev) rest (line_after c line) (buf ++ [c])) as (p' & l' & E2).
    { intro Hi; apply Hb; right; exact Hi. }
    exists p', l'. rewrite E2, <- app_assoc. reflexivity.
Qed.

Lemma block_loop_fwd : forall b prev rest line buf, ~ In c_star b ->
  exists prev' line', block_comment_loop prev (b ++ c_star :: c_slash :: rest) line buf
    = (mkReader prev' rest line', buf ++ b ++ [c_star; c_slash], false).
Proof.
  induction b as [|c b IH]; intros prev rest line buf Hb; cbn [app block_comment_loop].
  - eexists. eexists. reflexivity.
  - destruct (N.eqb_spec c c_star) as [->|E]; [exfalso; apply Hb; left; reflexivity|].
    destruct (IH (c :: prev) rest (line_after c line) (buf ++ [c])) as (p' & l' & E2).
    { intro Hi; apply Hb; right; exact Hi. }
    exists p', l'. rewrite E2, <- app_assoc. reflexivity.
Qed.

Lemma string_loop_fwd : forall b, string_body b -> forall prev rest line buf,
  exists prev' line', string_loop prev (b ++ c_dquote :: rest) line buf
    = (mkReader prev' rest line', buf ++ b ++ [c_dquote], false).
Proof.
  intros b H. induction H as [|c b H1 H2 H IH|c b H IH]; intros prev rest line buf; cbn [app string_loop].
  - eexists. eexists. reflexivity.
  - destruct (N.eqb_spec c c_backslash) as [->|_]; [congruence|].
    destruct (N.eqb_spec c c_dquote) as [->|_]; [congruence|].
    destruct (IH (c :: prev) rest (line_after c line) (buf ++ [c])) as (p' & l' & E2).
    exists p', l'. rewrite E2, <- app_assoc. reflexivity.
  - rewrite N.eqb_refl.
    destruct (IH (c :: c_backslash :: prev) rest (line_after c (line_after c_backslash line))
                 (buf ++ [c_backslash] ++ [c])) as (p' & l' & E2).
    exists p', l'. cbn [app] in *. rewrite E2, <- !app_assoc. reflexivity.
Qed.

Lemma run_loop_fwd : forall cls b prev rest line buf,
  Forall (fun c => cls c = true) b -> (rest = [] \/ starts (fun c => cls c = false) rest) ->
  exists prev' line' eof, run_loop cls prev (b ++ rest) line buf
    = (mkReader prev' rest line', buf ++ b, eof).
Proof.
  intros cls b. induction b as [|c b IH]; intros prev rest line buf Hb Hr; cbn [app].
  - rewrite app_nil_r. destruct rest as [|c rest]; cbn [run_loop].
    + eexists _, _, _. reflexivity.
    + destruct Hr as [Hr|Hr]; [discriminate|]. cbn in Hr. rewrite Hr.
      unfold unread_rune. cbn. eexists _, _, _. reflexivity.
  - inversion Hb as [|x l Hc Hb']; subst. cbn [run_loop]. rewrite Hc.
    destruct (IH (c :: prev) rest (line_after c line) (buf ++ [c]) Hb' Hr) as (p' & l' & e' & E2).
    exists p', l', e'. rewrite E2, <- app_assoc. reflexivity.
Qed.

Lemma build_fwd : forall u rest prev line g, unit_shape U u -> ~ merges U u rest ->
  exists su prev' line' g',
    build_scan_unit U (mkReader prev (u ++ rest) line) g = (su, false, mkReader prev' rest line', g')
    /\ su_val su = u.
Proof.
  destruct (brace_facts) as (Bs1 & Bs2 & Bi1 & Bi2 & Ss & Si & Qs & Qi & Hs0).
  intros u rest prev line g Hu Hm. unfold build_scan_unit.
  destruct Hu as [b Hb|b Hb|b Hb|s Hne Hs|s Hne Hs|c Hq Hns Hni].
  - rewrite <- !app_assoc. replace (T "//") with [c_slash; c_slash] by reflexivity.
    cbn [app read_rune rd_rest rd_prev rd_line]. try rewrite N.eqb_refl.
    cbn [read_rune rd_rest rd_prev rd_line]. try rewrite N.eqb_refl.
    destruct (line_loop_fwd b (c_slash :: c_slash :: prev) rest (line_after c_slash (line_after c_slash line))
                ([c_slash] ++ [c_slash]) Hb) as (p' & l' & E).
    cbn [app] in *. rewrite E. eexists _, _, _, _. split; reflexivity.
  - rewrite <- !app_assoc. replace (T "/*") with [c_slash; c_star] by reflexivity.
    replace (T "*/") with [c_star; c_slash] by reflexivity.
    cbn [app read_rune rd_rest rd_prev rd_line]. try rewrite N.eqb_refl.
    cbn [read_rune rd_rest rd_prev rd_line].
    replace (N.eqb c_star c_slash) with false by reflexivity. try rewrite N.eqb_refl.
    destruct (block_loop_fwd b (c_star :: c_slash :: prev) rest (line_after c_star (line_after c_slash line))
                ([c_slash] ++ [c_star]) Hb) as (p' & l' & E).
    cbn [app] in *. rewrite E. eexists _, _, _, _. split; reflexivity.
  - rewrite <- !app_assoc. cbn [app read_rune rd_rest rd_prev rd_line].
    replace (N.eqb c_dquote c_slash) with false by reflexivity. try rewrite N.eqb_refl.
    destruct (string_loop_fwd b Hb (c_dquote :: prev) rest (line_after c_dquote line) [c_dquote])
      as (p' & l' & E).
    rewrite E. eexists _, _, _, _. split; reflexivity.
  - destruct s as [|c s]; [congruence|]. inversion Hs as [|x l Hc Hs']; subst.
    cbn [app read_rune rd_rest rd_prev rd_line].
    destruct (N.eqb_spec c c_slash) as [->|_]; [congruence|].
    destruct (N.eqb_spec c c_dquote) as [->|_]; [congruence|]. rewrite Hc.
    assert (Hr : rest = [] \/ starts (fun c => u_space U c = false) rest).
    { destruct rest as [|d rest]; [left; reflexivity|right]. cbn.
      destruct (u_space U d) eqn:Ed; [|reflexivity]. exfalso. apply Hm. left. cbn. auto. }
    destruct (run_loop_fwd (u_space U) s (c :: prev) rest (line_after c line) [c] Hs' Hr)
      as (p' & l' & e' & E).
    rewrite E. eexists _, _, _, _. split; reflexivity.
  - destruct s as [|c s]; [congruence|]. inversion Hs as [|x l Hc Hs']; subst.
    apply is_ident_iff in Hc.
    assert (Hs2 : Forall (fun c => is_ident U c = true) s).
    { eapply Forall_impl; [|exact Hs']. intros a Ha. apply is_ident_iff; exact Ha. }
    cbn [app read_rune rd_rest rd_prev rd_line].
    destruct (N.eqb_spec c c_slash) as [->|_]; [congruence|].
    destruct (N.eqb_spec c c_dquote) as [->|_]; [congruence|].
    destruct (u_space U c) eqn:Ec. { pose proof (space_not_ident _ Ec). congruence. }
    rewrite Hc.
    assert (Hr : rest = [] \/ starts (fun c => is_ident U c = false) rest).
    { destruct rest as [|d rest]; [left; reflexivity|right]. cbn.
      destruct (is_ident U d) eqn:Ed; [|reflexivity]. exfalso. apply Hm. right; left. cbn.
      split; apply is_ident_iff; assumption. }
    destruct (run_loop_fwd (is_ident U) s (c :: prev) rest (line_after c line) [c] Hs2 Hr)
      as (p' & l' & e' & E).
    rewrite E. eexists _, _, _, _. split; reflexivity.
  - apply is_ident_false in Hni. cbn [app read_rune rd_rest rd_prev rd_line].
    destruct (N.eqb_spec c c_slash) as [->|_].
    { destruct rest as [|d rest]; [exfalso; apply Hm; right; right; auto|].
      cbn [read_rune rd_rest rd_prev rd_line].
      destruct (N.eqb_spec d c_slash) as [->|_]; [exfalso; apply Hm; right; right; cbn; auto|].
      destruct (N.eqb_spec d c_star) as [->|_]; [exfalso; apply Hm; right; right; cbn; auto|].
      eexists _, _, _, _. split; reflexivity. }
    destruct (N.eqb_spec c c_dquote) as [->|_]; [congruence|]. rewrite Hns, Hni.
    destruct (N.eqb_spec c c_lbrace) as [->|_]; [eexists _, _, _, _; split; reflexivity|].
    destruct (N.eqb_spec c c_rbrace) as [->|_]; eexists _, _, _, _; split; reflexivity.
Qed.

Lemma unit_shape_nonempty : forall u, unit_shape U u -> u <> [].
Proof. intros u H; destruct H; try assumption; discriminate. Qed.

Lemma build_nil : forall prev line g, exists su,
  build_scan_unit U (mkReader prev [] line) g = (su, true, mkReader prev [] line, g).
Proof. intros. eexists. reflexivity. Qed.

Lemma scan_loop_fwd : forall us, well_separated U us -> forall fuel prev line g,
  (length (concat us) < fuel)%nat ->
  exists sus r' g', scan_loop U fuel (mkReader prev (concat us) line) g = Some (sus, r', g')
    /\ map su_val sus = us /\ rd_rest r' = [].
Proof.
  intros us H. induction H as [|u us Hu Hm Hw IH]; intros fuel prev line g Hf.
  - destruct fuel as [|fuel]; [cbn in Hf; lia|]. cbn [concat scan_loop].
    destruct (build_nil prev line g) as (su & E). rewrite E.
    eexists _, _, _. repeat split.
  - destruct fuel as [|fuel]; [lia|]. cbn [concat scan_loop].
    destruct (build_fwd u (concat us) prev line g Hu Hm) as (su & prev' & line' & g' & E & Ev).
    rewrite E.
    destruct (IH fuel prev' line' g') as (sus & r'' & g'' & E2 & Ev2 & Hrest).
    { cbn [concat] in Hf. rewrite app_length in Hf.
      pose proof (unit_shape_nonempty u Hu). destruct u; [congruence|]. cbn in Hf. lia. }
    rewrite E2. exists (su :: sus), r'', g''. cbn [map]. rewrite Ev, Ev2. repeat split. exact Hrest.
Qed.

Lemma tail_unterminated : forall tail, tail_ok tail ->
  forall v rest, tail = v ++ rest -> unit_shape U v -> merges U v rest.
Proof.
  intros tail (_ & prev & line & g & su & r & g' & E) v rest -> Hv.
  assert (D : merges U v rest \/ ~ merges U v rest).
  { assert (Dp : forall (P : N -> Prop) (f : N -> bool), (forall c, P c <-> f c = true) -> forall s, starts P s \/ ~ starts P s).
    { intros P f Hf [|c s]; [right; intros []|]. cbn. rewrite Hf. destruct (f c); [left|right]; congruence. }
    assert (Ds : forall s, starts (fun c => u_space U c = true) s \/ ~ starts (fun c => u_space U c = true) s)
      by (intro s; apply Dp with (f := u_space U); tauto).
    assert (Di : forall s, starts (ident_rune U) s \/ ~ starts (ident_rune U) s)
      by (intro s; apply Dp with (f := is_ident U); intro c; symmetry; apply is_ident_iff).
    assert (Dc : forall s, starts (fun c => c = c_slash \/ c = c_star) s \/ ~ starts (fun c => c = c_slash \/ c = c_star) s).
    { intro s. apply Dp with (f := fun c => N.eqb c c_slash || N.eqb c c_star). intro c.
      rewrite orb_true_iff, !N.eqb_eq. tauto. }
    assert (De : v = [c_slash] \/ v <> [c_slash]) by (destruct (str_eq_dec v [c_slash]); auto).
    assert (Dr : rest = [] \/ rest <> []) by (destruct rest; [left|right]; congruence).
    unfold merges. specialize (Ds v) as D1. specialize (Ds rest) as D2. specialize (Di v) as D3.
    specialize (Di rest) as D4. specialize (Dc rest) as D5. tauto. }
  destruct D as [D|D]; [exact D|]. exfalso.
  destruct (build_fwd v rest prev line g Hv D) as (su2 & prev' & line' & g2 & E2 & _). congruence.
Qed.

Lemma scan_roundtrip : forall g us, well_separated U us ->
  exists sus r' g', scan U g (concat us) = Some (sus, r', g') /\ map su_val sus = us /\ rd_rest r' = [].
Proof. intros g us H. unfold scan, new_reader. apply scan_loop_fwd; [exact H|lia]. Qed.

End WithUnicode.
