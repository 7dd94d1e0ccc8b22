(** Whole-file theorems about the lexer model. *)
From Verif Require Import GoStr GoStrProofs Scanner ScannerSpec ScannerProofs ScannerProofs2
  Lexer LexerSpec LexerProofs.

(** ** The region flags along a file *)
Fixpoint chain (reg : region) (us : list scan_unit) : Prop :=
  match us with
  | [] => True
  | u :: us' => unit_region u = region_step (su_val u) true reg /\ chain (unit_region u) us'
  end.
Fixpoint chain_end (reg : region) (us : list scan_unit) : region :=
  match us with [] => reg | u :: us' => chain_end (unit_region u) us' end.

Lemma chain_app : forall a reg b, chain reg (a ++ b) <-> chain reg a /\ chain (chain_end reg a) b.
Proof.
  induction a as [|u a IH]; intros reg b; cbn [app chain chain_end]; [tauto|]. rewrite IH. tauto.
Qed.
Lemma chain_end_app : forall a reg b, chain_end reg (a ++ b) = chain_end (chain_end reg a) b.
Proof. induction a as [|u a IH]; intros reg b; cbn [app chain_end]; [reflexivity|]. apply IH. Qed.

Lemma region_step_more : forall v m1 m2 s, v <> T "service" -> region_step v m1 s = region_step v m2 s.
Proof.
  intros v m1 m2 [[h b] d] H. unfold region_step. apply str_eqb_neq in H. rewrite H. reflexivity.
Qed.

Lemma scanned_chain : forall line reg ps tail us regf, scanned line reg ps tail us regf ->
  (forall u, hd_error (rev us) = Some u -> su_val u <> T "service") ->
  chain reg us /\ regf = chain_end reg us.
Proof.
  intros line reg ps tail us regf H. induction H as [|line reg p ps tail u us regf Hp Ht Hl Hr Hs IH];
    intro Hlast; [split; [exact I|reflexivity]|].
  cbn [chain chain_end].
  destruct IH as [IH1 IH2].
  { intros v Hv. apply Hlast. cbn [rev]. destruct (rev us); [discriminate|exact Hv]. }
  split; [|exact IH2]. split; [|exact IH1]. rewrite Hr.
  destruct us as [|u2 us].
  - apply region_step_more. apply Hlast. reflexivity.
  - inversion Hs as [|? ? p2 ? ? ? ? ? Hp2]; subst. cbn [concat]. destruct p2; [congruence|]. reflexivity.
Qed.

Lemma map_app_inv : forall A B (f : A -> B) l x y, map f l = x ++ y ->
  exists a b, l = a ++ b /\ map f a = x /\ map f b = y.
Proof.
  intros A B f l x. revert l. induction x as [|c x IH]; intros l y H; cbn [app] in H.
  - exists [], l. auto.
  - destruct l as [|a l]; [discriminate|]. cbn in H. injection H as H1 H2.
    destruct (IH l y H2) as (p & q & -> & <- & <-). exists (a :: p), q. cbn. rewrite H1. auto.
Qed.

Lemma no_service_app : forall a b, no_service (a ++ b) <-> no_service a /\ no_service b.
Proof. intros a b. unfold no_service. rewrite in_app_iff. tauto. Qed.
Lemma no_service_cons : forall v b, no_service (v :: b) <-> v <> T "service" /\ no_service b.
Proof. intros v b. unfold no_service. cbn [In]. intuition congruence. Qed.

Lemma lb_step : forall h b d, region_step (T "{") true (h, b, d) = (false, h || b, d + 1)%Z.
Proof. intros [|] b d; reflexivity. Qed.
Lemma rb_step : forall h b d, region_step (T "}") true (h, b, d) = (h, b && negb (Z.eqb (d - 1) 0), d - 1)%Z.
Proof. reflexivity. Qed.

Lemma nested_free : forall vs, nested vs -> forall us d, map su_val us = vs -> no_service vs ->
  chain (false, false, d) us -> chain_end (false, false, d) us = (false, false, d).
Proof.
  intros vs H. induction H as [|v vs H1 H2 H IH|a b Ha IHa Hb IHb]; intros us d Hm Hns Hc.
  - destruct us; [reflexivity|discriminate].
  - destruct us as [|u us]; [discriminate|]. cbn in Hm. injection Hm as Hu Hm.
    apply no_service_cons in Hns. destruct Hns as [Hn1 Hn2]. cbn [chain] in Hc. destruct Hc as [Hc1 Hc2].
    rewrite region_step_other in Hc1 by (rewrite Hu; assumption).
    cbn [chain_end]. rewrite Hc1 in *. apply IH; assumption.
  - destruct us as [|u us]; [discriminate|]. cbn [map] in Hm. injection Hm as Hu Hm.
    apply map_app_inv in Hm. destruct Hm as (ua & ub & -> & Hma & Hmb).
    destruct ub as [|u2 ub]; [discriminate|]. cbn [map] in Hmb. injection Hmb as Hu2 Hmb.
    apply no_service_cons in Hns. destruct Hns as [_ Hns]. apply no_service_app in Hns.
    destruct Hns as [Hna Hnb]. apply no_service_cons in Hnb. destruct Hnb as [_ Hnb].
    cbn [chain] in Hc. destruct Hc as [Hc1 Hc2]. rewrite Hu, lb_step in Hc1. cbn [orb] in Hc1.
    apply chain_app in Hc2. destruct Hc2 as [Hca Hcb].
    cbn [chain_end]. rewrite Hc1 in *. rewrite chain_end_app.
    rewrite (IHa ua (d + 1)%Z Hma Hna Hca) in *. cbn [chain] in Hcb. destruct Hcb as [Hcb1 Hcb2].
    rewrite Hu2, rb_step in Hcb1. cbn [andb] in Hcb1. replace (d + 1 - 1)%Z with d in Hcb1 by lia.
    cbn [chain_end]. rewrite Hcb1 in *. apply (IHb ub d); assumption.
Qed.

Lemma nested_body : forall vs, nested vs -> forall us d, (1 <= d)%Z -> map su_val us = vs -> no_service vs ->
  chain (false, true, d) us ->
  Forall (fun u => (1 <= su_brace u)%Z) us /\ chain_end (false, true, d) us = (false, true, d).
Proof.
  intros vs H. induction H as [|v vs H1 H2 H IH|a b Ha IHa Hb IHb]; intros us d Hd Hm Hns Hc.
  - destruct us; [|discriminate]. split; [constructor|reflexivity].
  - destruct us as [|u us]; [discriminate|]. cbn in Hm. injection Hm as Hu Hm.
    apply no_service_cons in Hns. destruct Hns as [Hn1 Hn2]. cbn [chain] in Hc. destruct Hc as [Hc1 Hc2].
    rewrite region_step_other in Hc1 by (rewrite Hu; assumption).
    cbn [chain_end]. rewrite Hc1 in *. destruct (IH us d Hd Hm Hn2 Hc2) as [I1 I2].
    split; [|exact I2]. constructor; [|exact I1]. inversion Hc1; subst. exact Hd.
  - destruct us as [|u us]; [discriminate|]. cbn [map] in Hm. injection Hm as Hu Hm.
    apply map_app_inv in Hm. destruct Hm as (ua & ub & -> & Hma & Hmb).
    destruct ub as [|u2 ub]; [discriminate|]. cbn [map] in Hmb. injection Hmb as Hu2 Hmb.
    apply no_service_cons in Hns. destruct Hns as [_ Hns]. apply no_service_app in Hns.
    destruct Hns as [Hna Hnb]. apply no_service_cons in Hnb. destruct Hnb as [_ Hnb].
    cbn [chain] in Hc. destruct Hc as [Hc1 Hc2]. rewrite Hu, lb_step in Hc1. cbn [orb] in Hc1.
    apply chain_app in Hc2. destruct Hc2 as [Hca Hcb].
    cbn [chain_end]. rewrite Hc1 in *. rewrite chain_end_app.
    destruct (IHa ua (d + 1)%Z ltac:(lia) Hma Hna Hca) as [Fa Ea]. rewrite Ea in *.
    cbn [chain] in Hcb. destruct Hcb as [Hcb1 Hcb2].
    rewrite Hu2, rb_step in Hcb1. replace (d + 1 - 1)%Z with d in Hcb1 by lia.
    replace (Z.eqb d 0) with false in Hcb1 by (symmetry; apply Z.eqb_neq; lia). cbn [andb negb] in Hcb1.
    cbn [chain_end]. rewrite Hcb1 in *. destruct (IHb ub d Hd Hmb Hnb Hcb2) as [Fb Eb].
    split; [|exact Eb]. constructor; [inversion Hc1; lia|]. apply Forall_app. split; [exact Fa|].
    constructor; [inversion Hcb1; lia|exact Fb].
Qed.

Lemma header_chain : forall us reg b d, reg = (true, b, d) ->
  no_service (map su_val us) -> ~ In (T "{") (map su_val us) -> ~ In (T "}") (map su_val us) ->
  chain reg us -> Forall (fun u => su_def u = true) us /\ chain_end reg us = reg.
Proof.
  induction us as [|u us IH]; intros reg b d -> H1 H2 H3 Hc; [split; [constructor|reflexivity]|].
  cbn [map] in *. apply no_service_cons in H1. destruct H1 as [H1 H1'].
  cbn [In] in H2, H3. cbn [chain] in Hc. destruct Hc as [Hc1 Hc2].
  rewrite region_step_other in Hc1; [|exact H1|intuition congruence|intuition congruence].
  cbn [chain_end]. destruct (IH (unit_region u) b d Hc1 H1') as [F E]; [tauto|tauto|exact Hc2|].
  split; [constructor; [inversion Hc1; reflexivity|exact F]|]. rewrite E, Hc1. reflexivity.
Qed.

Lemma block_chain : forall vs, service_block vs -> forall us, map su_val us = vs ->
  chain (false, false, 0%Z) us ->
  exists s bs lastu, us = s :: bs ++ [lastu] /\ su_val s = T "service" /\ inside s /\ Forall inside bs
    /\ su_val lastu = T "}" /\ unit_region lastu = (false, false, 0%Z)
    /\ chain_end (false, false, 0%Z) us = (false, false, 0%Z).
Proof.
  intros vs H us Hm Hc. destruct H as [hdr body Hh1 Hh2 Hh3 Hb1 Hb2].
  destruct us as [|s us]; [discriminate|]. cbn [map] in Hm. injection Hm as Hs Hm.
  apply map_app_inv in Hm. destruct Hm as (uh & u2 & -> & Hmh & Hm).
  destruct u2 as [|lb u2]; [discriminate|]. cbn [map] in Hm. injection Hm as Hlb Hm.
  apply map_app_inv in Hm. destruct Hm as (ub & u3 & -> & Hmb & Hm).
  destruct u3 as [|rb u3]; [discriminate|]. cbn [map] in Hm. injection Hm as Hrb Hm.
  destruct u3; [|discriminate]. clear Hm.
  cbn [chain] in Hc. destruct Hc as [Hc1 Hc]. rewrite Hs in Hc1.
  change (region_step (T "service") true (false, false, 0%Z)) with (true, false, 0%Z) in Hc1.
  apply chain_app in Hc. destruct Hc as [Hch Hc].
  destruct (header_chain uh (unit_region s) false 0%Z) as [Fh Eh]; try (rewrite Hmh); try assumption.
  rewrite Eh, Hc1 in Hc. cbn [chain] in Hc. destruct Hc as [Hc2 Hc]. rewrite Hlb, lb_step in Hc2.
  cbn [orb] in Hc2. change (0 + 1)%Z with 1%Z in Hc2.
  apply chain_app in Hc. destruct Hc as [Hcb Hc]. rewrite Hc2 in *.
  destruct (nested_body body Hb2 ub 1%Z ltac:(lia) Hmb Hb1 Hcb) as [Fb Eb].
  rewrite Eb in Hc. cbn [chain] in Hc. destruct Hc as [Hc3 _]. rewrite Hrb, rb_step in Hc3.
  cbn in Hc3. change (1 - 1)%Z with 0%Z in Hc3. cbn in Hc3.
  exists s, (uh ++ lb :: ub), rb. split.
  { f_equal. rewrite <- app_assoc. reflexivity. }
  split; [exact Hs|]. split; [right; left; inversion Hc1; reflexivity|].
  split.
  { apply Forall_app. split; [eapply Forall_impl; [|exact Fh]; intros a Ha; right; left; exact Ha|].
    constructor; [right; right; inversion Hc2; reflexivity|].
    eapply Forall_impl; [|exact Fb]. intros a Ha. left. cbn in Ha. lia. }
  split; [exact Hrb|]. split; [exact Hc3|].
  cbn [chain_end]. rewrite chain_end_app, Eh, Hc1. cbn [chain_end]. rewrite Hc2, chain_end_app, Eb.
  cbn [chain_end]. exact Hc3.
Qed.

Section WithUnicode.
Variable U : unicode.
Hypothesis HU : unicode_ok U.

Lemma rb_facts : ~ is_comment (T "}") /\ ~ blank U (T "}").
Proof.
  destruct (brace_facts U HU) as (Bs1 & Bs2 & _). split.
  - intros (d & s & E); discriminate.
  - unfold blank. cbn. change 125%N with c_rbrace. congruence.
Qed.

Lemma skipn_app_len : forall A (a b l : list A) n, skipn n l = a ++ b -> n <= length l ->
  n + length a <= length l.
Proof.
  intros A a b l n H Hn. assert (E : length (skipn n l) = length (a ++ b)) by (rewrite H; reflexivity).
  rewrite skipn_length, app_length in E. lia.
Qed.

Lemma lex_file : forall vs blocks, proto_file vs blocks -> forall us buf n fuel,
  map su_val us = vs -> chain (false, false, 0%Z) us ->
  Forall (fun u => unit_shape U (su_val u)) buf ->
  skipn n buf = us -> n <= length buf -> outside_at buf n -> length us < fuel ->
  chain_end (false, false, 0%Z) us = (false, false, 0%Z) /\
  exists ublocks tss, map (map su_val) ublocks = blocks /\ Forall2 (tokenized U) ublocks tss
    /\ lex_loop U fuel (after_units buf n) = Ret (concat tss).
Proof.
  intros vs blocks H. induction H as [j Hj|j b f blocks Hj Hb Hf IH];
    intros us buf n fuel Hm Hc Hsh Hsk Hn Ho Hfu.
  - destruct Hj as [Hj1 Hj2]. split; [eapply nested_free; eassumption|].
    exists [], []. split; [reflexivity|]. split; [constructor|].
    destruct fuel as [|fuel]; [lia|]. cbn [lex_loop].
    destruct (ntg_eof U buf n Ho Hn) as (l & s & ->); [|reflexivity].
    rewrite Hsk. rewrite Forall_forall. intros u Hu E. apply Hj1. rewrite <- Hm, <- E. apply in_map. exact Hu.
  - apply map_app_inv in Hm. destruct Hm as (uj & u2 & -> & Hmj & Hm).
    apply map_app_inv in Hm. destruct Hm as (ub & uf & -> & Hmb & Hmf).
    apply chain_app in Hc. destruct Hc as [Hcj Hc]. destruct Hj as [Hj1 Hj2].
    rewrite (nested_free j Hj2 uj 0%Z Hmj Hj1 Hcj) in Hc. apply chain_app in Hc. destruct Hc as [Hcb Hcf].
    destruct (block_chain b Hb ub Hmb Hcb) as (s & bs & lastu & -> & Hs & His & Hbs & Hl & Hlr & Hend).
    rewrite Hend in Hcf.
    rewrite !app_length in Hfu. cbn [length] in Hfu. rewrite app_length in Hfu. cbn [length] in Hfu.
    pose proof Hsk as Hsk0. cbn [app] in Hsk. rewrite <- app_assoc in Hsk. cbn [app] in Hsk.
    destruct fuel as [|fuel]; [lia|]. cbn [lex_loop].
    assert (Fj : Forall (fun u => su_val u <> T "service") uj).
    { rewrite Forall_forall. intros u Hu E. apply Hj1. rewrite <- Hmj, <- E. apply in_map. exact Hu. }
    rewrite (ntg_outside U HU buf n uj s _ Ho Hn Hsk Fj Hs). cbn [tk_token].
    pose proof (skipn_app_add _ _ _ _ _ Hsk) as Hsk1.
    pose proof (skipn_nth _ _ _ _ _ Hsk1) as [Hn1 Hsk2].
    destruct rb_facts as [R1 R2].
    destruct (lex_stretch U HU (length bs) bs lastu buf uf (S (n + length uj)) fuel) as
      (ts & fuel' & Htz & Hfu2 & Elex); try assumption; try lia.
    { cbn [inside_at]. rewrite Hn1. exact His. }
    { rewrite Hl. exact R1. }
    { rewrite Hl. exact R2. }
    assert (Hsk3 : skipn (S (n + length uj) + S (length bs)) buf = uf).
    { replace (S (length bs)) with (length (bs ++ [lastu])) by (rewrite app_length; cbn; lia).
      apply skipn_app_add with (a := bs ++ [lastu]). rewrite <- app_assoc. exact Hsk2. }
    assert (Hn3 : S (n + length uj) + S (length bs) <= length buf).
    { pose proof (skipn_app_len _ _ _ _ _ Hsk0 Hn) as L.
      assert (length (skipn n buf) = length (uj ++ (s :: bs ++ [lastu]) ++ uf)) as L2 by (rewrite Hsk0; reflexivity).
      rewrite skipn_length, !app_length in L2. cbn [length] in L2. rewrite app_length in L2. cbn in L2. lia. }
    destruct (IH uf buf (S (n + length uj) + S (length bs)) fuel') as (Eend & ubs & tss & Hub & Htss & El);
      try assumption.
    { replace (S (n + length uj) + S (length bs)) with (S (S (n + length uj) + length bs)) by lia.
      cbn [outside_at]. pose proof (skipn_app_add _ _ _ _ _ Hsk2) as Hsk4.
      apply skipn_nth in Hsk4. destruct Hsk4 as [-> _]. inversion Hlr; subst. auto. }
    { lia. }
    split.
    { rewrite !chain_end_app. rewrite (nested_free j Hj2 uj 0%Z Hmj Hj1 Hcj), Hend. exact Eend. }
    exists ((s :: bs ++ [lastu]) :: ubs), ((mkTok IDENT (su_val s) (su_line s) :: ts) :: tss).
    split; [cbn [map]; rewrite Hub; f_equal; exact Hmb|].
    split.
    { constructor; [|exact Htss]. apply tz_unit; [|rewrite Hs|exact Htz].
      - rewrite Hs. intros (d & s' & E); discriminate.
      - apply (ut_ident U 115). apply is_ident_iff. apply (brace_facts U HU). }
    rewrite Elex, El. cbn [prepend concat]. rewrite Hs. reflexivity.
Qed.

Lemma well_separated_shapes : forall us, well_separated U us -> Forall (unit_shape U) us.
Proof. intros us H. induction H; constructor; assumption. Qed.

Lemma forall_map_iff : forall A B (f : A -> B) P l, Forall (fun a => P (f a)) l <-> Forall P (map f l).
Proof. intros. rewrite Forall_map. reflexivity. Qed.

Lemma proto_file_last : forall vs blocks, proto_file vs blocks ->
  forall v, hd_error (rev vs) = Some v -> v <> T "service".
Proof.
  intros vs blocks H. induction H as [j Hj|j b f blocks Hj Hb Hf IH]; intros v Hv.
  - destruct Hj as [Hj _]. intros ->. apply Hj. apply in_rev. destruct (rev j); [discriminate|].
    injection Hv as ->. left; reflexivity.
  - rewrite !rev_app_distr in Hv. destruct (rev f) as [|x l] eqn:E.
    + destruct Hb as [hdr body]. cbn [app] in Hv. cbn [rev] in Hv.
      rewrite !rev_app_distr in Hv. cbn [rev] in Hv. rewrite rev_app_distr in Hv. cbn in Hv.
      injection Hv as <-. discriminate.
    + apply IH. cbn in *. exact Hv.
Qed.

Lemma lex_proto_file : forall vs blocks, well_separated U vs -> proto_file vs blocks ->
  exists us r ublocks tss,
    scan U globals0 (concat vs) = Some (us, r, globals0) /\ map su_val us = vs
    /\ map (map su_val) ublocks = blocks /\ Forall2 (tokenized U) ublocks tss
    /\ lex_text U globals0 (concat vs) = Ret (concat tss, globals0).
Proof.
  intros vs blocks Hw Hp.
  destruct (scan_roundtrip U HU globals0 vs Hw) as (us & r & g & Esc & Hvals & _).
  destruct (scan_spec U HU globals0 (concat vs)) as (us2 & r2 & g2 & ps & tail & E2 & _ & _ & Hs).
  rewrite Esc in E2. injection E2 as <- <- <-.
  destruct (scanned_chain _ _ _ _ _ _ Hs) as [Hc Hend].
  { intros u Hu. apply (proto_file_last vs blocks Hp). rewrite <- Hvals, <- map_rev.
    destruct (rev us); [discriminate|]. cbn in *. injection Hu as ->. reflexivity. }
  change (region_of globals0) with (false, false, 0%Z) in *.
  destruct (lex_file vs blocks Hp us us 0 (S (length us)) Hvals Hc) as (Eend & ub & tss & Hub & Htss & El).
  - apply forall_map_iff. rewrite Hvals. apply well_separated_shapes. exact Hw.
  - reflexivity.
  - lia.
  - exact I.
  - lia.
  - rewrite Eend in Hend.
    assert (Hg : g = globals0).
    { destruct g as [gb gd gl]. unfold region_of in Hend. cbn in Hend. inversion Hend; reflexivity. }
    subst g. exists us, r, ub, tss. split; [exact Esc|]. split; [exact Hvals|]. split; [exact Hub|].
    split; [exact Htss|]. unfold lex_text. rewrite Esc. unfold lex_units.
    change (new_scanner us) with (after_units us 0). rewrite El. reflexivity.
Qed.

Lemma tokenized_text : forall us ts, tokenized U us ts ->
  concat (map tk_value ts) = concat (map su_val us).
Proof.
  intros us ts H. induction H; cbn [map concat tk_value]; [reflexivity|rewrite IHtokenized; reflexivity|].
  rewrite IHtokenized, map_app, concat_app, app_assoc. reflexivity.
Qed.

Lemma tokenized_all_text : forall ubs tss, Forall2 (tokenized U) ubs tss ->
  concat (map tk_value (concat tss)) = concat (concat (map (map su_val) ubs)).
Proof.
  intros ubs tss H. induction H as [|ub ts ubs tss H1 H2 IH]; [reflexivity|].
  cbn [concat map]. rewrite map_app, !concat_app, IH, (tokenized_text _ _ H1). reflexivity.
Qed.

(** ** Termination, and when a panic can happen *)
Lemma skipn_nth : forall A (l : list A) n x, nth_error l n = Some x -> skipn n l = x :: skipn (S n) l.
Proof.
  induction l as [|y l IH]; intros [|n] x H; try discriminate; [injection H as ->; reflexivity|].
  cbn [skipn nth_error] in *. rewrite (IH n x H). destruct l; reflexivity.
Qed.

Lemma dangling_more : forall c u, is_comment (su_val c) -> dangling_run U u -> dangling_run U (c :: u).
Proof.
  intros c u Hc (c' & t & -> & Hc' & [H|(t' & w & -> & H & Hw)]).
  - exists c, (c' :: t). split; [reflexivity|]. split; [exact Hc|]. left. constructor; assumption.
  - exists c, (c' :: t' ++ [w]). split; [reflexivity|]. split; [exact Hc|]. right. exists (c' :: t'), w.
    split; [reflexivity|]. split; [constructor; assumption|exact Hw].
Qed.
Lemma dangling_more2 : forall c w0 u, is_comment (su_val c) -> blank U (su_val w0) -> ~ In c_nl (su_val w0) ->
  dangling_run U u -> dangling_run U (c :: w0 :: u).
Proof.
  intros c w0 u Hc Hb Hn (c' & t & -> & Hc' & [H|(t' & w & -> & H & Hw)]).
  - exists c, (w0 :: c' :: t). split; [reflexivity|]. split; [exact Hc|]. left. constructor; assumption.
  - exists c, (w0 :: c' :: t' ++ [w]). split; [reflexivity|]. split; [exact Hc|]. right. exists (w0 :: c' :: t'), w.
    split; [reflexivity|]. split; [constructor; assumption|exact Hw].
Qed.

Lemma comment_loop_total : forall fuel buf n acc u,
  Forall (fun u => su_val u <> []) buf -> nth_error buf n = Some u -> is_comment (su_val u) ->
  length buf - S n < fuel ->
  (exists v m, comment_loop U fuel (after_units buf (S n)) acc = Ret (v, after_units buf m)
     /\ S n <= m <= length buf)
  \/ (comment_loop U fuel (after_units buf (S n)) acc = Panic /\ dangling_run U (skipn n buf)).
Proof.
  induction fuel as [|fuel IH]; intros buf n acc u Hne Hu Hc Hf; [lia|].
  assert (Hlt : n < length buf) by (apply nth_error_Some; congruence).
  cbn [comment_loop]. rewrite after_units_pos by lia. rewrite read_after by lia.
  destruct (nth_error buf (S n)) as [one|] eqn:E1.
  2:{ right. split; [reflexivity|]. apply nth_error_None in E1.
      rewrite (skipn_nth _ _ _ _ Hu), skipn_all2 by exact E1. exists u, []. split; [reflexivity|]. split; [exact Hc|]. left. constructor. }
  assert (Hlt1 : S n < length buf) by (apply nth_error_Some; congruence).
  destruct (is_comment_unit (su_val one)) eqn:Ec.
  { apply is_comment_unit_iff in Ec. destruct (IH buf (S n) (acc ++ su_val one) one Hne E1 Ec) as [(v & m & E & Hm)|H].
    - lia.
    - left. exists v, m. split; [exact E|lia].
    - right. destruct H as [H1 H2]. split; [exact H1|]. rewrite (skipn_nth _ _ _ _ Hu). apply dangling_more; assumption. }
  destruct (su_val one) as [|ch s] eqn:Ev.
  { exfalso. rewrite Forall_forall in Hne. apply (Hne one); [eapply nth_error_In; exact E1|exact Ev]. }
  assert (Hback : forall k, S n <= k <= length buf ->
    unread_to_position (after_units buf k) (S n) = Ret (after_units buf (S n), false))
    by (intros k Hk; apply unread_to_after; lia).
  destruct (u_space U ch) eqn:Es.
  2:{ left. rewrite Hback by lia. exists acc, (S n). split; [reflexivity|lia]. }
  destruct (Nat.eqb (count1 (ch :: s) c_nl) 0) eqn:En.
  2:{ left. rewrite Hback by lia. exists acc, (S n). split; [reflexivity|lia]. }
  rewrite read_after by lia.
  destruct (nth_error buf (S (S n))) as [two|] eqn:E2.
  2:{ right. split; [reflexivity|]. apply nth_error_None in E2.
      rewrite (skipn_nth _ _ _ _ Hu), (skipn_nth _ _ _ _ E1), skipn_all2 by exact E2.
      exists u, [one]. split; [reflexivity|]. split; [exact Hc|]. right. exists [], one. split; [reflexivity|].
      split; [constructor|]. rewrite Ev. split; [exact Es|]. apply count1_zero. exact En. }
  assert (Hlt2 : S (S n) < length buf) by (apply nth_error_Some; congruence).
  destruct (is_comment_unit (su_val two)) eqn:Ec2.
  - apply is_comment_unit_iff in Ec2.
    destruct (IH buf (S (S n)) (acc ++ (ch :: s) ++ su_val two) two Hne E2 Ec2) as [(v & m & E & Hm)|H].
    + lia.
    + left. exists v, m. split; [exact E|lia].
    + right. destruct H as [H1 H2]. split; [exact H1|].
      rewrite (skipn_nth _ _ _ _ Hu), (skipn_nth _ _ _ _ E1). apply dangling_more2; try assumption.
      * rewrite Ev. exact Es.
      * rewrite Ev. apply count1_zero. exact En.
  - left. rewrite Hback by lia. exists acc, (S n). split; [reflexivity|lia].
Qed.

Lemma classify_total : forall buf n u, Forall (fun u => su_val u <> []) buf -> nth_error buf n = Some u ->
  (exists g m, classify_unit U (su_val u) (after_units buf (S n)) = Ret (g, after_units buf m)
     /\ S n <= m <= length buf)
  \/ (classify_unit U (su_val u) (after_units buf (S n)) = Panic /\ dangling_run U (skipn n buf)).
Proof.
  intros buf n u Hne Hu. assert (Hlt : n < length buf) by (apply nth_error_Some; congruence).
  assert (Hpl : forall g : token_group, exists g0 m, Ret (g, after_units buf (S n)) = Ret (g0, after_units buf m)
                 /\ S n <= m <= length buf).
  { intro g. exists g, (S n). split; [reflexivity|lia]. }
  unfold classify_unit. destruct (su_val u) as [|c more] eqn:Ev.
  { left. apply Hpl. }
  destruct (u_space U c); [left; apply Hpl|]. destruct (is_ident U c); [left; apply Hpl|].
  destruct (N.eqb c c_dquote); [left; apply Hpl|]. destruct (N.eqb c c_lparen); [left; apply Hpl|].
  destruct (N.eqb c c_rparen); [left; apply Hpl|]. destruct (N.eqb c c_lbrace); [left; apply Hpl|].
  destruct (N.eqb c c_rbrace); [left; apply Hpl|].
  destruct more as [|d more]; [left; apply Hpl|].
  destruct (N.eqb_spec c c_slash) as [->|]; [|left; apply Hpl].
  rewrite after_units_buf, after_units_pos by lia.
  destruct (comment_loop_total (S (length buf - S n)) buf n (c_slash :: d :: more) u Hne Hu) as [(v & m & E & Hm)|[E Hb]].
  - exists d, more. exact Ev.
  - lia.
  - left. rewrite E. eexists _, m. split; [reflexivity|exact Hm].
  - right. rewrite E. auto.
Qed.

Lemma ff_total : forall fuel buf n, n <= length buf -> length buf - n < fuel ->
  (exists q s, fast_forward_loop fuel (after_units buf n) = Ret (s, false) /\ n <= q < length buf
     /\ exists u, nth_error buf q = Some u /\ su_val u = T "service" /\ read_unit s = (Some (su_val u), after_units buf (S q)))
  \/ (fast_forward_loop fuel (after_units buf n) = Ret (after_units buf (length buf), true)).
Proof.
  induction fuel as [|fuel IH]; intros buf n Hn Hf; [lia|]. cbn [fast_forward_loop].
  rewrite read_after by exact Hn. destruct (nth_error buf n) as [u|] eqn:E.
  - assert (Hlt : n < length buf) by (apply nth_error_Some; congruence).
    destruct (str_eqb (su_val u) (T "service")) eqn:Esv.
    + left. exists n. eexists. split; [reflexivity|]. split; [lia|]. exists u. split; [exact E|].
      split; [apply str_eqb_eq; exact Esv|].
      rewrite after_units_buf, after_units_pos by lia. unfold read_unit. cbn [sc_buf sc_pos].
      replace (S n - 1) with n by lia. rewrite E. cbn [after_units]. rewrite E. reflexivity.
    + destruct (IH buf (S n)) as [(q & s & E1 & Hq & Hu)|E1]; [lia|lia| |right; exact E1].
      left. exists q, s. split; [exact E1|]. split; [lia|exact Hu].
  - right. apply nth_error_None in E. replace n with (length buf) by lia. reflexivity.
Qed.

Definition state_inside (s : scanner) : Prop :=
  sc_brace s <> 0%Z \/ sc_def s = true \/ sc_body s = true.

Lemma ntg_total : forall buf n, Forall (fun u => su_val u <> []) buf -> n <= length buf ->
  (exists g m, new_token_group U (after_units buf n) = Ret (g, after_units buf m) /\ n < m <= length buf)
  \/ (exists l s, new_token_group U (after_units buf n) = Ret (mkTok TEOF [] l, s))
  \/ (new_token_group U (after_units buf n) = Panic /\ dangling_run U (skipn n buf)
      /\ state_inside (after_units buf n)).
Proof.
  intros buf n Hne Hn.
  assert (Hread : 
    let o := match read_unit (after_units buf n) with
             | (None, s2) => Ret (mkTok TEOF [] (sc_line s2), s2)
             | (Some unit, s2) => classify_unit U unit s2
             end in
    (exists g m, o = Ret (g, after_units buf m) /\ n < m <= length buf)
    \/ (exists l s, o = Ret (mkTok TEOF [] l, s)) \/ (o = Panic /\ dangling_run U (skipn n buf))).
  { rewrite read_after by lia. destruct (nth_error buf n) as [u|] eqn:E.
    - destruct (classify_total buf n u Hne E) as [(g & m & E1 & Hm)|H].
      + left. exists g, m. split; [exact E1|lia].
      + right; right. exact H.
    - right; left. eexists _, _. reflexivity. }
  cbv zeta in Hread.
  unfold new_token_group. destruct (Z.eqb_spec (sc_brace (after_units buf n)) 0) as [Eb|Eb].
  2:{ destruct Hread as [H|[H|[H1 H2]]]; auto. right; right. split; [exact H1|]. split; [exact H2|]. left. exact Eb. }
  unfold fast_forward. destruct (sc_body (after_units buf n) || sc_def (after_units buf n)) eqn:Ebd.
  { destruct Hread as [H|[H|[H1 H2]]]; auto. right; right. split; [exact H1|]. split; [exact H2|].
    right. apply orb_true_iff in Ebd. tauto. }
  rewrite after_units_buf, after_units_pos by exact Hn.
  destruct (ff_total (S (length buf - n)) buf n Hn) as [(q & s & -> & Hq & u & Hu & Hsv & Hr)| -> ]; [lia| |].
  - rewrite Hr. destruct (classify_total buf q u Hne Hu) as [(g & m & E1 & Hm)|[_ H]].
    + left. exists g, m. split; [exact E1|lia].
    + exfalso. destruct H as (c & t & E & (d & s' & Ec) & _). rewrite (skipn_nth _ _ _ _ Hu) in E.
      injection E as <- _. rewrite Hsv in Ec. discriminate.
  - right; left. eexists _, _. reflexivity.
Qed.

Lemma inside_dangling : forall buf n, n <= length buf -> dangling_run U (skipn n buf) ->
  state_inside (after_units buf n) -> dangling_comment U buf.
Proof.
  intros buf [|n] Hn Hd Hi.
  - destruct Hi as [H|[H|H]]; cbn in H; congruence.
  - destruct (nth_error buf n) as [x|] eqn:E; [|apply nth_error_None in E; lia].
    exists (firstn n buf), x, (skipn (S n) buf). split; [|split; [exact Hd|]].
    + rewrite <- (skipn_nth _ _ _ _ E). symmetry. apply firstn_skipn.
    + unfold state_inside in Hi. cbn [after_units] in Hi. rewrite E in Hi. exact Hi.
Qed.

Lemma lex_loop_total : forall fuel buf n, Forall (fun u => su_val u <> []) buf -> n <= length buf ->
  length buf - n < fuel ->
  (exists ts, lex_loop U fuel (after_units buf n) = Ret ts /\ length ts <= length buf - n)
  \/ (lex_loop U fuel (after_units buf n) = Panic /\ dangling_comment U buf).
Proof.
  induction fuel as [|fuel IH]; intros buf n Hne Hn Hf; [lia|]. cbn [lex_loop].
  destruct (ntg_total buf n Hne Hn) as [(g & m & -> & Hm)|[(l & s & ->)|( -> & Hb & Hi)]].
  - destruct (IH buf m Hne) as [(ts & E & Hl)|[E Hb]]; [lia|lia| |].
    + left. rewrite E. destruct (tk_token g); eexists; (split; [reflexivity|cbn [length]; lia]).
    + rewrite E. destruct (tk_token g); first [right; auto; fail | left; exists []; split; [reflexivity|cbn; lia] | right; auto].
  - left. exists []. split; [reflexivity|cbn; lia].
  - right. split; [reflexivity|]. apply (inside_dangling buf n); assumption.
Qed.

Lemma lex_units_total : forall buf, Forall (fun u => su_val u <> []) buf ->
  (exists ts, lex_units U buf = Ret ts /\ length ts <= length buf)
  \/ (lex_units U buf = Panic /\ dangling_comment U buf).
Proof.
  intros buf H. unfold lex_units. change (new_scanner buf) with (after_units buf 0).
  destruct (lex_loop_total (S (length buf)) buf 0 H) as [(ts & E & Hl)|H2]; [lia|lia| |right; exact H2].
  left. exists ts. split; [exact E|lia].
Qed.

End WithUnicode.
