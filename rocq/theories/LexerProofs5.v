(** Assembled facts behind the lexer properties. *)
From Verif Require Import GoStr GoStrProofs Scanner ScannerSpec ScanRun ScannerProofs Lexer LexerSpec LexRun
  LexerProofs LexerProofs2 LexerProofs3 LexerProofs4.

Lemma c08_main : forall U vs blocks, unicode_ok U -> well_separated U vs -> proto_file vs blocks ->
  exists ublocks tss, map (map su_val) ublocks = blocks
    /\ Forall2 (tokenized U) ublocks tss
    /\ lex_text U globals0 (concat vs) = Ret (concat tss, globals0)
    /\ concat (map tk_value (concat tss)) = concat (concat blocks).
Proof.
  intros U vs blocks HU Hw Hp.
  destruct (lex_proto_file U HU vs blocks Hw Hp) as (us & r & ub & tss & _ & _ & Hb & Ht & El).
  exists ub, tss. split; [exact Hb|]. split; [exact Ht|]. split; [exact El|].
  rewrite (tokenized_all_text U ub tss Ht), Hb. reflexivity.
Qed.

Lemma c09_main : forall U g text, unicode_ok U ->
  exists us r g', scan U g text = Some (us, r, g') /\
  ((exists ts, lex_text U g text = Ret (ts, g') /\ length ts <= length us)
   \/ (lex_text U g text = Panic /\ dangling_comment U us)).
Proof.
  intros U g text HU.
  destruct (scan_spec U HU g text) as (us & r & g' & ps & tail & E & Ht & _ & Hs).
  exists us, r, g'. split; [exact E|]. unfold lex_text. rewrite E.
  destruct (lex_units_total U us (proj1 (scanned_nonempty _ _ _ _ _ _ Hs))) as [(ts & -> & Hl)|[-> Hd]].
  - left. exists ts. auto.
  - right. auto.
Qed.

Lemma tokenized_cut_text : forall U us ts pre c rest, unicode_ok U -> tokenized U us ts ->
  us = pre ++ c :: rest -> forall ts1 ts2, ts = ts1 ++ ts2 -> tokenized U (c :: rest) ts2 ->
  concat (map tk_value ts1) = concat (map su_val pre).
Proof.
  intros U us ts pre c rest HU H E ts1 ts2 Ets H2.
  pose proof (tokenized_text U us ts H) as H1. pose proof (tokenized_text U _ _ H2) as H3.
  rewrite Ets, E, !map_app, !concat_app, H3 in H1. apply app_inv_tail in H1. exact H1.
Qed.

Lemma forall2_nth : forall A B (R : A -> B -> Prop) la lb, Forall2 R la lb ->
  forall i a b, nth_error la i = Some a -> nth_error lb i = Some b -> R a b.
Proof.
  intros A B R la lb H. induction H; intros [|i] x0 y0 Hx Hy; try discriminate.
  - injection Hx as <-. injection Hy as <-. assumption.
  - eapply IHForall2; eassumption.
Qed.

Lemma forall2_len : forall A B (R : A -> B -> Prop) la lb, Forall2 R la lb -> length la = length lb.
Proof. intros A B R la lb H. induction H; cbn; congruence. Qed.

Lemma c10_main : forall U vs blocks, unicode_ok U -> well_separated U vs -> proto_file vs blocks ->
  exists ublocks tss, map (map su_val) ublocks = blocks
    /\ lex_text U globals0 (concat vs) = Ret (concat tss, globals0)
    /\ length ublocks = length tss
    /\ forall i ub ts, nth_error ublocks i = Some ub -> nth_error tss i = Some ts ->
       forall pre c t rest, ub = pre ++ c :: t ++ rest -> is_comment (su_val c) ->
       begins_run U pre -> run_tail U t -> ends_run U rest ->
       exists ts1 ts2, ts = ts1 ++ mkTok COMMENT (concat (map su_val (c :: t))) (su_line (last t c)) :: ts2
         /\ concat (map tk_value ts1) = concat (map su_val pre)
         /\ tokenized U rest ts2.
Proof.
  intros U vs blocks HU Hw Hp.
  destruct (lex_proto_file U HU vs blocks Hw Hp) as (us & r & ub & tss & _ & _ & Hb & Ht & El).
  exists ub, tss. split; [exact Hb|]. split; [exact El|]. split; [exact (forall2_len _ _ _ _ _ Ht)|].
  intros i u ts Hu Hts pre c t rest E Hc Hbr Hrt He. pose proof (forall2_nth _ _ _ _ _ Ht i u ts Hu Hts) as Htz.
  destruct (tokenized_cut U _ _ Htz pre c (t ++ rest) E Hc Hbr) as (ts1 & ts2 & -> & H2).
  pose proof (tokenized_cut_text U _ _ pre c (t ++ rest) HU Htz E ts1 ts2 eq_refl H2) as Hx.
  destruct (tokenized_comment_inv U HU c t rest _ Hc Hrt He H2) as (ts' & -> & H3).
  exists ts1, ts'. auto.
Qed.

Lemma c11_unget_to : forall ts os l p, lex_ops_run (new_lexer ts) os = Some l -> p <= lx_pos l ->
  exists l', unget_to_position l p = Ret (l', false) /\ lx_pos l' = p /\ lx_buf l' = ts
    /\ forall tk, nth_error ts p = Some tk ->
       exists l2, get_token l' = (tk_token tk, tk_value tk, l2) /\ lx_pos l2 = S p /\ lx_line l2 = tk_line tk.
Proof.
  intros ts os l p H Hp. destruct (lex_ops_inv os (new_lexer ts)) as (l0 & E & Hb & Hl); [cbn; lia|].
  rewrite H in E. injection E as <-. cbn in Hb, Hl.
  destruct (unget_to_spec l p Hp) as (l' & E1 & E2 & E3); [rewrite Hb; exact Hl|].
  exists l'. split; [exact E1|]. split; [exact E2|]. split; [congruence|].
  intros tk Htk. rewrite (get_token_some l' tk) by (rewrite E3, E2, Hb; exact Htk).
  eexists. split; [reflexivity|]. cbn. rewrite E2. auto.
Qed.
