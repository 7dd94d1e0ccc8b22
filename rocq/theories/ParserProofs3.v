(** From the text of a file to the parsed service. *)
From Verif Require Import GoStr GoStrProofs Scanner ScannerSpec Lexer LexerSpec LexRun LexerProofs2 LexerProofs4 LexerProofs5
  Unquote Parser ParserSpec ParserList ParserSim ParserProofs ParserProofs2.

Section S.
Variable U : unicode.
Hypothesis HU : unicode_ok U.

Lemma tail_units : forall t, comment_tail U t -> forall us, map su_val us = t -> run_tail U us.
Proof.
  intros t H. induction H as [|c t Hc Ht IH|w c t Hb Hn Hc Ht IH]; intros us E.
  - destruct us; [constructor|discriminate].
  - destruct us as [|u us]; [discriminate|]. injection E as E1 E2. subst c. constructor; auto.
  - destruct us as [|u [|u2 us]]; try discriminate. injection E as E1 E2 E3. subst w c. apply rt_space; auto.
Qed.
Lemma over_units : forall r, run_over U r -> forall us, map su_val us = r -> ends_run U us.
Proof.
  intros r H us E. destruct us as [|u us]; [subst r; exact H|]. subst r. cbn in *.
  destruct H as [H1 H2]. split; [exact H1|]. intros Hb Hn. specialize (H2 Hb Hn). destruct us; [exact H2|exact H2].
Qed.

Lemma spells_tokenized : forall vs s, spells U vs s -> forall us, map su_val us = vs ->
  exists ts, tokenized U us ts /\ without_space ts = s.
Proof.
  intros vs s H. induction H as [|v vs s Hb Hs IH|v k vs s Hc Ht Hk Hs IH|c t rest s Hc Ht Ho Hs IH]; intros us E.
  - destruct us; [|discriminate]. exists []. split; constructor.
  - destruct us as [|u us]; [discriminate|]. injection E as E1 E2. destruct (IH us E2) as (ts & H1 & H2).
    exists (mkTok WHITESPACE (su_val u) (su_line u) :: ts). subst v. split.
    + apply tz_unit; [apply (blank_not_comment U HU); exact Hb| |exact H1].
      destruct (su_val u) as [|c x]; [destruct Hb|]. apply ut_space. exact Hb.
    + exact H2.
  - destruct us as [|u us]; [discriminate|]. injection E as E1 E2. destruct (IH us E2) as (ts & H1 & H2).
    exists (mkTok k (su_val u) (su_line u) :: ts). subst v. split; [apply tz_unit; auto|].
    unfold without_space. cbn [filter significant tk_token].
    unfold significant at 1. cbn [tk_token]. destruct (token_eqb k WHITESPACE) eqn:Ek.
    + apply token_eqb_eq in Ek. congruence.
    + cbn [negb map stok_of tk_token tk_value]. f_equal. exact H2.
  - destruct us as [|u us]; [discriminate|]. injection E as E1 E2. subst c.
    apply map_app_inv in E2. destruct E2 as (ut & ur & -> & Et & Er).
    destruct (IH ur Er) as (ts & H1 & H2).
    exists (mkTok COMMENT (concat (map su_val (u :: ut))) (su_line (last ut u)) :: ts). split.
    + apply tz_comment; [exact Hc|eapply tail_units; eassumption|eapply over_units; eassumption|exact H1].
    + unfold without_space. cbn [filter significant tk_token negb token_eqb map].
      change (map stok_of (filter significant ts)) with (without_space ts). rewrite H2.
      unfold stok_of. cbn [tk_token tk_value]. cbn [map]. rewrite Et. reflexivity.
Qed.

Lemma aservice_parse : forall ts sv rest, service_ok sv -> without_space ts = write_service sv ++ rest ->
  exists l, parse_service (new_lexer ts) = POk (mean_service sv) l.
Proof.
  intros ts sv rest Hok E. assert (Hw : wf ts (new_lexer ts)) by (split; [reflexivity|cbn; lia]).
  pose proof (service_rel ts _ Hw) as H. rewrite sig_new, E in H.
  destruct (aservice_ok sv rest Hok) as [s' E']. rewrite E' in H.
  destruct (parse_service (new_lexer ts)) as [a l| | |]; cbn in H; try contradiction.
  destruct H as (-> & _). exists l. reflexivity.
Qed.

Lemma parse_file : forall pre block post blocks sv,
  well_separated U (pre ++ block ++ post) -> service_free pre -> service_block block -> proto_file post blocks ->
  spells U block (write_service sv) -> service_ok sv ->
  exists l, parse_text U globals0 (concat (pre ++ block ++ post)) = Ret (POk (mean_service sv) l, globals0).
Proof.
  intros pre block post blocks sv Hw Hpre Hb Hpost Hsp Hok.
  destruct (c08_main U _ _ HU Hw (pf_service _ _ _ _ Hpre Hb Hpost)) as (ub & tss & Eb & Ht & El & _).
  destruct ub as [|u ub]; [discriminate|]. injection Eb as E1 E2.
  inversion Ht as [|x ts xs tss' H1 H2]; subst x xs tss.
  destruct (spells_tokenized _ _ Hsp u E1) as (ts' & H3 & H4).
  assert (ts' = ts) by (eapply tokenized_fun; eassumption). subst ts'.
  unfold parse_text. rewrite El.
  destruct (aservice_parse (concat (ts :: tss')) sv (without_space (concat tss')) Hok) as [l El'].
  - cbn [concat]. unfold without_space at 1. rewrite filter_app, map_app. f_equal. exact H4.
  - exists l. rewrite El'. reflexivity.
Qed.
End S.
