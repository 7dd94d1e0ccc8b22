(** Comment runs: the token of a maximal run, and that the tokenization is determined. *)
From Verif Require Import GoStr GoStrProofs Scanner ScannerSpec Lexer LexerSpec.

Section S.
Variable U : unicode.
Hypothesis HU : unicode_ok U.

Lemma blank_not_comment : forall v, blank U v -> ~ is_comment v.
Proof.
  intros v Hb (d & s & ->). cbn in Hb. destruct (proj1 HU c_slash) as (_ & _ & H); [reflexivity|].
  rewrite H in Hb. discriminate.
Qed.

(** A proper prefix of a run's tail, cut before a comment. *)
Lemma run_tail_cut : forall t, run_tail U t -> forall p c q, t = p ++ c :: q -> is_comment (su_val c) ->
  p = [] \/ (exists a x, p = a ++ [x] /\ is_comment (su_val x))
  \/ (exists w, p = [w] /\ blank U (su_val w) /\ ~ In c_nl (su_val w))
  \/ (exists a y w, p = a ++ [y; w] /\ is_comment (su_val y) /\ blank U (su_val w) /\ ~ In c_nl (su_val w)).
Proof.
  intros t Ht. induction Ht as [|c0 t Hc0 Ht IH|w c0 t Hb Hn Hc0 Ht IH]; intros p c q E Hc.
  - destruct p; discriminate.
  - destruct p as [|x p]; [left; reflexivity|]. cbn [app] in E. injection E as -> E.
    right. destruct (IH p c q E Hc) as [->|[(a & y & -> & Hy)|[(w & -> & Hw & Hwn)|(a & y & w & -> & Hy & Hw & Hwn)]]].
    + left. exists [], x. auto.
    + left. exists (x :: a), y. auto.
    + right; right. exists [], x, w. auto.
    + right; right. exists (x :: a), y, w. auto.
  - destruct p as [|x p]; [left; reflexivity|]. cbn [app] in E. injection E as -> E. right.
    destruct p as [|y p].
    + right; left. exists x. auto.
    + cbn [app] in E. injection E as -> E.
      destruct (IH p c q E Hc) as [->|[(a & z & -> & Hz)|[(w & -> & Hw & Hwn)|(a & z & w & -> & Hz & Hw & Hwn)]]].
      * left. exists [x], y. auto.
      * left. exists (x :: y :: a), z. auto.
      * right; right. exists [x], y, w. auto.
      * right; right. exists (x :: y :: a), z, w. auto.
Qed.

Lemma run_tail_ends_comment : forall t c, is_comment (su_val c) -> run_tail U t ->
  exists a x, c :: t = a ++ [x] /\ is_comment (su_val x).
Proof.
  intros t c Hc Ht. revert c Hc. induction Ht as [|c0 t Hc0 Ht IH|w c0 t Hb Hn Hc0 Ht IH]; intros c Hc.
  - exists [], c. auto.
  - destruct (IH c0 Hc0) as (a & x & E & Hx). exists (c :: a), x. rewrite E. auto.
  - destruct (IH c0 Hc0) as (a & x & E & Hx). exists (c :: w :: a), x. cbn [app]. rewrite E. auto.
Qed.

Lemma app_cut : forall A (a b c d : list A), a ++ b = c ++ d ->
  (exists m, c = a ++ m /\ b = m ++ d) \/ (exists m, m <> [] /\ a = c ++ m /\ d = m ++ b).
Proof.
  induction a as [|x a IH]; intros b c d E; cbn [app] in E.
  - left. exists c. auto.
  - destruct c as [|y c]; cbn [app] in E.
    + right. exists (x :: a). split; [discriminate|]. auto.
    + injection E as -> E. destruct (IH _ _ _ E) as [(m & -> & ->)|(m & Hm & -> & ->)]; [left|right]; exists m; auto.
Qed.

Lemma tokenized_cut : forall us ts, tokenized U us ts -> forall pre c rest,
  us = pre ++ c :: rest -> is_comment (su_val c) -> begins_run U pre ->
  exists ts1 ts2, ts = ts1 ++ ts2 /\ tokenized U (c :: rest) ts2.
Proof.
  intros us ts H. induction H as [|u us k ts Hu Hk H IH|c0 t rest' ts Hc0 Ht He H IH]; intros pre c rest E Hc Hb.
  - destruct pre; discriminate.
  - destruct pre as [|x pre]; cbn [app] in E; injection E as -> E.
    + congruence.
    + subst us. destruct (IH pre c rest eq_refl Hc) as (ts1 & ts2 & -> & H2).
      { destruct Hb as [B1 B2]. split.
        - intros a y ->. apply (B1 (x :: a)). reflexivity.
        - intros a y z ->. apply (B2 (x :: a)). reflexivity. }
      eexists (_ :: ts1), ts2. split; [reflexivity|exact H2].
  - destruct pre as [|x pre]; cbn [app] in E.
    { eexists [], _. split; [reflexivity|]. rewrite <- E. constructor; assumption. }
    injection E as -> E. destruct (app_cut _ _ _ _ _ E) as [(m & -> & ->)|(m & Hm & -> & E2)].
    + destruct (IH m c rest eq_refl Hc) as (ts1 & ts2 & -> & H2).
      { destruct Hb as [B1 B2]. split.
        - intros a y ->. apply (B1 (x :: t ++ a)). cbn [app]. rewrite <- app_assoc. reflexivity.
        - intros a y z ->. apply (B2 (x :: t ++ a)). cbn [app]. rewrite <- app_assoc. reflexivity. }
      eexists (_ :: ts1), ts2. split; [reflexivity|exact H2].
    + exfalso. destruct m as [|m0 m]; [congruence|]. cbn [app] in E2. injection E2 as -> E2.
      destruct Hb as [B1 B2].
      destruct (run_tail_cut _ Ht pre m0 m eq_refl Hc) as [->|[(a & y & -> & Hy)|[(w & -> & Hw & Hwn)|(a & y & w & -> & Hy & Hw & Hwn)]]].
      * apply (B1 [] x eq_refl Hc0).
      * apply (B1 (x :: a) y eq_refl Hy).
      * apply Hwn. apply (B2 [] x w eq_refl Hc0 Hw).
      * apply Hwn. apply (B2 (x :: a) y w eq_refl Hy Hw).
Qed.

(** Two descriptions of the same run agree. *)
Lemma run_unique : forall t1, run_tail U t1 -> forall r1 t2 r2, run_tail U t2 ->
  ends_run U r1 -> ends_run U r2 -> t1 ++ r1 = t2 ++ r2 -> t1 = t2 /\ r1 = r2.
Proof.
  intros t1 H1. induction H1 as [|c t Hc Ht IH|w c t Hb Hn Hc Ht IH]; intros r1 t2 r2 H2 E1 E2 E.
  - destruct H2 as [|c' t' Hc' Ht'|w' c' t' Hb' Hn' Hc' Ht']; [auto| |]; exfalso; cbn [app] in E; subst r1; cbn in E1.
    + tauto.
    + destruct E1 as [_ E1]. apply (E1 Hb' Hn'). exact Hc'.
  - destruct H2 as [|c' t' Hc' Ht'|w' c' t' Hb' Hn' Hc' Ht']; cbn [app] in E.
    + exfalso. subst r2. cbn in E2. tauto.
    + injection E as -> E. destruct (IH _ _ _ Ht' E1 E2 E) as [-> ->]. auto.
    + exfalso. injection E as -> E. apply (blank_not_comment _ Hb' Hc).
  - destruct H2 as [|c' t' Hc' Ht'|w' c' t' Hb' Hn' Hc' Ht']; cbn [app] in E.
    + exfalso. subst r2. cbn in E2. destruct E2 as [_ E2]. apply (E2 Hb Hn). exact Hc.
    + exfalso. injection E as -> E. apply (blank_not_comment _ Hb Hc').
    + injection E as -> -> E. destruct (IH _ _ _ Ht' E1 E2 E) as [-> ->]. auto.
Qed.

Lemma tokenized_comment_inv : forall c t rest ts, is_comment (su_val c) -> run_tail U t -> ends_run U rest ->
  tokenized U (c :: t ++ rest) ts ->
  exists ts', ts = mkTok COMMENT (concat (map su_val (c :: t))) (su_line (last t c)) :: ts'
    /\ tokenized U rest ts'.
Proof.
  intros c t rest ts Hc Ht He H. inversion H as [|u us k ts' Hu Hk H'|c0 t0 r0 ts' Hc0 Ht0 He0 H']; subst.
  - congruence.
  - destruct (run_unique _ Ht0 _ _ _ Ht He0 He) as [-> ->]; [assumption|]. exists ts'. auto.
Qed.

(** The comment token of a maximal run. *)
Lemma comment_run_token : forall pre c t rest ts, tokenized U (pre ++ c :: t ++ rest) ts ->
  is_comment (su_val c) -> begins_run U pre -> run_tail U t -> ends_run U rest ->
  exists ts1 ts2, ts = ts1 ++ mkTok COMMENT (concat (map su_val (c :: t))) (su_line (last t c)) :: ts2
    /\ tokenized U rest ts2.
Proof.
  intros pre c t rest ts H Hc Hb Ht He.
  destruct (tokenized_cut _ _ H pre c (t ++ rest) eq_refl Hc Hb) as (ts1 & ts2 & -> & H2).
  destruct (tokenized_comment_inv _ _ _ _ Hc Ht He H2) as (ts' & -> & H3). exists ts1, ts'. auto.
Qed.

Lemma unit_token_fun : forall v k1 k2, unit_token U v k1 -> unit_token U v k2 -> k1 = k2.
Proof.
  assert (Hsi : forall c, u_space U c = true -> ident_rune U c -> False).
  { intros c Hs Hi. destruct (proj2 HU c Hs) as [H1 H2]. destruct Hi as [H|[H|H]]; try congruence.
    subst c. destruct (proj1 HU c_underscore) as (_ & _ & H); [reflexivity|]. rewrite H in Hs. discriminate. }
  assert (Hp : forall c, In c [c_dquote; c_lparen; c_rparen; c_lbrace; c_rbrace] ->
                u_space U c = false /\ ~ ident_rune U c).
  { intros c Hc. assert (c < 128)%N as Hlt.
    { cbn in Hc. repeat destruct Hc as [<-|Hc]; try reflexivity. destruct Hc. }
    destruct (proj1 HU c Hlt) as (H1 & H2 & H3). unfold ident_rune. rewrite H1, H2, H3.
    cbn in Hc. repeat destruct Hc as [<-|Hc]; try (split; [reflexivity|]; intros [H|[H|H]]; discriminate). destruct Hc. }
  intros v k1 k2 H1 H2.
  inversion H1; subst; inversion H2; subst; try reflexivity; exfalso;
    repeat match goal with
    | H : u_space U _ = true, H' : ident_rune U _ |- _ => apply (Hsi _ H H')
    | H : u_space U ?c = true |- _ => let P := fresh in
        assert (P : u_space U c = false) by (apply Hp; cbn; tauto); congruence
    | H : ident_rune U ?c |- _ => let P := fresh in
        assert (P : ~ ident_rune U c) by (apply Hp; cbn; tauto); exact (P H)
    | H : ~ In _ _ |- _ => apply H; cbn; tauto
    | _ => contradiction || congruence || discriminate
    end.
Qed.

Lemma tokenized_fun : forall us ts, tokenized U us ts -> forall ts', tokenized U us ts' -> ts = ts'.
Proof.
  intros us ts H. induction H as [|u us k ts Hu Hk H IH|c t rest ts Hc Ht He H IH]; intros ts' H'.
  - inversion H'. reflexivity.
  - inversion H' as [|u' us' k' ts'' Hu' Hk' H''|c' t' r' ts'' Hc' Ht' He' H'']; subst; [|congruence].
    rewrite (unit_token_fun _ _ _ Hk Hk'), (IH _ H''). reflexivity.
  - destruct (tokenized_comment_inv _ _ _ _ Hc Ht He H') as (ts2 & -> & H2). rewrite (IH _ H2). reflexivity.
Qed.
End S.
