(** Proofs about the lexer model. *)
From Verif Require Import GoStr GoStrProofs Scanner ScannerSpec ScannerProofs ScannerProofs2 Lexer LexerSpec.

Lemma is_comment_unit_iff : forall v, is_comment_unit v = true <-> is_comment v.
Proof.
  intros [|c [|d s]]; cbn; split; try discriminate.
  - intros (? & ? & ?); discriminate.
  - intros (? & ? & ?); discriminate.
  - intro H. apply N.eqb_eq in H. subst. exists d, s. reflexivity.
  - intros (d' & s' & E). injection E as -> _ _. reflexivity.
Qed.
Lemma is_comment_unit_false : forall v, is_comment_unit v = false <-> ~ is_comment v.
Proof. intro v. rewrite <- is_comment_unit_iff. destruct (is_comment_unit v); split; congruence. Qed.

Lemma count1_zero : forall s c, Nat.eqb (count1 s c) 0 = true <-> ~ In c s.
Proof.
  intros s c. unfold count1. rewrite Nat.eqb_eq. induction s as [|x s IH]; cbn; [tauto|].
  destruct (N.eqb_spec c x) as [->|Hne]; cbn.
  - split; [discriminate|]. intro H. exfalso. apply H. left; reflexivity.
  - rewrite IH. split; intro H; [intros [E|E]; [congruence|tauto]|tauto].
Qed.

Lemma skipn_nth : forall A (l : list A) n x r, skipn n l = x :: r -> nth_error l n = Some x /\ skipn (S n) l = r.
Proof.
  induction l as [|y l IH]; intros n x r H; [destruct n; discriminate|].
  destruct n as [|n]; cbn [skipn] in H.
  - injection H as -> ->. split; reflexivity.
  - apply IH in H. exact H.
Qed.
Lemma skipn_nil_nth : forall A (l : list A) n, skipn n l = [] -> nth_error l n = None.
Proof.
  intros A l n H. apply nth_error_None. rewrite <- (firstn_skipn n l), H, app_nil_r.
  rewrite firstn_length. lia.
Qed.
Lemma skipn_app_add : forall A (l : list A) n a r, skipn n l = a ++ r -> skipn (n + length a) l = r.
Proof.
  intros A l n a. revert n. induction a as [|x a IH]; intros n r H; cbn [length app] in *.
  - rewrite Nat.add_0_r. exact H.
  - apply skipn_nth in H. destruct H as [_ H]. apply IH in H.
    replace (n + S (length a)) with (S n + length a) by lia. exact H.
Qed.
Lemma skipn_cons_lt : forall A (l : list A) n x r, skipn n l = x :: r -> n < length l.
Proof. intros A l n x r H. apply skipn_nth in H. destruct H as [H _]. apply nth_error_Some. congruence. Qed.

(** Whether the lexer, positioned after [n] units, considers itself inside a service. *)
Definition inside (u : scan_unit) : Prop := su_brace u <> 0%Z \/ su_def u = true \/ su_body u = true.
Definition inside_at (buf : list scan_unit) (n : nat) : Prop :=
  match n with
  | O => False
  | S p => match nth_error buf p with Some u => inside u | None => False end
  end.

Section WithUnicode.
Variable U : unicode.
Hypothesis HU : unicode_ok U.

Lemma read_skip : forall buf n u r, skipn n buf = u :: r ->
  read_unit (after_units buf n) = (Some (su_val u), after_units buf (S n)).
Proof.
  intros buf n u r H. pose proof (skipn_cons_lt _ _ _ _ _ H). apply skipn_nth in H. destruct H as [H _].
  rewrite read_after by lia. rewrite H. reflexivity.
Qed.

Lemma comment_loop_spec : forall t, run_tail U t -> forall buf rest n fuel acc,
  1 <= n -> skipn n buf = t ++ rest -> ends_run U rest ->
  Forall (fun u => su_val u <> []) buf -> length t < fuel ->
  comment_loop U fuel (after_units buf n) acc
  = Ret (acc ++ concat (map su_val t), after_units buf (n + length t)).
Proof.
  intros t Ht. induction Ht as [|c t Hc Ht IH|w c t Hw Hnl Hc Ht IH];
    intros buf rest n fuel acc Hn Hsk He Hne Hf; (destruct fuel as [|fuel]; [cbn in Hf; lia|]);
    cbn [comment_loop app length concat map] in *.
  - rewrite app_nil_r, Nat.add_0_r. destruct rest as [|u more]; [contradiction|].
    pose proof (skipn_cons_lt _ _ _ _ _ Hsk) as Hlt.
    rewrite (read_skip _ _ _ _ Hsk). destruct He as [Hnc Hsp].
    apply is_comment_unit_false in Hnc. rewrite Hnc.
    rewrite after_units_pos by lia.
    assert (Hback1 : unread_to_position (after_units buf (S n)) n = Ret (after_units buf n, false))
      by (apply unread_to_after; lia).
    destruct (su_val u) as [|ch s] eqn:Ev.
    { exfalso. apply skipn_nth in Hsk. destruct Hsk as [Hsk _].
      apply nth_error_In in Hsk. rewrite Forall_forall in Hne. apply (Hne u Hsk). exact Ev. }
    destruct (u_space U ch) eqn:Esp; [|rewrite Hback1; reflexivity].
    destruct (Nat.eqb (count1 (ch :: s) c_nl) 0) eqn:Enl; [|rewrite Hback1; reflexivity].
    apply count1_zero in Enl. specialize (Hsp Esp Enl).
    destruct more as [|v more]; [contradiction|].
    apply skipn_nth in Hsk. destruct Hsk as [_ Hsk].
    pose proof (skipn_cons_lt _ _ _ _ _ Hsk) as Hlt2.
    rewrite (read_skip _ _ _ _ Hsk).
    apply is_comment_unit_false in Hsp. rewrite Hsp.
    rewrite unread_to_after by lia. reflexivity.
  - rewrite (read_skip _ _ _ _ Hsk). apply is_comment_unit_iff in Hc. rewrite Hc.
    apply skipn_nth in Hsk. destruct Hsk as [_ Hsk].
    rewrite (IH buf rest (S n) fuel) by (try assumption; lia).
    rewrite <- app_assoc. do 2 f_equal. f_equal. lia.
  - pose proof (read_skip _ _ _ _ Hsk) as R1. rewrite R1.
    assert (Hncw : is_comment_unit (su_val w) = false).
    { apply is_comment_unit_false. intros (d & s & E). unfold blank in Hw. rewrite E in Hw. cbn in Hw.
      destruct (brace_facts U HU) as (_ & _ & _ & _ & Ss & _). congruence. }
    rewrite Hncw. destruct (su_val w) as [|ch s] eqn:Ev; [contradiction|].
    unfold blank in Hw. cbn in Hw. rewrite Hw.
    apply count1_zero in Hnl. rewrite Hnl.
    apply skipn_nth in Hsk. destruct Hsk as [_ Hsk].
    rewrite (read_skip _ _ _ _ Hsk). apply is_comment_unit_iff in Hc. rewrite Hc.
    apply skipn_nth in Hsk. destruct Hsk as [_ Hsk].
    rewrite (IH buf rest (S (S n)) fuel) by (try assumption; lia).
    rewrite <- !app_assoc. do 2 f_equal. f_equal. lia.
Qed.

Lemma unit_shape_token : forall v, unit_shape U v -> is_comment v \/ (~ is_comment v /\ exists k, unit_token U v k).
Proof.
  destruct (brace_facts U HU) as (Bs1 & Bs2 & Bi1 & Bi2 & Ss & Si & Qs & Qi & Hs0).
  intros v Hv. destruct Hv as [b Hb|b Hb|b Hb|s Hne Hs|s Hne Hs|c Hq Hns Hni].
  - left. eexists _, _. reflexivity.
  - left. eexists _, _. reflexivity.
  - right. split; [intros (d & s & E); discriminate|]. eexists. apply ut_string.
  - right. destruct s as [|c s]; [congruence|]. inversion Hs; subst.
    split; [intros (d & s' & E); injection E as -> _; congruence|]. eexists. apply ut_space. assumption.
  - right. destruct s as [|c s]; [congruence|]. inversion Hs as [|x l Hc Hs']; subst.
    split; [intros (d & s' & E); injection E as -> _; apply is_ident_iff in Hc; congruence|].
    eexists. apply ut_ident. assumption.
  - right. split; [intros (d & s' & E); discriminate|].
    destruct (N.eq_dec c c_lparen) as [->|H1]; [eexists; apply ut_lparen|].
    destruct (N.eq_dec c c_rparen) as [->|H2]; [eexists; apply ut_rparen|].
    destruct (N.eq_dec c c_lbrace) as [->|H3]; [eexists; apply ut_lbrace|].
    destruct (N.eq_dec c c_rbrace) as [->|H4]; [eexists; apply ut_rbrace|].
    exists SYMBOL. apply ut_symbol; try assumption. cbn. intuition congruence.
Qed.

Lemma paren_facts : u_space U c_lparen = false /\ u_space U c_rparen = false /\
  is_ident U c_lparen = false /\ is_ident U c_rparen = false.
Proof. rewrite !(space_ascii U HU), !(ident_ascii U HU) by reflexivity. cbn. repeat split. Qed.

Lemma classify_plain : forall v k s, ~ is_comment v -> unit_token U v k ->
  classify_unit U v s = Ret (mkTok k v (sc_line s), s).
Proof.
  destruct (brace_facts U HU) as (Bs1 & Bs2 & Bi1 & Bi2 & Ss & Si & Qs & Qi & Hs0).
  destruct paren_facts as (P1 & P2 & P3 & P4).
  intros v k s Hnc Ht. unfold classify_unit.
  destruct Ht as [c s' H|c s' H|s'| | | | |c H1 H2 H3].
  - rewrite H. reflexivity.
  - apply is_ident_iff in H. destruct (u_space U c) eqn:E.
    { pose proof (space_not_ident U HU _ E). congruence. }
    rewrite H. reflexivity.
  - rewrite Qs, Qi. reflexivity.
  - change (T "(") with [c_lparen]. cbv beta iota zeta. rewrite P1, P3. reflexivity.
  - change (T ")") with [c_rparen]. cbv beta iota zeta. rewrite P2, P4. reflexivity.
  - change (T "{") with [c_lbrace]. cbv beta iota zeta. rewrite Bs1, Bi1. reflexivity.
  - change (T "}") with [c_rbrace]. cbv beta iota zeta. rewrite Bs2, Bi2. reflexivity.
  - rewrite H1. apply is_ident_false in H2. rewrite H2. cbn in H3.
    destruct (N.eqb_spec c c_dquote); [exfalso; apply H3; subst; auto|].
    destruct (N.eqb_spec c c_lparen); [exfalso; apply H3; subst; auto|].
    destruct (N.eqb_spec c c_rparen); [exfalso; apply H3; subst; auto|].
    destruct (N.eqb_spec c c_lbrace); [exfalso; apply H3; subst; auto 6|].
    destruct (N.eqb_spec c c_rbrace); [exfalso; apply H3; subst; auto 7|].
    reflexivity.
Qed.

Lemma classify_comment : forall c t rest buf n, is_comment (su_val c) -> run_tail U t -> ends_run U rest ->
  Forall (fun u => su_val u <> []) buf -> skipn n buf = c :: t ++ rest ->
  classify_unit U (su_val c) (after_units buf (S n))
  = Ret (mkTok COMMENT (concat (map su_val (c :: t))) (su_line (last t c)),
         after_units buf (S n + length t)).
Proof.
  destruct (brace_facts U HU) as (Bs1 & Bs2 & Bi1 & Bi2 & Ss & Si & Qs & Qi & Hs0).
  intros c t rest buf n Hc Ht He Hne Hsk. destruct Hc as (d & s & Ev).
  pose proof (skipn_nth _ _ _ _ _ Hsk) as [Hn0 Hsk2].
  pose proof (skipn_cons_lt _ _ _ _ _ Hsk) as Hlt.
  unfold classify_unit. rewrite Ev. rewrite Ss, Si.
  replace (N.eqb c_slash c_dquote) with false by reflexivity.
  replace (N.eqb c_slash c_lparen) with false by reflexivity.
  replace (N.eqb c_slash c_rparen) with false by reflexivity.
  replace (N.eqb c_slash c_lbrace) with false by reflexivity.
  replace (N.eqb c_slash c_rbrace) with false by reflexivity.
  rewrite N.eqb_refl. rewrite (comment_loop_spec t Ht buf rest (S n)); try assumption; [|lia|].
  - cbn [map concat]. rewrite Ev. do 2 f_equal. f_equal.
    (* the line *)
    destruct t as [|u t] using rev_ind.
    + cbn [length last]. rewrite Nat.add_0_r. cbn [after_units]. rewrite Hn0. reflexivity.
    + clear IHt. rewrite last_last. rewrite app_length. cbn [length].
      replace (S n + (length t + 1)) with (S (S n + length t)) by lia.
      rewrite <- app_assoc in Hsk2. apply skipn_app_add in Hsk2. cbn [app] in Hsk2.
      apply skipn_nth in Hsk2. destruct Hsk2 as [Hu _]. cbn [after_units]. 
      replace (S (n + length t)) with (S n + length t) by lia. rewrite Hu. reflexivity.
  - rewrite after_units_pos, after_units_buf by lia.
    assert (length (t ++ rest) = length buf - S n) as Hl by (rewrite <- Hsk2, skipn_length; reflexivity).
    rewrite app_length in Hl. lia.
Qed.

(** NewTokenGroup away from and inside service definitions. *)
Lemma ntg_inside : forall buf n u r, inside_at buf n -> skipn n buf = u :: r ->
  new_token_group U (after_units buf n) = classify_unit U (su_val u) (after_units buf (S n)).
Proof.
  intros buf n u r Hin Hsk. unfold new_token_group.
  assert (Hff : sc_brace (after_units buf n) <> 0%Z \/ sc_body (after_units buf n) || sc_def (after_units buf n) = true).
  { destruct n as [|p]; [contradiction|]. cbn in Hin. cbn [after_units].
    destruct (nth_error buf p) as [u'|]; [|contradiction]. cbn.
    destruct Hin as [H|[H|H]]; [left; exact H|right; rewrite H; apply orb_true_r|right; rewrite H; reflexivity]. }
  rewrite (read_skip _ _ _ _ Hsk).
  destruct (Z.eqb_spec (sc_brace (after_units buf n)) 0) as [E|E]; [|reflexivity].
  destruct Hff as [H|H]; [contradiction|]. unfold fast_forward. rewrite H.
  rewrite (read_skip _ _ _ _ Hsk). reflexivity.
Qed.

Lemma ff_loop : forall j buf n fuel v r, skipn n buf = j ++ v :: r ->
  Forall (fun u => su_val u <> T "service") j -> su_val v = T "service" -> length j < fuel ->
  exists s, fast_forward_loop fuel (after_units buf n) = Ret (s, false)
    /\ read_unit s = (Some (T "service"), after_units buf (S (n + length j))).
Proof.
  induction j as [|u j IH]; intros buf n fuel v r Hsk Hj Hv Hf; (destruct fuel as [|fuel]; [cbn in Hf; lia|]);
    cbn [app] in Hsk; cbn [fast_forward_loop].
  - rewrite (read_skip _ _ _ _ Hsk), Hv. replace (str_eqb (T "service") (T "service")) with true by reflexivity.
    eexists. split; [reflexivity|].
    pose proof (skipn_cons_lt _ _ _ _ _ Hsk) as Hlt. apply skipn_nth in Hsk. destruct Hsk as [Hsk _].
    rewrite after_units_buf, after_units_pos by lia. cbn [length]. rewrite Nat.add_0_r.
    unfold read_unit. cbn [sc_buf sc_pos]. replace (S n - 1) with n by lia. rewrite Hsk, Hv.
    cbn [after_units]. rewrite Hsk. reflexivity.
  - rewrite (read_skip _ _ _ _ Hsk). inversion Hj as [|x l Hu Hj']; subst.
    apply str_eqb_neq in Hu. rewrite Hu. apply skipn_nth in Hsk. destruct Hsk as [_ Hsk].
    destruct (IH buf (S n) fuel v r Hsk Hj' Hv) as (s & E1 & E2); [cbn in Hf; lia|].
    exists s. split; [exact E1|]. rewrite E2. cbn [length]. do 2 f_equal. lia.
Qed.

Lemma ff_loop_eof : forall j buf n fuel, n <= length buf -> skipn n buf = j ->
  Forall (fun u => su_val u <> T "service") j -> length j < fuel ->
  fast_forward_loop fuel (after_units buf n) = Ret (after_units buf (n + length j), true).
Proof.
  induction j as [|u j IH]; intros buf n fuel Hn Hsk Hj Hf; (destruct fuel as [|fuel]; [cbn in Hf; lia|]);
    cbn [fast_forward_loop].
  - apply skipn_nil_nth in Hsk. rewrite read_after, Hsk by exact Hn. cbn. rewrite Nat.add_0_r. reflexivity.
  - rewrite (read_skip _ _ _ _ Hsk). inversion Hj as [|x l Hu Hj']; subst.
    apply str_eqb_neq in Hu. rewrite Hu. pose proof (skipn_cons_lt _ _ _ _ _ Hsk) as Hlt.
    apply skipn_nth in Hsk. destruct Hsk as [_ Hsk].
    rewrite IH; [|lia|assumption|assumption|cbn in Hf; lia]. do 2 f_equal. cbn [length]. f_equal. lia.
Qed.

Definition outside_at (buf : list scan_unit) (n : nat) : Prop :=
  match n with
  | O => True
  | S p => match nth_error buf p with
           | Some u => su_brace u = 0%Z /\ su_def u = false /\ su_body u = false
           | None => False
           end
  end.

Lemma outside_flags : forall buf n, outside_at buf n ->
  sc_brace (after_units buf n) = 0%Z /\ sc_body (after_units buf n) || sc_def (after_units buf n) = false.
Proof.
  intros buf [|p] H; [split; reflexivity|]. cbn in *. destruct (nth_error buf p); [|contradiction].
  cbn. destruct H as (H1 & H2 & H3). rewrite H2, H3. split; [exact H1|reflexivity].
Qed.

Lemma ntg_outside : forall buf n j v r, outside_at buf n -> n <= length buf ->
  skipn n buf = j ++ v :: r -> Forall (fun u => su_val u <> T "service") j -> su_val v = T "service" ->
  new_token_group U (after_units buf n)
  = Ret (mkTok IDENT (T "service") (su_line v), after_units buf (S (n + length j))).
Proof.
  intros buf n j v r Ho Hn Hsk Hj Hv. unfold new_token_group.
  destruct (outside_flags _ _ Ho) as [-> H2]. cbn [Z.eqb]. unfold fast_forward. rewrite H2.
  destruct (ff_loop j buf n (S (length (sc_buf (after_units buf n)) - sc_pos (after_units buf n))) v r Hsk Hj Hv)
    as (s & -> & ->).
  { rewrite after_units_buf, after_units_pos by exact Hn.
    assert (Hl : length (skipn n buf) = length (j ++ v :: r)) by (rewrite Hsk; reflexivity).
    rewrite skipn_length, app_length in Hl. cbn in Hl. lia. }
  rewrite (classify_plain (T "service") IDENT).
  - do 2 f_equal. f_equal. apply skipn_app_add in Hsk. apply skipn_nth in Hsk. destruct Hsk as [Hsk _].
    cbn [after_units]. rewrite Hsk. reflexivity.
  - intros (d & s' & E). discriminate.
  - apply (ut_ident U 115). apply is_ident_iff. apply (brace_facts U HU).
Qed.

Lemma ntg_eof : forall buf n, outside_at buf n -> n <= length buf ->
  Forall (fun u => su_val u <> T "service") (skipn n buf) ->
  exists l s, new_token_group U (after_units buf n) = Ret (mkTok TEOF [] l, s).
Proof.
  intros buf n Ho Hn Hj. unfold new_token_group.
  destruct (outside_flags _ _ Ho) as [-> H2]. cbn [Z.eqb]. unfold fast_forward. rewrite H2.
  rewrite (ff_loop_eof (skipn n buf)); [eexists _, _; reflexivity|exact Hn|reflexivity|exact Hj|].
  rewrite after_units_buf, after_units_pos, skipn_length by exact Hn. lia.
Qed.

(** One token of an inside stretch. *)
Definition prepend (ts : list token_group) (o : outcome (list token_group)) : outcome (list token_group) :=
  match o with Ret r => Ret (ts ++ r) | Panic => Panic | OutOfFuel => OutOfFuel end.

Lemma prepend_prepend : forall a b o, prepend a (prepend b o) = prepend (a ++ b) o.
Proof. intros a b [r| |]; cbn; try reflexivity. rewrite app_assoc. reflexivity. Qed.

Lemma unit_token_real : forall v k, unit_token U v k -> k <> ILLEGAL /\ k <> TEOF.
Proof. intros v k H; destruct H; split; discriminate. Qed.

(** The greedy split of a list of units into a comment run and the rest. *)
Lemma split_run : forall us last_u, ~ is_comment (su_val last_u) -> ~ blank U (su_val last_u) ->
  exists t rest, us ++ [last_u] = t ++ rest /\ run_tail U t /\ ends_run U rest.
Proof.
  intros us last_u Hl1 Hl2. remember (length us) as n eqn:Hn. assert (Hle : length us <= n) by lia. clear Hn.
  revert us Hle. induction n as [|n IH]; intros us Hle.
  - destruct us; [|cbn in Hle; lia]. exists [], [last_u]. repeat split; [constructor|assumption|].
    intros H. contradiction.
  - destruct us as [|u us].
    { exists [], [last_u]. repeat split; [constructor|assumption|]. intros H. contradiction. }
    destruct (is_comment_unit (su_val u)) eqn:Ec.
    { apply is_comment_unit_iff in Ec. destruct (IH us) as (t & rest & E & Ht & He); [cbn in Hle; lia|].
      exists (u :: t), rest. cbn [app]. rewrite E. split; [reflexivity|]. split; [apply rt_comment; assumption|assumption]. }
    apply is_comment_unit_false in Ec.
    assert (Dec : (exists v us', us = v :: us' /\ is_comment (su_val v) /\ blank U (su_val u) /\ ~ In c_nl (su_val u))
                  \/ ends_run U ((u :: us) ++ [last_u])).
    { destruct us as [|v us].
      - right. cbn. split; [exact Ec|]. intros _ _. exact Hl1.
      - destruct (is_comment_unit (su_val v)) eqn:Ev.
        + apply is_comment_unit_iff in Ev.
          destruct (su_val u) as [|ch s] eqn:Eu.
          { right. cbn. rewrite Eu. split; [exact Ec|]. intros []. }
          destruct (u_space U ch) eqn:Es.
          * destruct (Nat.eqb (count1 (ch :: s) c_nl) 0) eqn:En.
            -- left. exists v, us. apply count1_zero in En. repeat split; auto.
            -- right. cbn [app ends_run]. rewrite Eu. split; [exact Ec|]. intros _ Hn. apply count1_zero in Hn. congruence.
          * right. cbn [app ends_run]. rewrite Eu. split; [exact Ec|]. cbn. intro H. congruence.
        + right. cbn. split; [exact Ec|]. intros _ _. apply is_comment_unit_false. exact Ev. }
    destruct Dec as [(v & us' & -> & Hv & Hb & Hnn)|He].
    + destruct (IH us') as (t & rest & E & Ht & He); [cbn in Hle; lia|].
      exists (u :: v :: t), rest. cbn [app]. rewrite E. split; [reflexivity|]. split; [apply rt_space; assumption|assumption].
    + exists [], ((u :: us) ++ [last_u]). split; [reflexivity|]. split; [apply rt_nil|exact He].
Qed.

Lemma nonempty_of_shape : forall us, Forall (fun u => unit_shape U (su_val u)) us ->
  Forall (fun u => su_val u <> []) us.
Proof. intros us H. eapply Forall_impl; [|exact H]. intros a Ha. exact (unit_shape_nonempty U _ Ha). Qed.

(** Lexing a stretch that stays inside a service up to its last unit. *)
Lemma lex_stretch : forall m bs lastu buf post n fuel, length bs <= m ->
  Forall (fun u => unit_shape U (su_val u)) buf ->
  skipn n buf = bs ++ lastu :: post -> inside_at buf n -> Forall inside bs ->
  ~ is_comment (su_val lastu) -> ~ blank U (su_val lastu) -> S (length bs) <= fuel ->
  exists ts fuel', tokenized U (bs ++ [lastu]) ts /\ fuel <= fuel' + S (length bs)
    /\ lex_loop U fuel (after_units buf n)
       = prepend ts (lex_loop U fuel' (after_units buf (n + S (length bs)))).
Proof.
  induction m as [|m IH]; intros bs lastu buf post n fuel Hm Hsh Hsk Hin Hbs Hl1 Hl2 Hf;
    (destruct fuel as [|fuel]; [lia|]).
  - destruct bs; [|cbn in Hm; lia]. cbn [app length] in *. cbn [lex_loop].
    rewrite (ntg_inside _ _ _ _ Hin Hsk).
    pose proof (proj1 (skipn_nth _ _ _ _ _ Hsk)) as Hn0.
    assert (Hs : unit_shape U (su_val lastu)).
    { rewrite Forall_forall in Hsh. apply Hsh. eapply nth_error_In; exact Hn0. }
    destruct (unit_shape_token _ Hs) as [C|(_ & k & Hk)]; [contradiction|].
    rewrite (classify_plain _ k _ Hl1 Hk). cbn [tk_token].
    destruct (unit_token_real _ _ Hk) as [K1 K2].
    replace (n + 1) with (S n) by lia.
    exists [mkTok k (su_val lastu) (su_line lastu)], fuel.
    split; [constructor; [assumption|assumption|constructor]|]. split; [lia|].
    assert (Hline : sc_line (after_units buf (S n)) = su_line lastu) by (cbn [after_units]; rewrite Hn0; reflexivity).
    rewrite Hline.
    destruct k; try congruence; destruct (lex_loop U fuel (after_units buf (S n))); reflexivity.
  - destruct bs as [|u bs].
    { apply (IH [] lastu buf post n (S fuel)); try assumption. cbn; lia. }
    cbn [app] in Hsk. inversion Hbs as [|x l Hu Hbs']; subst.
    pose proof (skipn_nth _ _ _ _ _ Hsk) as [Hn0 Hsk2].
    assert (Hin1 : inside_at buf (S n)) by (cbn; rewrite Hn0; exact Hu).
    assert (Hs : unit_shape U (su_val u)).
    { rewrite Forall_forall in Hsh. apply Hsh. eapply nth_error_In; exact Hn0. }
    cbn [lex_loop]. rewrite (ntg_inside _ _ _ _ Hin Hsk).
    destruct (unit_shape_token _ Hs) as [Hc|(Hnc & k & Hk)].
    + destruct (split_run bs lastu Hl1 Hl2) as (t & rest & Esp & Ht & He).
      assert (Hsk3 : skipn n buf = u :: t ++ (rest ++ post)).
      { rewrite Hsk. f_equal. rewrite app_assoc, <- Esp, <- app_assoc. reflexivity. }
      assert (He2 : ends_run U (rest ++ post)).
      { destruct rest as [|r1 rest]; [contradiction|]. cbn in *. destruct He as [He1 He2]. split; [exact He1|].
        intros Hb Hnn. specialize (He2 Hb Hnn). destruct rest; [contradiction|]. exact He2. }
      rewrite (classify_comment u t (rest ++ post) buf n Hc Ht He2 (nonempty_of_shape _ Hsh) Hsk3).
      cbn [tk_token].
      (* rest = bs2 ++ [lastu] *)
      assert (Hrest : exists bs2, rest = bs2 ++ [lastu] /\ bs = t ++ bs2).
      { destruct rest as [|r1 rest] using rev_ind; [contradiction|]. clear IHrest.
        rewrite app_assoc in Esp. apply app_inj_tail in Esp. destruct Esp as [E1 E2]. subst.
        exists rest. auto. }
      destruct Hrest as (bs2 & -> & ->).
      assert (Hsk4 : skipn (S n + length t) buf = bs2 ++ lastu :: post).
      { apply skipn_app_add with (a := t). rewrite Hsk2, <- app_assoc. reflexivity. }
      assert (Hin2 : inside_at buf (S n + length t)).
      { destruct t as [|t1 tl] using rev_ind; [cbn [length]; rewrite Nat.add_0_r; exact Hin1|]. clear IHtl.
        rewrite app_length. cbn [length]. replace (S n + (length tl + 1)) with (S (S n + length tl)) by lia.
        cbn [inside_at].
        rewrite <- app_assoc in Hsk2. rewrite <- app_assoc in Hsk2. apply skipn_app_add in Hsk2. cbn [app] in Hsk2.
        apply skipn_nth in Hsk2. destruct Hsk2 as [-> _].
        rewrite Forall_app in Hbs'. destruct Hbs' as [Hb1 _]. rewrite Forall_app in Hb1.
        destruct Hb1 as [_ Hb1]. inversion Hb1; assumption. }
      rewrite Forall_app in Hbs'. destruct Hbs' as [_ Hbs2].
      cbn [length] in Hm, Hf. rewrite app_length in Hm, Hf.
      destruct (IH bs2 lastu buf post (S n + length t) fuel) as (ts & fuel' & Htz & Hfu & Elex);
        try assumption; try lia.
      exists (mkTok COMMENT (concat (map su_val (u :: t))) (su_line (last t u)) :: ts), fuel'.
      split. { rewrite <- app_comm_cons, <- app_assoc. apply tz_comment; assumption. }
      split; [cbn [length]; rewrite app_length; lia|].
      rewrite Elex. cbn [length]. rewrite app_length.
      replace (n + S (S (length t + length bs2))) with (S n + length t + S (length bs2)) by lia.
      destruct (lex_loop U fuel' _); reflexivity.
    + rewrite (classify_plain _ k _ Hnc Hk). cbn [tk_token].
      destruct (unit_token_real _ _ Hk) as [K1 K2]. cbn [length] in Hm, Hf.
      destruct (IH bs lastu buf post (S n) fuel) as (ts & fuel' & Htz & Hfu & Elex);
        try assumption; try lia.
      assert (Hline : sc_line (after_units buf (S n)) = su_line u) by (cbn [after_units]; rewrite Hn0; reflexivity).
      rewrite Hline.
      exists (mkTok k (su_val u) (su_line u) :: ts), fuel'.
      split; [cbn [app]; constructor; assumption|]. split; [cbn [length]; lia|].
      rewrite Elex. cbn [length]. replace (n + S (S (length bs))) with (S n + S (length bs)) by lia.
      destruct k; try congruence; destruct (lex_loop U fuel' _); reflexivity.
Qed.

End WithUnicode.
