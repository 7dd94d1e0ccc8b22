(** The token buffer: getting and un-getting. *)
From Verif Require Import GoStr Lexer LexRun.

Lemma get_token_some : forall l g, nth_error (lx_buf l) (lx_pos l) = Some g ->
  get_token l = (tk_token g, tk_value g, mkLexer (lx_buf l) (S (lx_pos l)) (tk_line g)).
Proof. intros l g H. unfold get_token. rewrite H. reflexivity. Qed.
Lemma get_token_none : forall l, nth_error (lx_buf l) (lx_pos l) = None -> get_token l = (TEOF, [], l).
Proof. intros l H. unfold get_token. rewrite H. reflexivity. Qed.

Lemma unget_get : forall l t v l', get_token l = (t, v, l') -> lx_pos l' <> lx_pos l ->
  exists l'', unget_token l' = UGOk l'' /\ lx_pos l'' = lx_pos l /\ lx_buf l'' = lx_buf l
    /\ get_token l'' = (t, v, l').
Proof.
  intros l t v l' H Hne. destruct (nth_error (lx_buf l) (lx_pos l)) as [g|] eqn:E.
  - rewrite (get_token_some l g E) in H. inversion H; subst; clear H.
    eexists. unfold unget_token. cbn [lx_pos lx_buf]. rewrite E. split; [reflexivity|].
    split; [reflexivity|]. split; [reflexivity|]. unfold get_token; cbn [lx_buf lx_pos]; rewrite E; reflexivity.
  - rewrite (get_token_none l E) in H. inversion H; subst. congruence.
Qed.

Lemma unget_to_loop_spec : forall fuel l p, p <= lx_pos l -> lx_pos l <= length (lx_buf l) ->
  lx_pos l - p < fuel ->
  exists l', unget_to_loop fuel l p = Ret (l', false) /\ lx_pos l' = p /\ lx_buf l' = lx_buf l.
Proof.
  induction fuel as [|fuel IH]; intros l p Hp Hl Hf; [lia|]. cbn [unget_to_loop].
  destruct (Nat.eqb_spec (lx_pos l) p) as [E|E]; [exists l; auto|].
  unfold unget_token. destruct (lx_pos l) as [|q] eqn:Eq; [lia|].
  destruct (nth_error (lx_buf l) q) as [g|] eqn:En.
  - destruct (IH (mkLexer (lx_buf l) q (tk_line g)) p) as (l' & E1 & E2 & E3); cbn [lx_pos lx_buf] in *; try lia.
    exists l'. auto.
  - apply nth_error_None in En. lia.
Qed.

Lemma unget_to_spec : forall l p, p <= lx_pos l -> lx_pos l <= length (lx_buf l) ->
  exists l', unget_to_position l p = Ret (l', false) /\ lx_pos l' = p /\ lx_buf l' = lx_buf l.
Proof. intros l p H1 H2. apply unget_to_loop_spec; lia. Qed.

Lemma unget_to_loop_inv : forall fuel l p, lx_pos l <= length (lx_buf l) -> lx_pos l < fuel ->
  exists l' e, unget_to_loop fuel l p = Ret (l', e) /\ lx_pos l' <= length (lx_buf l) /\ lx_buf l' = lx_buf l.
Proof.
  induction fuel as [|fuel IH]; intros l p Hl Hf; [lia|]. cbn [unget_to_loop].
  destruct (Nat.eqb_spec (lx_pos l) p) as [E|E]; [exists l, false; auto|].
  unfold unget_token. destruct (lx_pos l) as [|q] eqn:Eq; [exists l, true; rewrite Eq; auto|].
  destruct (nth_error (lx_buf l) q) as [g|] eqn:En.
  - destruct (IH (mkLexer (lx_buf l) q (tk_line g)) p) as (l' & e & E1 & E2 & E3); cbn [lx_pos lx_buf] in *; try lia.
    exists l', e. auto.
  - apply nth_error_None in En. lia.
Qed.

(** Every sequence of operations succeeds and keeps the position within the buffer. *)
Lemma lex_ops_inv : forall os l, lx_pos l <= length (lx_buf l) ->
  exists l', lex_ops_run l os = Some l' /\ lx_buf l' = lx_buf l /\ lx_pos l' <= length (lx_buf l).
Proof.
  induction os as [|o os IH]; intros l Hl; cbn [lex_ops_run]; [exists l; auto|].
  assert (Hs : exists l1, lex_op_step l o = Some l1 /\ lx_buf l1 = lx_buf l /\ lx_pos l1 <= length (lx_buf l)).
  { destruct o as [| |p]; cbn [lex_op_step].
    - destruct (nth_error (lx_buf l) (lx_pos l)) as [g|] eqn:E.
      + rewrite (get_token_some l g E). cbn. eexists. split; [reflexivity|]. cbn. split; [reflexivity|].
        assert (lx_pos l < length (lx_buf l)) by (apply nth_error_Some; congruence). lia.
      + rewrite (get_token_none l E). cbn. exists l. auto.
    - unfold unget_token. destruct (lx_pos l) as [|q] eqn:Eq; [exists l; rewrite Eq; auto|].
      destruct (nth_error (lx_buf l) q) as [g|] eqn:En.
      + eexists. split; [reflexivity|]. cbn. split; [reflexivity|]. lia.
      + apply nth_error_None in En. lia.
    - unfold unget_to_position. destruct (unget_to_loop_inv (S (lx_pos l)) l p Hl) as (l' & e & -> & H1 & H2); [lia|].
      exists l'. auto. }
  destruct Hs as (l1 & -> & Hb & Hp). destruct (IH l1) as (l' & E & Hb' & Hp'); [rewrite Hb; exact Hp|].
  exists l'. split; [exact E|]. rewrite Hb', <- Hb. auto.
Qed.
