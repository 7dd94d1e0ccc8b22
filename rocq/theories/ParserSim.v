(** Parser.v computes what ParserList.v computes on the significant tokens. *)
From Verif Require Import GoStr GoStrProofs Scanner Lexer LexerProofs3 Unquote Parser ParserSpec ParserList.

Definition sig (l : lexer) : list stok := without_space (skipn (lx_pos l) (lx_buf l)).
Definition wf (B : list token_group) (l : lexer) : Prop := lx_buf l = B /\ lx_pos l <= length B.

Lemma token_eqb_eq : forall a b, token_eqb a b = true <-> a = b.
Proof. intros [] []; cbn; split; intro H; reflexivity || discriminate H. Qed.
Lemma token_eqb_refl : forall a, token_eqb a a = true.
Proof. intros []; reflexivity. Qed.

Lemma skipn_nth : forall A (l : list A) n x, nth_error l n = Some x -> skipn n l = x :: skipn (S n) l.
Proof.
  induction l as [|y l IH]; intros [|n] x H; try discriminate; [injection H as ->; reflexivity|].
  cbn [skipn nth_error] in *. rewrite (IH n x H). destruct l; reflexivity.
Qed.

Lemma sig_length : forall B l, wf B l -> length (sig l) <= tokens_left l.
Proof.
  intros B l [Hb Hl]. unfold sig, without_space, tokens_left. rewrite map_length, Hb.
  rewrite <- skipn_length. generalize (skipn (lx_pos l) B). intro ts.
  induction ts as [|t ts IH]; cbn; [lia|]. destruct (significant t); cbn; lia.
Qed.

(** What next_iw does. *)
Definition read_step (B : list token_group) (l : lexer) (t : token) (v : str) (l1 : lexer) : Prop :=
  wf B l1 /\ lx_pos l <= lx_pos l1 /\
  ((sig l = (t, v) :: sig l1 /\ t <> WHITESPACE
    /\ exists p g, lx_pos l1 = S p /\ nth_error B p = Some g /\ stok_of g = (t, v))
   \/ (sig l = [] /\ t = TEOF /\ v = [] /\ sig l1 = [])).

Lemma get_skip_spec : forall fuel B l, wf B l -> tokens_left l < fuel ->
  exists t v l1, get_token_skip (fun t => token_eqb t WHITESPACE) fuel l = Ret (t, v, l1)
    /\ read_step B l t v l1.
Proof.
  induction fuel as [|fuel IH]; intros B l [Hb Hl] Hf; [lia|]. cbn [get_token_skip].
  unfold get_token. destruct (nth_error (lx_buf l) (lx_pos l)) as [g|] eqn:E.
  - assert (Hlt : lx_pos l < length B) by (rewrite <- Hb; apply nth_error_Some; congruence).
    assert (Hsk := skipn_nth _ _ _ _ E).
    destruct (token_eqb (tk_token g) WHITESPACE) eqn:Ew.
    + destruct (IH B (mkLexer (lx_buf l) (S (lx_pos l)) (tk_line g))) as (t & v & l1 & E1 & Hw & Hp & Hd).
      { split; [exact Hb|cbn; lia]. }
      { unfold tokens_left in *. cbn. rewrite Hb in *. lia. }
      exists t, v, l1. split; [exact E1|]. split; [exact Hw|]. cbn in Hp. split; [lia|].
      assert (Hsig : sig l = sig (mkLexer (lx_buf l) (S (lx_pos l)) (tk_line g))).
      { unfold sig. rewrite Hsk. unfold without_space. cbn [filter]. unfold significant at 1. rewrite Ew. reflexivity. }
      rewrite Hsig. exact Hd.
    + do 3 eexists. split; [reflexivity|]. split; [split; [exact Hb|cbn; lia]|]. split; [cbn; lia|].
      left. split; [|split].
      * unfold sig. rewrite Hsk. unfold without_space. cbn [filter]. unfold significant at 1. rewrite Ew. reflexivity.
      * intro Hc. rewrite Hc in Ew. discriminate.
      * exists (lx_pos l), g. cbn. rewrite <- Hb. auto.
  - cbn. exists TEOF, [], l. split; [reflexivity|]. split; [split; assumption|]. split; [lia|].
    assert (Hs : sig l = []).
    { apply nth_error_None in E. unfold sig. rewrite skipn_all2 by exact E. reflexivity. }
    right. auto.
Qed.

Lemma next_iw_spec : forall B l, wf B l -> exists t v l1, next_iw l = POk (t, v) l1 /\ read_step B l t v l1.
Proof.
  intros B l H. unfold next_iw, get_token_iw.
  destruct (get_skip_spec (S (tokens_left l)) B l H) as (t & v & l1 & E & Hr); [lia|].
  rewrite E. exists t, v, l1. auto.
Qed.

Lemma read_step_anext : forall B l t v l1, read_step B l t v l1 -> anext (sig l) = (t, v, sig l1).
Proof.
  intros B l t v l1 (_ & _ & [[H _]|(H1 & -> & -> & H2)]); [rewrite H; reflexivity|].
  rewrite H1, H2. reflexivity.
Qed.
Lemma read_step_len : forall B l t v l1, read_step B l t v l1 -> length (sig l1) <= length (sig l).
Proof.
  intros B l t v l1 (_ & _ & [[H _]|(H1 & -> & -> & H2)]); [rewrite H; cbn; lia|]. rewrite H1, H2. lia.
Qed.
Lemma read_step_len_lt : forall B l t v l1, read_step B l t v l1 -> t <> TEOF -> length (sig l1) < length (sig l).
Proof.
  intros B l t v l1 (_ & _ & [[H _]|(H1 & -> & -> & H2)]) Hn; [rewrite H; cbn; lia|congruence].
Qed.

(** Result relation. *)
Definition rel {A} (B : list token_group) (m : pres A) (a : ares A) : Prop :=
  match m, a with
  | POk x l, AOk y s => x = y /\ wf B l /\ sig l = s
  | PErr e, AErr e' => err_kind e = e'
  | PFuel, AFuel => True
  | _, _ => False
  end.

Lemma rel_bind : forall A C B (m : pres A) (a : ares A) (k : A -> lexer -> pres C) (k' : A -> list stok -> ares C),
  rel B m a -> (forall x l, wf B l -> a = AOk x (sig l) -> rel B (k x l) (k' x (sig l))) -> rel B (pbind m k) (abind a k').
Proof.
  intros A C B m a k k' H Hk. destruct m, a; cbn in *; try contradiction; auto.
  destruct H as (-> & Hw & <-). apply Hk; auto.
Qed.
Lemma rel_wrap : forall A B msg (m : pres A) (a : ares A), rel B m a -> rel B (pwrap msg m) (awrap msg a).
Proof. intros A B msg m a H. destruct m, a; cbn in *; try contradiction; auto. rewrite H. reflexivity. Qed.

(** fastForwardTill *)
Lemma ff_loop_rel : forall B delim fuel l, wf B l -> length (sig l) < fuel ->
  rel B (fast_forward_till_loop fuel l delim) (aff delim (sig l)).
Proof.
  intros B delim. induction fuel as [|fuel IH]; intros l Hw Hf; [lia|]. cbn [fast_forward_till_loop].
  destruct (next_iw_spec B l Hw) as (t & v & l1 & -> & Hr). cbn [pbind].
  pose proof Hr as (Hw1 & _ & [[Hs _]|(Hs & -> & -> & Hs1)]).
  - rewrite Hs. cbn [aff]. destruct (token_eqb t TEOF || token_eqb t ILLEGAL); [reflexivity|].
    destruct (str_eqb v delim); [cbn; auto|]. apply IH; [exact Hw1|]. rewrite Hs in Hf. cbn in Hf. lia.
  - rewrite Hs. reflexivity.
Qed.
Lemma ff_rel : forall B delim l, wf B l -> rel B (fast_forward_till l delim) (aff delim (sig l)).
Proof. intros B delim l Hw. apply ff_loop_rel; [exact Hw|]. pose proof (sig_length B l Hw). lia. Qed.

(** The comment-skipping loops. *)
Definition skip_result (B : list token_group) (desc : str) (s : list stok) (m : pres (str * (token * str))) : Prop :=
  exists d t v l1 l2, m = POk (d, (t, v)) l1 /\ wf B l1 /\ wf B l2 /\ askip desc s = (d, (t, v), sig l1)
    /\ read_step B l2 t v l1 /\ t <> COMMENT.

Lemma askip_read : forall B desc l t v l1, read_step B l t v l1 ->
  askip desc (sig l) = if token_eqb t COMMENT then askip v (sig l1) else (desc, (t, v), sig l1).
Proof.
  intros B desc l t v l1 (_ & _ & [[Hs _]|(Hs & -> & -> & Hs1)]); [rewrite Hs; reflexivity|].
  rewrite Hs, Hs1. reflexivity.
Qed.

Lemma skip_loop_rel : forall B fuel desc l0 t v l, wf B l0 -> read_step B l0 t v l -> length (sig l0) < fuel ->
  skip_result B desc (sig l0) (skip_comments_loop fuel desc t v l).
Proof.
  intros B. induction fuel as [|fuel IH]; intros desc l0 t v l Hw0 Hr Hf; [lia|]. cbn [skip_comments_loop].
  unfold skip_result. rewrite (askip_read _ _ _ _ _ _ Hr).
  destruct (token_eqb t COMMENT) eqn:E.
  - apply token_eqb_eq in E. destruct (next_iw_spec B l (proj1 Hr)) as (t2 & v2 & l2 & -> & Hr2). cbn [pbind].
    apply IH; [exact (proj1 Hr)|exact Hr2|].
    pose proof (read_step_len_lt _ _ _ _ _ Hr). rewrite E in H. specialize (H ltac:(discriminate)). lia.
  - exists desc, t, v, l, l0. split; [reflexivity|]. split; [exact (proj1 Hr)|]. split; [exact Hw0|].
    split; [reflexivity|]. split; [exact Hr|]. intro Hc. rewrite Hc in E. discriminate.
Qed.

Lemma skip_rel : forall B desc l0 t v l, wf B l0 -> read_step B l0 t v l ->
  skip_result B desc (sig l0) (skip_comments desc t v l).
Proof.
  intros B desc l0 t v l Hw Hr. unfold skip_comments. apply skip_loop_rel; [exact Hw|exact Hr|].
  pose proof (sig_length B l (proj1 Hr)). destruct Hr as (_ & _ & [[Hs _]|(Hs & _)]); rewrite Hs; cbn; lia.
Qed.

(** Un-getting a token just read. *)
Lemma unget_rel : forall B l t v l1, read_step B l t v l1 -> (t <> TEOF \/ v <> []) ->
  exists l2, unget_ignore l1 = Some l2 /\ wf B l2 /\ sig l2 = (t, v) :: sig l1.
Proof.
  intros B l t v l1 (Hw & _ & [(Hs & Hn & p & g & Hp & Hg & Hst)|(_ & -> & -> & _)]) Hne; [|destruct Hne; congruence].
  unfold unget_ignore, unget_token. destruct Hw as [Hb Hl]. rewrite Hp, Hb, Hg.
  eexists. split; [reflexivity|]. split; [split; [reflexivity|cbn; lia]|].
  unfold sig. cbn [lx_pos lx_buf]. rewrite ?Hb, Hp, (skipn_nth _ _ _ _ Hg). unfold without_space. cbn [filter].
  assert (Es : significant g = true).
  { unfold significant. unfold stok_of in Hst. inversion Hst as [[H1 H2]]. rewrite H1.
    destruct (token_eqb t WHITESPACE) eqn:E; [|reflexivity]. apply token_eqb_eq in E. congruence. }
  rewrite Es. cbn [map]. rewrite Hst. reflexivity.
Qed.

Lemma or_tok : forall (t : token) (v w : str), str_eqb v w = true -> w <> [] -> t <> TEOF \/ v <> [].
Proof. intros t v w E Hn. right. apply str_eqb_eq in E. congruence. Qed.

(** ParseBindingFields: same fuel on both sides. *)
Lemma fields_loop_rel : forall B fuel l desc fs cs, wf B l ->
  rel B (binding_fields_loop fuel l desc fs cs) (afields fuel (sig l) desc fs cs).
Proof.
  intros B. induction fuel as [|fuel IH]; intros l desc fs cs Hw; [exact I|].
  cbn [binding_fields_loop afields].
  destruct (next_iw_spec B l Hw) as (t0 & v0 & l0 & -> & Hr0). cbn [pbind].
  destruct (skip_rel B desc l t0 v0 l0 Hw Hr0) as (d & t & v & l1 & l1' & -> & Hw1 & Hw1' & -> & Hr1 & Hnc).
  cbn [pbind].
  destruct (token_eqb t TEOF || token_eqb t ILLEGAL) eqn:E1; [reflexivity|].
  assert (Hne : t <> TEOF \/ v <> []).
  { left. intro Hc. rewrite Hc in E1. discriminate. }
  destruct (unget_rel B _ _ _ _ Hr1 Hne) as (l2 & -> & Hw2 & Hs2).
  destruct (token_eqb t CLOSE_BRACE && str_eqb v (T "}")); [cbn; auto|].
  destruct (str_eqb v (T "additional_bindings")); [cbn; auto|].
  destruct (str_eqb v (T "custom")).
  - apply rel_bind; [apply rel_wrap, ff_rel, Hw1|]. intros [] l3 Hw3 _.
    apply rel_bind; [apply rel_wrap, IH, Hw3|]. intros [c c2] l4 Hw4 _.
    apply rel_bind; [apply rel_wrap, ff_rel, Hw4|]. intros [] l5 Hw5 _. apply IH, Hw5.
  - destruct (next_iw_spec B l1 Hw1) as (t3 & v3 & l3 & -> & Hr3). cbn [pbind].
    rewrite (read_step_anext _ _ _ _ _ Hr3).
    destruct (negb (token_eqb t3 SYMBOL) || negb (str_eqb v3 (T ":"))); [reflexivity|].
    destruct (next_iw_spec B l3 (proj1 Hr3)) as (t4 & v4 & l4 & -> & Hr4). cbn [pbind].
    rewrite (read_step_anext _ _ _ _ _ Hr4).
    destruct (negb (token_eqb t4 STRING_LITERAL)); [reflexivity|].
    destruct (unquote v4); [|reflexivity]. apply IH. exact (proj1 Hr4).
Qed.

Lemma aff_len : forall d s x s', aff d s = AOk x s' -> length s' < length s.
Proof.
  intros d s x. induction s as [|[t v] s IH]; intros s' H; cbn [aff] in H; [discriminate|].
  destruct (token_eqb t TEOF || token_eqb t ILLEGAL); [discriminate|].
  destruct (str_eqb v d); [injection H as <- <-; cbn; lia|]. apply IH in H. cbn. lia.
Qed.
Lemma aff_nofuel : forall d s, aff d s <> AFuel.
Proof.
  intros d s. induction s as [|[t v] s IH]; cbn [aff]; [discriminate|].
  destruct (token_eqb t TEOF || token_eqb t ILLEGAL); [discriminate|].
  destruct (str_eqb v d); [discriminate|exact IH].
Qed.
Lemma askip_len : forall s desc d t v s', askip desc s = (d, (t, v), s') ->
  length s' <= length s /\ (t <> TEOF -> length s' < length s) /\ t <> COMMENT.
Proof.
  induction s as [|[t0 v0] s IH]; intros desc d t v s' H; cbn [askip] in H.
  - injection H as <- <- <- <-. split; [cbn; lia|]. split; [congruence|discriminate].
  - destruct (token_eqb t0 COMMENT) eqn:E.
    + destruct (IH _ _ _ _ _ H) as (H1 & H2 & H3). split; [cbn; lia|]. split; [intro; cbn; lia|exact H3].
    + injection H as <- <- <- <-. split; [cbn; lia|]. split; [intro; cbn; lia|].
      intro Hc. rewrite Hc in E. discriminate.
Qed.
Lemma anext_len : forall s t v s', anext s = (t, v, s') -> length s' <= length s /\ (t <> TEOF -> length s' < length s).
Proof.
  intros [|[t0 v0] s] t v s' H; cbn in H; injection H as <- <- <-; (split; [cbn; lia|intro; try congruence; cbn; lia]).
Qed.

Lemma or_false_not_eof : forall t, token_eqb t TEOF || token_eqb t ILLEGAL = false -> t <> TEOF.
Proof. intros t H ->. discriminate. Qed.

Definition good {A} (n : nat) (r : ares A) : Prop :=
  match r with AOk _ s' => length s' <= n | AErr _ => True | AFuel => False end.
Lemma good_mono : forall A n m (r : ares A), n <= m -> good n r -> good m r.
Proof. intros A n m [] H; cbn; auto. lia. Qed.

Lemma afields_fuel : forall n fuel fuel' s desc fs cs, length s <= n -> length s < fuel -> length s < fuel' ->
  afields fuel s desc fs cs = afields fuel' s desc fs cs /\ good (length s) (afields fuel s desc fs cs).
Proof.
  induction n as [n IHn] using lt_wf_ind. intros fuel fuel' s desc fs cs Hn H1 H2.
  destruct fuel as [|fuel]; [lia|]. destruct fuel' as [|fuel']; [lia|]. cbn [afields].
  destruct (askip desc s) as [[d [t v]] s1] eqn:Es.
  destruct (askip_len _ _ _ _ _ _ Es) as (L1 & L2 & L3).
  destruct (token_eqb t TEOF || token_eqb t ILLEGAL) eqn:E1; [split; [reflexivity|exact I]|].
  specialize (L2 (or_false_not_eof _ E1)).
  destruct (token_eqb t CLOSE_BRACE && str_eqb v (T "}")); [split; [reflexivity|cbn; lia]|].
  destruct (str_eqb v (T "additional_bindings")); [split; [reflexivity|cbn; lia]|].
  destruct (str_eqb v (T "custom")).
  - destruct (aff (T "{") s1) as [[] s2|e|] eqn:E2; cbn [awrap abind];
      [|split; [reflexivity|exact I]|exfalso; exact (aff_nofuel _ _ E2)].
    apply aff_len in E2.
    destruct (IHn (length s2) ltac:(lia) fuel fuel' s2 [] [] [] (le_n _) ltac:(lia) ltac:(lia)) as [-> G].
    destruct (afields fuel' s2 [] [] []) as [[c c2] s3|e|]; cbn [awrap abind good] in *;
      [|split; [reflexivity|exact I]|contradiction].
    destruct (aff (T "}") s3) as [[] s4|e|] eqn:E3; cbn [awrap abind];
      [|split; [reflexivity|exact I]|exfalso; exact (aff_nofuel _ _ E3)].
    apply aff_len in E3.
    destruct (IHn (length s4) ltac:(lia) fuel fuel' s4 d fs c (le_n _) ltac:(lia) ltac:(lia)) as [-> G4].
    split; [reflexivity|]. revert G4. apply good_mono. lia.
  - destruct (anext s1) as [[t2 v2] s2] eqn:E2. destruct (anext_len _ _ _ _ E2) as (M1 & _).
    destruct (negb (token_eqb t2 SYMBOL) || negb (str_eqb v2 (T ":"))); [split; [reflexivity|exact I]|].
    destruct (anext s2) as [[t3 v3] s3] eqn:E3. destruct (anext_len _ _ _ _ E3) as (M2 & _).
    destruct (negb (token_eqb t3 STRING_LITERAL)); [split; [reflexivity|exact I]|].
    destruct (unquote v3) as [nq|]; [|split; [reflexivity|exact I]].
    destruct (IHn (length s3) ltac:(lia) fuel fuel' s3 [] (fs ++ [mkField v d v nq]) cs (le_n _) ltac:(lia) ltac:(lia)) as [-> G].
    split; [reflexivity|]. revert G. apply good_mono. lia.
Qed.

Lemma aparse_fields_good : forall s, good (length s) (aparse_fields s).
Proof. intro s. apply (afields_fuel (length s) (S (length s)) (S (length s))); lia. Qed.

Lemma fields_rel : forall B l, wf B l -> rel B (parse_binding_fields l) (aparse_fields (sig l)).
Proof.
  intros B l Hw. unfold parse_binding_fields, aparse_fields.
  pose proof (sig_length B l Hw) as Hl.
  destruct (afields_fuel (length (sig l)) (S (tokens_left l)) (S (length (sig l))) (sig l) [] [] []) as [<- _]; try lia.
  apply fields_loop_rel, Hw.
Qed.

(** ParseHttpBindings *)
Lemma additional_rel : forall B desc l, wf B l ->
  rel B (pbind (fast_forward_till l (T "{")) (fun _ l2 =>
        pbind (parse_binding_fields l2) (fun fc l3 =>
        let '(fields, custom) := fc in
        pbind (fast_forward_till l3 (T "}")) (fun _ l4 =>
        POk (Some [mkBinding desc fields custom]) l4)))) (aadditional desc (sig l)).
Proof.
  intros B desc l Hw. unfold aadditional. apply rel_bind; [apply ff_rel, Hw|]. intros [] l2 Hw2 _.
  apply rel_bind; [apply fields_rel, Hw2|]. intros [fs cs] l3 Hw3 _.
  apply rel_bind; [apply ff_rel, Hw3|]. intros [] l4 Hw4 _. cbn. auto.
Qed.
Lemma aadditional_len : forall desc s, match aadditional desc s with
  | AOk _ s' => length s' < length s | AErr _ => True | AFuel => False end.
Proof.
  intros desc s. unfold aadditional. destruct (aff (T "{") s) as [[] s2|e|] eqn:E; cbn [abind]; auto; [|exact (aff_nofuel _ _ E)].
  apply aff_len in E. pose proof (aparse_fields_good s2) as G.
  destruct (aparse_fields s2) as [[fs cs] s3|e|]; cbn [abind good] in *; auto.
  destruct (aff (T "}") s3) as [[] s4|e|] eqn:E2; cbn [abind]; auto; [|exact (aff_nofuel _ _ E2)].
  apply aff_len in E2. lia.
Qed.

Lemma aoption_good : forall fuel s rv no, length s < fuel -> good (length s) (aoption fuel s rv no).
Proof.
  induction fuel as [|fuel IH]; intros s rv no Hf; [lia|]. cbn [aoption].
  destruct (anext s) as [[t v] s1] eqn:E. destruct (anext_len _ _ _ _ E) as (L1 & L2).
  destruct (token_eqb t CLOSE_BRACE); [cbn; lia|].
  destruct (token_eqb t COMMENT) eqn:Ec.
  { apply token_eqb_eq in Ec. subst t. specialize (L2 ltac:(discriminate)).
    apply good_mono with (n := length s1); [lia|]. apply IH. lia. }
  destruct (str_eqb v (T "additional_bindings")).
  - destruct (token_eqb t TEOF || token_eqb t ILLEGAL) eqn:Ee; [exact I|].
    specialize (L2 (or_false_not_eof _ Ee)). pose proof (aadditional_len [] s1) as La.
    destruct (aadditional [] s1) as [m s2|e|]; cbn [abind]; [|exact I|contradiction].
    apply good_mono with (n := length s2); [lia|]. apply IH. lia.
  - destruct (token_eqb t TEOF || token_eqb t ILLEGAL); exact I.
Qed.

Lemma option_rel : forall B fuel fuel' l0 t v l rv no, wf B l0 -> read_step B l0 t v l ->
  S (length (sig l0)) < fuel -> length (sig l0) < fuel' ->
  rel B (option_loop fuel l t v (lx_pos l0) rv no) (aoption fuel' (sig l0) rv no).
Proof.
  intros B. induction fuel as [|fuel IH]; intros fuel' l0 t v l rv no Hw0 Hr Hf Hf'; [lia|].
  destruct fuel' as [|fuel']; [lia|].
  cbn [option_loop aoption]. rewrite (read_step_anext _ _ _ _ _ Hr). pose proof (proj1 Hr) as Hw.
  destruct (token_eqb t CLOSE_BRACE); [cbn; auto|].
  destruct (token_eqb t COMMENT) eqn:Ec.
  { assert (Hl : length (sig l) < length (sig l0)).
    { apply (read_step_len_lt _ _ _ _ _ Hr). apply token_eqb_eq in Ec. congruence. }
    destruct (next_iw_spec B l Hw) as (t2 & v2 & l2 & -> & Hr2). cbn [pbind].
    apply IH; [exact Hw|exact Hr2|lia|lia]. }
  destruct (str_eqb v (T "additional_bindings")) eqn:Ea.
  - assert (Hg : exists lg, unget_to_position l (lx_pos l0) = Ret (lg, false) /\ lx_pos lg = lx_pos l0 /\ lx_buf lg = lx_buf l).
    { apply unget_to_spec; [exact (proj1 (proj2 Hr))|]. destruct Hw as [Hb Hl]. rewrite Hb. exact Hl. }
    destruct Hg as (lg & -> & Hpg & Hbg).
    assert (Hwg : wf B lg). { destruct Hw as [Hb Hl], Hw0 as [Hb0 Hl0]. split; congruence. }
    assert (Hsg : sig lg = sig l0).
    { unfold sig. rewrite Hpg, Hbg. destruct Hw as [Hb _], Hw0 as [Hb0 _]. congruence. }
    destruct fuel as [|fuel]; [lia|].
    cbn [http_bindings_fuel]. destruct (next_iw_spec B lg Hwg) as (t2 & v2 & l2 & -> & Hr2). cbn [pbind].
    assert (E2 : t2 = t /\ v2 = v /\ sig l2 = sig l).
    { pose proof (read_step_anext _ _ _ _ _ Hr2) as A2. rewrite Hsg, (read_step_anext _ _ _ _ _ Hr) in A2.
      inversion A2; auto. }
    destruct E2 as (-> & -> & Hs2).
    destruct (skip_rel B [] lg t v l2 Hwg Hr2) as (d & t3 & v3 & l3 & l3' & -> & Hw3 & _ & Ask & Hr3 & _).
    rewrite (askip_read _ _ _ _ _ _ Hr2), Ec in Ask. injection Ask as <- <- <- Hs3. cbn [pbind].
    destruct (token_eqb t TEOF || token_eqb t ILLEGAL) eqn:Ee; [reflexivity|].
    assert (Eo : str_eqb v (T "option") = false).
    { apply str_eqb_eq in Ea. rewrite Ea. reflexivity. }
    rewrite Eo, Ea.
    pose proof (additional_rel B [] l3 Hw3) as Hadd. rewrite <- Hs3, Hs2 in Hadd.
    pose proof (read_step_len_lt _ _ _ _ _ Hr (or_false_not_eof _ Ee)) as Hlt.
    pose proof (aadditional_len [] (sig l)) as La.
    apply rel_bind; [exact Hadd|]. intros more l4 Hw4 E4. rewrite E4 in La.
    destruct (next_iw_spec B l4 Hw4) as (t5 & v5 & l5 & -> & Hr5). cbn [pbind].
    apply IH; [exact Hw4|exact Hr5|lia|lia].
  - destruct (token_eqb t TEOF || token_eqb t ILLEGAL); reflexivity.
Qed.

Lemma http_rel : forall B l, wf B l -> rel B (parse_http_bindings l) (ahttp (sig l)).
Proof.
  intros B l Hw. unfold parse_http_bindings, ahttp. pose proof (sig_length B l Hw) as HL.
  remember (S (S (tokens_left l))) as F eqn:EF. cbn [http_bindings_fuel].
  destruct (next_iw_spec B l Hw) as (t0 & v0 & l0 & -> & Hr0). cbn [pbind].
  destruct (skip_rel B [] l t0 v0 l0 Hw Hr0) as (d & t & v & l1 & l1' & -> & Hw1 & _ & Ask & Hr1 & Hnc).
  rewrite Ask. cbn [pbind]. destruct (askip_len _ _ _ _ _ _ Ask) as (L1 & _).
  destruct (token_eqb t TEOF || token_eqb t ILLEGAL) eqn:E1; [reflexivity|].
  destruct (str_eqb v (T "option")).
  - apply rel_bind; [apply ff_rel, Hw1|]. intros [] l2 Hw2 E2. apply aff_len in E2.
    apply rel_bind; [apply fields_rel, Hw2|]. intros [fs cs] l3 Hw3 E3.
    pose proof (aparse_fields_good (sig l2)) as G. rewrite E3 in G. cbn in G.
    destruct (next_iw_spec B l3 Hw3) as (t4 & v4 & l4 & -> & Hr4). cbn [pbind].
    apply option_rel; [exact Hw3|exact Hr4|lia|lia].
  - destruct (str_eqb v (T "additional_bindings")); [apply additional_rel, Hw1|].
    destruct (str_eqb v (T "}")); [cbn; auto|reflexivity].
Qed.

Lemma ahttp_good : forall s, good (length s) (ahttp s).
Proof.
  intro s. unfold ahttp. destruct (askip [] s) as [[d [t v]] s1] eqn:Es.
  destruct (askip_len _ _ _ _ _ _ Es) as (L1 & L2 & L3).
  destruct (token_eqb t TEOF || token_eqb t ILLEGAL) eqn:E1; [exact I|].
  destruct (str_eqb v (T "option")).
  - destruct (aff (T "{") s1) as [[] s2|e|] eqn:E2; cbn [abind]; [|exact I|exact (aff_nofuel _ _ E2)].
    apply aff_len in E2. pose proof (aparse_fields_good s2) as G.
    destruct (aparse_fields s2) as [[fs cs] s3|e|]; cbn [abind good] in *; auto.
    eapply good_mono; [|apply aoption_good; lia]. lia.
  - destruct (str_eqb v (T "additional_bindings")).
    + pose proof (aadditional_len d s1). destruct (aadditional d s1); cbn; auto. lia.
    + destruct (str_eqb v (T "}")); cbn; [lia|exact I].
Qed.

(** types and arguments *)
Lemma type_rel : forall B fuel ty l0 t v l, wf B l0 -> read_step B l0 t v l -> length (sig l0) < fuel ->
  rel B (type_loop fuel ty t v l) (atype ty (sig l0)).
Proof.
  intros B. induction fuel as [|fuel IH]; intros ty l0 t v l Hw0 Hr Hf; [lia|]. cbn [type_loop].
  pose proof Hr as (Hw & _ & [[Hs _]|(Hs & -> & -> & Hs1)]); rewrite Hs; cbn [atype]; [|reflexivity].
  rewrite Hs in Hf. cbn in Hf.
  destruct (next_iw_spec B l Hw) as (t2 & v2 & l2 & -> & Hr2). cbn [pbind].
  destruct (token_eqb t CLOSE_PAREN); [cbn; auto|].
  destruct (token_eqb t SYMBOL); [apply IH; [exact Hw|exact Hr2|lia]|].
  destruct (token_eqb t IDENT); [apply IH; [exact Hw|exact Hr2|lia]|reflexivity].
Qed.

Lemma arg_rel : forall B expected l, wf B l -> rel B (parse_arg l expected) (aarg expected (sig l)).
Proof.
  intros B expected l Hw. unfold parse_arg, aarg.
  destruct (next_iw_spec B l Hw) as (t & v & l1 & -> & Hr). cbn [pbind]. rewrite (read_step_anext _ _ _ _ _ Hr).
  destruct (negb (token_eqb t OPEN_PAREN)); [reflexivity|].
  destruct (next_iw_spec B l1 (proj1 Hr)) as (t1 & v1 & l2 & -> & Hr1). cbn [pbind].
  rewrite (read_step_anext _ _ _ _ _ Hr1).
  assert (Hfin : forall m t3 v3 l3, wf B m -> read_step B m t3 v3 l3 ->
    rel B (if negb (token_eqb t3 IDENT) then PErr (EParser expected (lx_line l3) v3)
           else type_loop (S (S (tokens_left l3))) [] t3 v3 l3)
          (if negb (token_eqb t3 IDENT) then AErr (EParser expected 0 v3) else atype [] (sig m))).
  { intros m t3 v3 l3 Hwm Hr3. destruct (negb (token_eqb t3 IDENT)); [reflexivity|].
    apply type_rel; [exact Hwm|exact Hr3|]. pose proof (sig_length B l3 (proj1 Hr3)).
    destruct Hr3 as (_ & _ & [[Hs _]|(Hs & _)]); rewrite Hs; cbn; lia. }
  destruct (str_eqb v1 (T "stream")).
  - destruct (next_iw_spec B l2 (proj1 Hr1)) as (t3 & v3 & l3 & -> & Hr3). cbn [pbind].
    rewrite (read_step_anext _ _ _ _ _ Hr3). apply Hfin; [exact (proj1 Hr1)|exact Hr3].
  - cbn [pbind]. rewrite (read_step_anext _ _ _ _ _ Hr1). apply Hfin; [exact (proj1 Hr)|exact Hr1].
Qed.

Lemma atype_good : forall s ty, good (length s) (atype ty s).
Proof.
  induction s as [|[t v] s IH]; intro ty; cbn [atype]; [exact I|].
  destruct (token_eqb t CLOSE_PAREN); [cbn; lia|].
  destruct (token_eqb t SYMBOL); [eapply good_mono; [|apply IH]; cbn; lia|].
  destruct (token_eqb t IDENT); [eapply good_mono; [|apply IH]; cbn; lia|exact I].
Qed.
Lemma aarg_good : forall e s, good (length s) (aarg e s).
Proof.
  intros e s. unfold aarg. destruct (anext s) as [[t v] s1] eqn:E1. destruct (anext_len _ _ _ _ E1) as (L1 & _).
  destruct (negb (token_eqb t OPEN_PAREN)); [exact I|].
  destruct (anext s1) as [[t1 v1] s2] eqn:E2. destruct (anext_len _ _ _ _ E2) as (L2 & _).
  set (s3 := if str_eqb v1 (T "stream") then s2 else s1).
  assert (L3 : length s3 <= length s) by (unfold s3; destruct (str_eqb v1 (T "stream")); lia).
  destruct (anext s3) as [[t3 v3] s4]. destruct (negb (token_eqb t3 IDENT)); [exact I|].
  eapply good_mono; [exact L3|apply atype_good].
Qed.

(** next_icw is askip *)
Lemma icw_spec_gen : forall B fuel desc l, wf B l -> tokens_left l < fuel ->
  exists t v l1 d, get_token_skip (fun t => token_eqb t COMMENT || token_eqb t WHITESPACE) fuel l = Ret (t, v, l1)
    /\ wf B l1 /\ askip desc (sig l) = (d, (t, v), sig l1).
Proof.
  intros B. induction fuel as [|fuel IH]; intros desc l [Hb Hl] Hf; [lia|]. cbn [get_token_skip].
  unfold get_token. destruct (nth_error (lx_buf l) (lx_pos l)) as [g|] eqn:E.
  - assert (Hlt : lx_pos l < length B) by (rewrite <- Hb; apply nth_error_Some; congruence).
    assert (Hsk := skipn_nth _ _ _ _ E).
    set (l1 := mkLexer (lx_buf l) (S (lx_pos l)) (tk_line g)).
    assert (Hw1 : wf B l1) by (split; [exact Hb|cbn; lia]).
    assert (Hs : sig l = (if significant g then [stok_of g] else []) ++ sig l1).
    { unfold sig. rewrite Hsk. unfold without_space. cbn [filter]. destruct (significant g); reflexivity. }
    assert (Ht : tokens_left l1 < fuel) by (unfold tokens_left in *; cbn; rewrite Hb in *; lia).
    destruct (token_eqb (tk_token g) COMMENT) eqn:Ec; cbn [orb].
    + destruct (IH (tk_value g) l1 Hw1 Ht) as (t & v & l2 & d & E1 & Hw2 & Ha). exists t, v, l2, d.
      split; [exact E1|]. split; [exact Hw2|]. rewrite Hs. unfold significant.
      apply token_eqb_eq in Ec. rewrite Ec. cbn [token_eqb negb app]. unfold stok_of. rewrite Ec. exact Ha.
    + destruct (token_eqb (tk_token g) WHITESPACE) eqn:Ew.
      * destruct (IH desc l1 Hw1 Ht) as (t & v & l2 & d & E1 & Hw2 & Ha). exists t, v, l2, d.
        split; [exact E1|]. split; [exact Hw2|]. rewrite Hs. unfold significant. rewrite Ew. exact Ha.
      * exists (tk_token g), (tk_value g), l1, desc. split; [reflexivity|]. split; [exact Hw1|].
        rewrite Hs. unfold significant. rewrite Ew. unfold stok_of. cbn [negb app askip]. rewrite Ec. reflexivity.
  - cbn. exists TEOF, [], l, desc. split; [reflexivity|]. split; [split; assumption|].
    apply nth_error_None in E. unfold sig. rewrite skipn_all2 by exact E. reflexivity.
Qed.
Lemma next_icw_spec : forall B l, wf B l ->
  exists t v l1 d, next_icw l = POk (t, v) l1 /\ wf B l1 /\ askip [] (sig l) = (d, (t, v), sig l1).
Proof.
  intros B l Hw. unfold next_icw, get_token_icw.
  destruct (icw_spec_gen B (S (tokens_left l)) [] l Hw) as (t & v & l1 & d & -> & H1 & H2); [lia|].
  exists t, v, l1, d. auto.
Qed.

Lemma method_rel : forall B l, wf B l -> rel B (parse_method l) (amethod (sig l)).
Proof.
  intros B l Hw. unfold parse_method, amethod.
  destruct (next_iw_spec B l Hw) as (t0 & v0 & l0 & -> & Hr0). cbn [pbind].
  destruct (skip_rel B [] l t0 v0 l0 Hw Hr0) as (d & t & v & l1 & l1' & -> & Hw1 & _ & -> & Hr1 & Hnc). cbn [pbind].
  destruct (token_eqb t CLOSE_BRACE); [reflexivity|].
  destruct (negb (token_eqb t IDENT) || negb (str_eqb v (T "rpc"))); [reflexivity|].
  destruct (next_iw_spec B l1 Hw1) as (t2 & name & l2 & -> & Hr2). cbn [pbind]. rewrite (read_step_anext _ _ _ _ _ Hr2).
  destruct (negb (token_eqb t2 IDENT)); [reflexivity|].
  apply rel_bind; [apply arg_rel, (proj1 Hr2)|]. intros req l3 Hw3 _.
  destruct (next_iw_spec B l3 Hw3) as (t4 & v4 & l4 & -> & Hr4). cbn [pbind]. rewrite (read_step_anext _ _ _ _ _ Hr4).
  destruct (negb (token_eqb t4 IDENT) || negb (str_eqb v4 (T "returns"))); [reflexivity|].
  apply rel_bind; [apply arg_rel, (proj1 Hr4)|]. intros resp l5 Hw5 _.
  destruct (next_iw_spec B l5 Hw5) as (t6 & v6 & l6 & -> & Hr6). cbn [pbind]. rewrite (read_step_anext _ _ _ _ _ Hr6).
  destruct (str_eqb v6 (T ";")).
  { split; [reflexivity|]. split; [exact (proj1 Hr6)|reflexivity]. }
  destruct (negb (token_eqb t6 OPEN_BRACE)); [reflexivity|].
  apply rel_bind; [apply http_rel, (proj1 Hr6)|]. intros [bs|] l7 Hw7 _; [|cbn; auto].
  unfold aend.
  destruct (next_icw_spec B l7 Hw7) as (t8 & v8 & l8 & d8 & -> & Hw8 & ->). cbn [pbind].
  destruct (negb (token_eqb t8 SYMBOL) || negb (str_eqb v8 (T ";"))); [reflexivity|].
  destruct (next_icw_spec B l8 Hw8) as (t9 & v9 & l9 & d9 & -> & Hw9 & ->). cbn [pbind].
  destruct (negb (token_eqb t9 CLOSE_BRACE)); [reflexivity|]. cbn. auto.
Qed.

Lemma amethod_len : forall s, match amethod s with
  | AOk _ s' => length s' < length s | AErr _ => True | AFuel => False end.
Proof.
  intro s. unfold amethod. destruct (askip [] s) as [[d [t v]] s1] eqn:Es.
  destruct (askip_len _ _ _ _ _ _ Es) as (L1 & L2 & L3).
  destruct (token_eqb t CLOSE_BRACE); [exact I|].
  destruct (token_eqb t IDENT) eqn:Ei; cbn [negb orb]; [|exact I].
  assert (Ht : t <> TEOF) by (apply token_eqb_eq in Ei; congruence). specialize (L2 Ht).
  destruct (negb (str_eqb v (T "rpc"))); [exact I|].
  destruct (anext s1) as [[t2 name] s2] eqn:E2. destruct (anext_len _ _ _ _ E2) as (M2 & _).
  destruct (negb (token_eqb t2 IDENT)); [exact I|].
  pose proof (aarg_good (T "a string identifier in first argument to method") s2) as G1.
  destruct (aarg _ s2) as [req s3|e|]; cbn [abind good] in *; auto.
  destruct (anext s3) as [[t4 v4] s4] eqn:E4. destruct (anext_len _ _ _ _ E4) as (M4 & _).
  destruct (negb (token_eqb t4 IDENT) || negb (str_eqb v4 (T "returns"))); [exact I|].
  pose proof (aarg_good (T "a string identifier in return argument to method") s4) as G2.
  destruct (aarg _ s4) as [resp s5|e|]; cbn [abind good] in *; auto.
  destruct (anext s5) as [[t6 v6] s6] eqn:E6. destruct (anext_len _ _ _ _ E6) as (M6 & _).
  destruct (str_eqb v6 (T ";")); [lia|].
  destruct (negb (token_eqb t6 OPEN_BRACE)); [exact I|].
  pose proof (ahttp_good s6) as G3. destruct (ahttp s6) as [[bs|] s7|e|]; cbn [abind good] in *; auto; [|lia].
  unfold aend. destruct (askip [] s7) as [[d8 [t8 v8]] s8] eqn:E8. destruct (askip_len _ _ _ _ _ _ E8) as (M8 & _).
  destruct (negb (token_eqb t8 SYMBOL) || negb (str_eqb v8 (T ";"))); [exact I|].
  destruct (askip [] s8) as [[d9 [t9 v9]] s9] eqn:E9. destruct (askip_len _ _ _ _ _ _ E9) as (M9 & _).
  destruct (negb (token_eqb t9 CLOSE_BRACE)); [exact I|]. lia.
Qed.

Lemma amethods_good : forall fuel s ms, length s < fuel -> good (length s) (amethods fuel s ms).
Proof.
  induction fuel as [|fuel IH]; intros s ms Hf; [lia|]. cbn [amethods]. pose proof (amethod_len s) as L.
  destruct (amethod s) as [[m|] s'|e|]; [| | |contradiction].
  - eapply good_mono; [|apply IH; lia]. lia.
  - eapply good_mono; [|apply IH; lia]. lia.
  - destruct e; try exact I. cbn. lia.
Qed.

Lemma methods_rel : forall B fuel fuel' l ms, wf B l -> length (sig l) < fuel -> length (sig l) < fuel' ->
  rel B (methods_loop fuel l ms) (amethods fuel' (sig l) ms).
Proof.
  intros B. induction fuel as [|fuel IH]; intros fuel' l ms Hw Hf Hf'; [lia|]. destruct fuel' as [|fuel']; [lia|].
  cbn [methods_loop amethods]. pose proof (method_rel B l Hw) as Hm. pose proof (amethod_len (sig l)) as L.
  destruct (parse_method l) as [om l'|e| |]; destruct (amethod (sig l)) as [om' s'|e'|]; cbn in Hm; try contradiction.
  - destruct Hm as (<- & Hw' & <-). destruct om as [m|]; apply IH; try assumption; lia.
  - subst e'. destruct e; cbn; auto.
Qed.

(** ParseService *)
Lemma service_rel : forall B l, wf B l -> rel B (parse_service l) (aservice (sig l)).
Proof.
  intros B l Hw. unfold parse_service, aservice.
  destruct (next_iw_spec B l Hw) as (t1 & v1 & l1 & -> & Hr1). cbn [pbind]. rewrite (read_step_anext _ _ _ _ _ Hr1).
  destruct (token_eqb t1 TEOF); [reflexivity|].
  destruct (negb (token_eqb t1 IDENT) && negb (str_eqb v1 (T "service"))); [reflexivity|].
  destruct (next_iw_spec B l1 (proj1 Hr1)) as (t2 & name & l2 & -> & Hr2). cbn [pbind]. rewrite (read_step_anext _ _ _ _ _ Hr2).
  destruct (negb (token_eqb t2 IDENT)); [reflexivity|].
  destruct (next_iw_spec B l2 (proj1 Hr2)) as (t3 & v3 & l3 & -> & Hr3). cbn [pbind]. rewrite (read_step_anext _ _ _ _ _ Hr3).
  destruct (negb (token_eqb t3 OPEN_BRACE)); [reflexivity|].
  pose proof (sig_length B l3 (proj1 Hr3)).
  apply rel_bind; [apply methods_rel; [exact (proj1 Hr3)|lia|lia]|]. intros ms l4 Hw4 _. cbn. auto.
Qed.

Lemma aservice_total : forall s, aservice s <> AFuel.
Proof.
  intro s. unfold aservice. destruct (anext s) as [[t v] s1].
  destruct (token_eqb t TEOF); [discriminate|].
  destruct (negb (token_eqb t IDENT) && negb (str_eqb v (T "service"))); [discriminate|].
  destruct (anext s1) as [[t2 name] s2]. destruct (negb (token_eqb t2 IDENT)); [discriminate|].
  destruct (anext s2) as [[t3 v3] s3]. destruct (negb (token_eqb t3 OPEN_BRACE)); [discriminate|].
  pose proof (amethods_good (S (length s3)) s3 [] (Nat.lt_succ_diag_r _)).
  destruct (amethods (S (length s3)) s3 []); cbn in *; [discriminate|discriminate|contradiction].
Qed.
