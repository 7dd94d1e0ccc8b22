(** Property theorems C08-C11: the lexer (svcdef/svcparse/lexer.go). *)
From Verif Require Import GoStr GoStrProofs Scanner ScannerSpec ScanRun ScannerProofs3 Lexer LexerSpec LexRun
  LexerProofs2 LexerProofs3 LexerProofs4 LexerProofs5.

(** C08: the tokens of a file are those of its service definitions, in order; their text is the text
    of the definitions; nothing of the rest appears.  The scanner's package state is as before. *)
Theorem c08_service_tokens : forall U vs blocks, unicode_ok U -> well_separated U vs -> proto_file vs blocks ->
  exists ublocks tss, map (map su_val) ublocks = blocks
    /\ Forall2 (tokenized U) ublocks tss
    /\ lex_text U globals0 (concat vs) = Ret (concat tss, globals0)
    /\ concat (map tk_value (concat tss)) = concat (concat blocks).
Proof. exact c08_main. Qed.
Print Assumptions c08_service_tokens.

(** The tokens are determined by the units. *)
Theorem c08_tokenized_unique : forall U us ts ts', unicode_ok U ->
  tokenized U us ts -> tokenized U us ts' -> ts = ts'.
Proof. intros U us ts ts' HU H. apply (tokenized_fun U HU us ts H). Qed.
Print Assumptions c08_tokenized_unique.

(** C09: the lexer always comes to an end, and panics only on a file that ends in a comment left
    dangling inside a service definition or inside braces. *)
Theorem c09_lexer_total : forall U g text, unicode_ok U ->
  exists us r g', scan U g text = Some (us, r, g') /\
  ((exists ts, lex_text U g text = Ret (ts, g') /\ length ts <= length us)
   \/ (lex_text U g text = Panic /\ dangling_comment U us)).
Proof. exact c09_main. Qed.
Print Assumptions c09_lexer_total.

Theorem c09_no_panic_refuted : exists text, lex_text latin1 globals0 text = Panic.
Proof. exists (T "service S { // x" ++ [c_nl]). vm_compute. reflexivity. Qed.

(** C10: a maximal run of comments is one token. *)
Theorem c10_comment_runs : forall U vs blocks, unicode_ok U -> well_separated U vs -> proto_file vs blocks ->
  exists ublocks tss, map (map su_val) ublocks = blocks
    /\ lex_text U globals0 (concat vs) = Ret (concat tss, globals0)
    /\ length ublocks = length tss
    /\ forall i ub ts, nth_error ublocks i = Some ub -> nth_error tss i = Some ts ->
       forall pre c t rest, ub = pre ++ c :: t ++ rest -> is_comment (su_val c) ->
       begins_run U pre -> run_tail U t -> ends_run U rest ->
       exists ts1 ts2, ts = ts1 ++ mkTok COMMENT (concat (map su_val (c :: t))) (su_line (last t c)) :: ts2
         /\ concat (map tk_value ts1) = concat (map su_val pre)
         /\ tokenized U rest ts2.
Proof. exact c10_main. Qed.
Print Assumptions c10_comment_runs.

(** C11: getting and un-getting tokens. *)
Theorem c11_unget_restores : forall l t v l', get_token l = (t, v, l') -> lx_pos l' <> lx_pos l ->
  exists l'', unget_token l' = UGOk l'' /\ lx_pos l'' = lx_pos l /\ lx_buf l'' = lx_buf l
    /\ get_token l'' = (t, v, l').
Proof. exact unget_get. Qed.
Print Assumptions c11_unget_restores.

Theorem c11_unget_to_position : forall ts os l p, lex_ops_run (new_lexer ts) os = Some l -> p <= lx_pos l ->
  exists l', unget_to_position l p = Ret (l', false) /\ lx_pos l' = p /\ lx_buf l' = ts
    /\ forall tk, nth_error ts p = Some tk ->
       exists l2, get_token l' = (tk_token tk, tk_value tk, l2) /\ lx_pos l2 = S p /\ lx_line l2 = tk_line tk.
Proof. exact c11_unget_to. Qed.
Print Assumptions c11_unget_to_position.

(** No sequence of operations panics. *)
Theorem c11_ops_safe : forall ts os, exists l, lex_ops_run (new_lexer ts) os = Some l
  /\ lx_buf l = ts /\ lx_pos l <= length ts.
Proof. intros ts os. apply (lex_ops_inv os (new_lexer ts)). cbn. lia. Qed.
Print Assumptions c11_ops_safe.

(** At the end of the buffer the pair is not inverse: un-getting EOF steps back over a real token. *)
Theorem c11_unget_eof_refuted : exists l l' l'', get_token l = (TEOF, [], l') /\ unget_token l' = UGOk l''
  /\ lx_pos l'' <> lx_pos l.
Proof.
  exists (mkLexer [mkTok IDENT (T "x") 1] 1 1). eexists _, _. split; [reflexivity|]. split; [reflexivity|].
  cbn. discriminate.
Qed.

(** ** The hypotheses are met *)
Definition sample_file : list str :=
  [T "syntax"; T "="; [c_dquote] ++ T "proto3" ++ [c_dquote]; T ";"; [c_nl]; T "message"; T " "; T "M"; T "{"; T "}"; [c_nl];
   T "service"; T " "; T "S"; T " "; T "{"; [c_nl]; T "// one" ++ [c_nl]; T " "; T "// two" ++ [c_nl]; T "rpc"; T " "; T "A"; T "("; T ")"; T "{"; T "}"; T "}";
   [c_nl]; T "// end" ++ [c_nl]].

Ltac nope := let H := fresh in intro H; repeat (destruct H as [H|H]; [discriminate|]); destruct H.
Ltac all_true := unfold T; cbn [map list_ascii_of_string]; repeat (apply Forall_cons; [vm_compute; auto|]); apply Forall_nil.
Ltac solve_shape :=
  first
  [ (refine (us_line _ (T " one") _); nope)
  | (refine (us_line _ (T " two") _); nope)
  | (refine (us_line _ (T " end") _); nope)
  | (refine (us_string _ (T "proto3") _); repeat (apply sb_plain; [discriminate|discriminate|]); constructor)
  | (apply us_space; [discriminate|all_true])
  | (apply us_ident; [discriminate|all_true])
  | (apply us_symbol; [discriminate|reflexivity|intros [H|[H|H]]; vm_compute in H; discriminate]) ].
Ltac solve_sep :=
    intros [[H1 H2]|[[H1 H2]|[H1 [H2|H2]]]];
    first [discriminate
          |vm_compute in H1; discriminate
          |vm_compute in H2; discriminate
          |destruct H1 as [H1|[H1|H1]]; vm_compute in H1; discriminate
          |destruct H2 as [H2|[H2|H2]]; vm_compute in H2; discriminate
          |destruct H2 as [H2|H2]; vm_compute in H2; discriminate].
Ltac solve_ws := first [apply ws_nil | apply ws_cons; [solve_shape|solve_sep|solve_ws]].

Example sample_file_separated : well_separated latin1 sample_file.
Proof. unfold sample_file. solve_ws. Qed.

Example sample_file_is_proto_file : exists b, proto_file sample_file [b].
Proof.
  eexists. unfold sample_file.
  refine (pf_service [T "syntax"; T "="; [c_dquote] ++ T "proto3" ++ [c_dquote]; T ";"; [c_nl]; T "message"; T " "; T "M"; T "{"; T "}"; [c_nl]]
    [T "service"; T " "; T "S"; T " "; T "{"; [c_nl]; T "// one" ++ [c_nl]; T " "; T "// two" ++ [c_nl]; T "rpc"; T " "; T "A"; T "("; T ")"; T "{"; T "}"; T "}"]
    [[c_nl]; T "// end" ++ [c_nl]] [] _ _ _).
  - split.
    + nope.
    + do 8 (apply ne_other; [discriminate|discriminate|]). apply (ne_block [] [[c_nl]]); [constructor|].
      apply ne_other; [discriminate|discriminate|constructor].
  - refine (sb_intro [T " "; T "S"; T " "] [[c_nl]; T "// one" ++ [c_nl]; T " "; T "// two" ++ [c_nl]; T "rpc"; T " "; T "A"; T "("; T ")"; T "{"; T "}"] _ _ _ _ _);
      try (nope).
    do 9 (apply ne_other; [discriminate|discriminate|]). apply (ne_block [] []); constructor.
  - apply pf_end. split; [nope|].
    do 2 (apply ne_other; [discriminate|discriminate|]). constructor.
Qed.

Example sample_file_tokens : match lex_text latin1 globals0 (concat sample_file) with
  | Ret (ts, _) => map tk_token ts = [IDENT; WHITESPACE; IDENT; WHITESPACE; OPEN_BRACE; WHITESPACE; COMMENT;
      IDENT; WHITESPACE; IDENT; OPEN_PAREN; CLOSE_PAREN; OPEN_BRACE; CLOSE_BRACE; CLOSE_BRACE]
      /\ nth_error (map tk_value ts) 6 = Some (T "// one" ++ [c_nl] ++ T " // two" ++ [c_nl])
  | _ => False
  end.
Proof. vm_compute. split; reflexivity. Qed.
