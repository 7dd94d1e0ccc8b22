(** Model of svcdef/svcparse/token.go and svcdef/svcparse/lexer.go. *)
From Verif Require Import GoStr Scanner.

(** token.go:8-26, type Token. *)
Inductive token :=
| ILLEGAL | TEOF | WHITESPACE | COMMENT | SYMBOL | IDENT | STRING_LITERAL
| OPEN_PAREN | CLOSE_PAREN | OPEN_BRACE | CLOSE_BRACE.

Definition token_eqb (a b : token) : bool :=
  match a, b with
  | ILLEGAL, ILLEGAL | TEOF, TEOF | WHITESPACE, WHITESPACE | COMMENT, COMMENT
  | SYMBOL, SYMBOL | IDENT, IDENT | STRING_LITERAL, STRING_LITERAL
  | OPEN_PAREN, OPEN_PAREN | CLOSE_PAREN, CLOSE_PAREN
  | OPEN_BRACE, OPEN_BRACE | CLOSE_BRACE, CLOSE_BRACE => true
  | _, _ => false
  end.

(** token.go:50-54, type TokenGroup. *)
Record token_group := mkTok { tk_token : token; tk_value : str; tk_line : Z }.

(** The test [len(u) > 1 && u[0] == '/'] of lexer.go:50, 61 and 70. *)
Definition is_comment_unit (u : str) : bool :=
  match u with
  | c :: _ :: _ => N.eqb c c_slash
  | _ => false
  end.

(** lexer.go:54-86, the loop collecting consecutive comments, on fuel; it returns the collected
    text and the scanner.  ReadUnit at the end of the units makes the code panic (57-59, 66-68);
    [one[0]] on an empty unit would panic too (63).  The error of UnReadToPosition is ignored. *)
Fixpoint comment_loop (U : unicode) (fuel : nat) (s : scanner) (acc : str)
  : outcome (str * scanner) :=
  match fuel with
  | O => OutOfFuel
  | S fuel' =>
      let one_pos := sc_pos s in
      let back s' := match unread_to_position s' one_pos with
                     | Ret (s'', _) => Ret (acc, s'')
                     | Panic => Panic
                     | OutOfFuel => OutOfFuel
                     end in
      match read_unit s with
      | (None, _) => Panic
      | (Some one, s1) =>
          if is_comment_unit one then comment_loop U fuel' s1 (acc ++ one)
          else match one with
               | [] => Panic
               | c :: _ =>
                   if u_space U c then
                     if Nat.eqb (count1 one c_nl) 0 then
                       match read_unit s1 with
                       | (None, _) => Panic
                       | (Some two, s2) =>
                           if is_comment_unit two
                           then comment_loop U fuel' s2 (acc ++ one ++ two)
                           else back s2
                       end
                     else back s1
                   else back s1
               end
      end
  end.

(** lexer.go:33-92: the token made from the unit just read, [s] being the scanner after it. *)
Definition classify_unit (U : unicode) (unit : str) (s : scanner) : outcome (token_group * scanner) :=
  let tok k := Ret (mkTok k unit (sc_line s), s) in
  match unit with
  | [] => Ret (mkTok ILLEGAL [] (sc_line s), s)                      (* 34-35 *)
  | c :: more =>
      if u_space U c then tok WHITESPACE                             (* 36 *)
      else if is_ident U c then tok IDENT                            (* 38 *)
      else if N.eqb c c_dquote then tok STRING_LITERAL               (* 40 *)
      else if N.eqb c c_lparen then tok OPEN_PAREN                   (* 42 *)
      else if N.eqb c c_rparen then tok CLOSE_PAREN                  (* 44 *)
      else if N.eqb c c_lbrace then tok OPEN_BRACE                   (* 46 *)
      else if N.eqb c c_rbrace then tok CLOSE_BRACE                  (* 48 *)
      else match more with
           | _ :: _ =>
               if N.eqb c c_slash then                               (* 50-87 *)
                 match comment_loop U (S (length (sc_buf s) - sc_pos s)) s unit with
                 | Ret (v, s') => Ret (mkTok COMMENT v (sc_line s'), s')
                 | Panic => Panic
                 | OutOfFuel => OutOfFuel
                 end
               else tok ILLEGAL                                      (* 90-91 *)
           | [] => tok SYMBOL                                        (* 88-89 *)
           end
  end.

(** lexer.go:10-93, NewTokenGroup.  FastForward and ReadUnit only ever fail with io.EOF, so the
    ILLEGAL branches of lines 19-21 and 29-31 are unreachable and not modelled. *)
Definition new_token_group (U : unicode) (s : scanner) : outcome (token_group * scanner) :=
  let read s1 :=
    match read_unit s1 with
    | (None, s2) => Ret (mkTok TEOF [] (sc_line s2), s2)
    | (Some unit, s2) => classify_unit U unit s2
    end in
  if Z.eqb (sc_brace s) 0 then
    match fast_forward s with
    | Ret (s1, true) => Ret (mkTok TEOF [] (sc_line s1), s1)
    | Ret (s1, false) => read s1
    | Panic => Panic
    | OutOfFuel => OutOfFuel
    end
  else read s.

(** lexer.go:98-105, the loop of NewSvcLexer, on fuel. *)
Fixpoint lex_loop (U : unicode) (fuel : nat) (s : scanner) : outcome (list token_group) :=
  match fuel with
  | O => OutOfFuel
  | S fuel' =>
      match new_token_group U s with
      | Ret (g, s') =>
          match tk_token g with
          | ILLEGAL | TEOF => Ret []
          | _ => match lex_loop U fuel' s' with
                 | Ret gs => Ret (g :: gs)
                 | Panic => Panic
                 | OutOfFuel => OutOfFuel
                 end
          end
      | Panic => Panic
      | OutOfFuel => OutOfFuel
      end
  end.

(** lexer.go:95-111, NewSvcLexer from the scanned units. *)
Definition lex_units (U : unicode) (us : list scan_unit) : outcome (list token_group) :=
  lex_loop U (S (length us)) (new_scanner us).

(** lexer.go:95-111, NewSvcLexer from text, with the scanner's package state threaded. *)
Definition lex_text (U : unicode) (g : globals) (text : str) : outcome (list token_group * globals) :=
  match scan U g text with
  | None => OutOfFuel
  | Some (us, _, g') =>
      match lex_units U us with
      | Ret ts => Ret (ts, g')
      | Panic => Panic
      | OutOfFuel => OutOfFuel
      end
  end.

(** lexer.go:113-118, type SvcLexer (the scanner is not used after construction). *)
Record lexer := mkLexer { lx_buf : list token_group; lx_pos : nat; lx_line : Z }.
Definition new_lexer (ts : list token_group) : lexer := mkLexer ts 0 0.

(** lexer.go:128-144, GetToken. *)
Definition get_token (l : lexer) : token * str * lexer :=
  match nth_error (lx_buf l) (lx_pos l) with
  | Some g => (tk_token g, tk_value g, mkLexer (lx_buf l) (S (lx_pos l)) (tk_line g))
  | None => (TEOF, [], l)
  end.

(** lexer.go:146-153, UnGetToken. *)
Inductive unget_result := UGOk (l : lexer) | UGError | UGPanic.
Definition unget_token (l : lexer) : unget_result :=
  match lx_pos l with
  | O => UGError
  | S p => match nth_error (lx_buf l) p with
           | Some g => UGOk (mkLexer (lx_buf l) p (tk_line g))
           | None => UGPanic
           end
  end.

(** lexer.go:155-167, UnGetToPosition; [true] = the error of UnGetToken. *)
Fixpoint unget_to_loop (fuel : nat) (l : lexer) (position : nat) : outcome (lexer * bool) :=
  match fuel with
  | O => OutOfFuel
  | S fuel' =>
      if Nat.eqb (lx_pos l) position then Ret (l, false)
      else match unget_token l with
           | UGOk l' => unget_to_loop fuel' l' position
           | UGError => Ret (l, true)
           | UGPanic => Panic
           end
  end.
Definition unget_to_position (l : lexer) (position : nat) : outcome (lexer * bool) :=
  unget_to_loop (S (lx_pos l)) l position.

(** lexer.go:168-183: read tokens until one is not to be ignored.  At the end of the buffer
    GetToken returns EOF, which is never ignored, so the recursion on the tokens left is enough
    fuel; running out of it cannot happen (Lemma get_token_skip_total). *)
Fixpoint get_token_skip (ignore : token -> bool) (fuel : nat) (l : lexer) : outcome (token * str * lexer) :=
  match fuel with
  | O => OutOfFuel
  | S fuel' =>
      match get_token l with
      | (t, s, l') => if ignore t then get_token_skip ignore fuel' l' else Ret (t, s, l')
      end
  end.
Definition tokens_left (l : lexer) : nat := length (lx_buf l) - lx_pos l.

(** lexer.go:168-175, GetTokenIgnoreCommentAndWhitespace. *)
Definition get_token_icw (l : lexer) : outcome (token * str * lexer) :=
  get_token_skip (fun t => token_eqb t COMMENT || token_eqb t WHITESPACE) (S (tokens_left l)) l.
(** lexer.go:185-187, GetTokenIgnoreWhitespace. *)
Definition get_token_iw (l : lexer) : outcome (token * str * lexer) :=
  get_token_skip (fun t => token_eqb t WHITESPACE) (S (tokens_left l)) l.
