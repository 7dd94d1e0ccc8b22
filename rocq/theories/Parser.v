(** Model of svcdef/svcparse/parser.go. *)
From Verif Require Import GoStr Scanner Lexer Unquote.

(** token.go:28-48, Token.String. *)
Definition token_string (t : token) : str :=
  match t with
  | ILLEGAL => T "ILLEGAL" | TEOF => T "EOF" | WHITESPACE => T "WHITESPACE"
  | COMMENT => T "COMMENT" | SYMBOL => T "SYMBOL" | IDENT => T "IDENT"
  | STRING_LITERAL => T "STRING_LITERAL" | OPEN_PAREN => T "OPEN_PAREN"
  | CLOSE_PAREN => T "CLOSE_PAREN" | OPEN_BRACE => T "OPEN_BRACE" | CLOSE_BRACE => T "CLOSE_BRACE"
  end.

(** The errors the parser returns (parser.go:27-55, 63, 169, 528-567).  [EWrap] is errors.Wrap. *)
Inductive perr :=
| EUnexpectedEOF                                   (* io.ErrUnexpectedEOF, 169 *)
| ESvcDefEnd                                       (* 27 *)
| EOptional (expected : str) (line : Z) (val : str)(* optionParseErr, 41-45 *)
| EParser (expected : str) (line : Z) (val : str)  (* parserErr, 47-51 *)
| EFastForward (tk : token) (val : str)            (* 63 *)
| EUnquote                                         (* strconv.ErrSyntax, 565 *)
| EWrap (msg : str) (e : perr).

(** Result of a parsing function; after an error the lexer is never used again. *)
Inductive pres (A : Type) :=
| POk (a : A) (l : lexer)
| PErr (e : perr)
| PPanic
| PFuel.
Arguments POk {A} a l.
Arguments PErr {A} e.
Arguments PPanic {A}.
Arguments PFuel {A}.

Definition pbind {A B} (m : pres A) (k : A -> lexer -> pres B) : pres B :=
  match m with
  | POk a l => k a l
  | PErr e => PErr e
  | PPanic => PPanic
  | PFuel => PFuel
  end.

(** GetTokenIgnoreWhitespace / GetTokenIgnoreCommentAndWhitespace as parsing steps. *)
Definition lift_get (o : outcome (token * str * lexer)) : pres (token * str) :=
  match o with
  | Ret (t, v, l) => POk (t, v) l
  | Panic => PPanic
  | OutOfFuel => PFuel
  end.
Definition next_iw (l : lexer) : pres (token * str) := lift_get (get_token_iw l).
Definition next_icw (l : lexer) : pres (token * str) := lift_get (get_token_icw l).

(** errors.Wrap around a failing step. *)
Definition pwrap {A} (msg : str) (m : pres A) : pres A :=
  match m with PErr e => PErr (EWrap msg e) | _ => m end.

Notation "'do' ( t , v ) , l <- m ; k" :=
  (pbind m (fun x l => let '(t, v) := x in k))
    (at level 200, t name, v name, l name, m at level 100, k at level 200).

(** parser.go:59-68, fastForwardTill (on fuel = tokens left + 1). *)
Fixpoint fast_forward_till_loop (fuel : nat) (l : lexer) (delim : str) : pres unit :=
  match fuel with
  | O => PFuel
  | S fuel' =>
      do (tk, val), l1 <- next_iw l;
      if token_eqb tk TEOF || token_eqb tk ILLEGAL then PErr (EFastForward tk val)
      else if str_eqb val delim then POk tt l1
      else fast_forward_till_loop fuel' l1 delim
  end.
Definition fast_forward_till (l : lexer) (delim : str) : pres unit :=
  fast_forward_till_loop (S (tokens_left l)) l delim.

(** parser.go:153-162, type Field. *)
Record hfield := mkField { hf_name : str; hf_desc : str; hf_kind : str; hf_value : str }.
(** parser.go:94-149, type HTTPBinding (a nil CustomHTTPPattern is []: the parser never builds a
    non-nil empty one). *)
Record hbinding := mkBinding { hb_desc : str; hb_fields : list hfield; hb_custom : list hfield }.
(** parser.go:84-90, type Method. *)
Record hmethod := mkMethod {
  hm_name : str; hm_desc : str; hm_req : str; hm_resp : str; hm_bindings : list hbinding }.
(** parser.go:77-80, type Service. *)
Record hservice := mkService { hs_name : str; hs_methods : list hmethod }.

(** The loops of parser.go:223-230, 414-427, 502-515: as long as the token is a COMMENT remember
    it and take the next token.  Returns the last comment ([desc] if none) and the token. *)
Fixpoint skip_comments_loop (fuel : nat) (desc : str) (tk : token) (val : str) (l : lexer)
  : pres (str * (token * str)) :=
  match fuel with
  | O => PFuel
  | S fuel' =>
      if token_eqb tk COMMENT then
        do (tk', val'), l' <- next_iw l;
        skip_comments_loop fuel' val tk' val' l'
      else POk (desc, (tk, val)) l
  end.
Definition skip_comments (desc : str) (tk : token) (val : str) (l : lexer)
  : pres (str * (token * str)) :=
  skip_comments_loop (S (S (tokens_left l))) desc tk val l.

(** lex.UnGetToken() with its error ignored (parser.go:518, 521). *)
Definition unget_ignore (l : lexer) : option lexer :=
  match unget_token l with
  | UGOk l' => Some l'
  | UGError => Some l
  | UGPanic => None
  end.

(** parser.go:498-576, ParseBindingFields, on fuel.  [desc] is field.Description of the Field
    under construction (it survives the [continue] of line 541), [fields] and [custom] the named
    results. *)
Fixpoint binding_fields_loop (fuel : nat) (l : lexer) (desc : str) (fields custom : list hfield)
  : pres (list hfield * list hfield) :=
  match fuel with
  | O => PFuel
  | S fuel' =>
      do (tk0, val0), l0 <- next_iw l;                                        (* 501 *)
      pbind (skip_comments desc tk0 val0 l0) (fun x l1 =>                     (* 502-515 *)
      let '(desc1, (tk, val)) := x in
      if token_eqb tk TEOF || token_eqb tk ILLEGAL
      then PErr (EParser (T "legal token while parsing binding fields") (lx_line l1) val)
      else if token_eqb tk CLOSE_BRACE && str_eqb val (T "}") then            (* 517-519 *)
        match unget_ignore l1 with Some l2 => POk (fields, custom) l2 | None => PPanic end
      else if str_eqb val (T "additional_bindings") then                      (* 520-523 *)
        match unget_ignore l1 with Some l2 => POk (fields, custom) l2 | None => PPanic end
      else if str_eqb val (T "custom") then                                   (* 525-542 *)
        pbind (pwrap (T "cannot fastforward till opening brace") (fast_forward_till l1 (T "{")))
          (fun _ l2 =>
        pbind (pwrap (T "cannot parse custom binding fields") (binding_fields_loop fuel' l2 [] [] []))
          (fun cc l3 =>
        let '(c, _) := cc in
        pbind (pwrap (T "cannot fastforward to closing brace") (fast_forward_till l3 (T "}")))
          (fun _ l4 => binding_fields_loop fuel' l4 desc1 fields c)))
      else
        let kind := val in                                                    (* 544-545 *)
        do (tk2, val2), l2 <- next_iw l1;                                     (* 547 *)
        if negb (token_eqb tk2 SYMBOL) || negb (str_eqb val2 (T ":"))
        then PErr (EParser (T "symbol ':'") (lx_line l2) val2)
        else
        do (tk3, val3), l3 <- next_iw l2;                                     (* 556 *)
        if negb (token_eqb tk3 STRING_LITERAL)
        then PErr (EParser (T "string literal") (lx_line l3) val3)
        else
        match unquote val3 with                                               (* 565-568 *)
        | None => PErr (EWrap (T "cannot unquote value " ++ val3) EUnquote)
        | Some noquote =>
            binding_fields_loop fuel' l3 []                                   (* 569-572 *)
              (fields ++ [mkField kind desc1 kind noquote]) custom
        end)
  end.
Definition parse_binding_fields (l : lexer) : pres (list hfield * list hfield) :=
  binding_fields_loop (S (tokens_left l)) l [] [] [].

(** parser.go:399-496, ParseHttpBindings, and (lines 444-471) the loop of its "option" case; the
    two call each other.  [None] is the nil slice of line 490. *)
Fixpoint http_bindings_fuel (fuel : nat) (l : lexer) {struct fuel} : pres (option (list hbinding)) :=
  match fuel with
  | O => PFuel
  | S fuel' =>
      do (tk0, val0), l0 <- next_iw l;                                        (* 404 *)
      pbind (skip_comments [] tk0 val0 l0) (fun x l1 =>                       (* 414-427 *)
      let '(desc, (tk, val)) := x in
      if token_eqb tk TEOF || token_eqb tk ILLEGAL
      then PErr (EParser (T "non-illegal input") (lx_line l1) (token_string tk))
      else if str_eqb val (T "option") then                                   (* 430-471 *)
        pbind (fast_forward_till l1 (T "{")) (fun _ l2 =>
        pbind (parse_binding_fields l2) (fun fc l3 =>
        let '(fields, custom) := fc in
        let good := lx_pos l3 in                                              (* 441 *)
        do (tk1, val1), l4 <- next_iw l3;                                     (* 443 *)
        option_loop fuel' l4 tk1 val1 good [] (mkBinding desc fields custom)))
      else if str_eqb val (T "additional_bindings") then                      (* 472-487 *)
        pbind (fast_forward_till l1 (T "{")) (fun _ l2 =>
        pbind (parse_binding_fields l2) (fun fc l3 =>
        let '(fields, custom) := fc in
        pbind (fast_forward_till l3 (T "}")) (fun _ l4 =>
        POk (Some [mkBinding desc fields custom]) l4)))
      else if str_eqb val (T "}") then POk None l1                            (* 488-490 *)
      else PErr (EOptional (T "'}', 'option' or 'additional_bindings' while parsing options")
                           (lx_line l1) val))                                 (* 493-495 *)
  end
with option_loop (fuel : nat) (l : lexer) (tk : token) (val : str) (good : nat)
       (rv : list hbinding) (new_opt : hbinding) {struct fuel} : pres (option (list hbinding)) :=
  match fuel with
  | O => PFuel
  | S fuel' =>
      if token_eqb tk CLOSE_BRACE then POk (Some (rv ++ [new_opt])) l         (* 445-446 *)
      else if token_eqb tk COMMENT then                                       (* 447-448, 470 *)
        do (tk', val'), l' <- next_iw l;
        option_loop fuel' l' tk' val' (lx_pos l) rv new_opt
      else if str_eqb val (T "additional_bindings") then                      (* 449-456 *)
        match unget_to_position l good with
        | Ret (lg, _) =>
            pbind (http_bindings_fuel fuel' lg) (fun more l2 =>
            let more_bindings := match more with Some m => m | None => [] end in
            do (tk', val'), l' <- next_iw l2;
            option_loop fuel' l' tk' val' (lx_pos l2) (rv ++ more_bindings) new_opt)
        | Panic => PPanic
        | OutOfFuel => PFuel
        end
      else if token_eqb tk TEOF || token_eqb tk ILLEGAL then                  (* 457-462 *)
        PErr (EParser (T "legal token while parsing HttpBindings") (lx_line l)
                      (T "(" ++ val ++ T ") of type " ++ token_string tk))
      else PErr (EParser (T "close brace or comment while parsing http bindings") (lx_line l)
                         (token_string tk ++ val))                            (* 463-469 *)
  end.
Definition parse_http_bindings (l : lexer) : pres (option (list hbinding)) :=
  http_bindings_fuel (S (S (S (tokens_left l)))) l.

(** parser.go:288-300 and 339-351: the loop over the tokens of a request/response type. *)
Fixpoint type_loop (fuel : nat) (ty : str) (tk : token) (val : str) (l : lexer) : pres str :=
  match fuel with
  | O => PFuel
  | S fuel' =>
      if token_eqb tk CLOSE_PAREN then POk ty l
      else if token_eqb tk SYMBOL then
        do (tk', val'), l' <- next_iw l; type_loop fuel' ty tk' val' l'
      else if token_eqb tk IDENT then
        do (tk', val'), l' <- next_iw l; type_loop fuel' val tk' val' l'
      else PErr (EParser (T "')' or '.'") (lx_line l) val)
  end.

(** parser.go:260-300 / 311-351: "( [stream] type )". *)
Definition parse_arg (l : lexer) (expected : str) : pres str :=
  do (tk, val), l1 <- next_iw l;
  if negb (token_eqb tk OPEN_PAREN) then PErr (EParser (T "'('") (lx_line l1) val)
  else
  do (tk1, val1), l2 <- next_iw l1;
  pbind (if str_eqb val1 (T "stream") then next_iw l2 else POk (tk1, val1) l2) (fun x l3 =>
  let '(tk2, val2) := x in
  if negb (token_eqb tk2 IDENT) then PErr (EParser expected (lx_line l3) val2)
  else type_loop (S (S (tokens_left l3))) [] tk2 val2 l3).

(** parser.go:219-397, ParseMethod. *)
Definition parse_method (l : lexer) : pres (option hmethod) :=
  do (tk0, val0), l0 <- next_iw l;
  pbind (skip_comments [] tk0 val0 l0) (fun x l1 =>
  let '(desc, (tk, val)) := x in
  if token_eqb tk CLOSE_BRACE then PErr ESvcDefEnd                            (* 234-235 *)
  else if negb (token_eqb tk IDENT) || negb (str_eqb val (T "rpc"))           (* 236-241 *)
  then PErr (EParser (T "identifier 'rpc'") (lx_line l1) val)
  else
  do (tk2, name), l2 <- next_iw l1;                                           (* 247-255 *)
  if negb (token_eqb tk2 IDENT) then PErr (EParser (T "a string identifier") (lx_line l2) name)
  else
  pbind (parse_arg l2 (T "a string identifier in first argument to method")) (fun req l3 =>
  do (tk4, val4), l4 <- next_iw l3;                                           (* 302-309 *)
  if negb (token_eqb tk4 IDENT) || negb (str_eqb val4 (T "returns"))
  then PErr (EParser (T "'returns' keyword") (lx_line l4) val4)
  else
  pbind (parse_arg l4 (T "a string identifier in return argument to method")) (fun resp l5 =>
  do (tk6, val6), l6 <- next_iw l5;                                           (* 353-363 *)
  if str_eqb val6 (T ";") then POk None l6
  else if negb (token_eqb tk6 OPEN_BRACE)
  then PErr (EParser (T "'{' after declaration of method signature") (lx_line l6) val6)
  else
  pbind (parse_http_bindings l6) (fun ob l7 =>                                (* 365-373 *)
  match ob with
  | None => POk None l7
  | Some bindings =>
      do (tk8, val8), l8 <- next_icw l7;                                      (* 377-384 *)
      if negb (token_eqb tk8 SYMBOL) || negb (str_eqb val8 (T ";"))
      then PErr (EParser (T "';' after declaration of http options") (lx_line l8)
                         (val8 ++ token_string tk8))
      else
      do (tk9, val9), l9 <- next_icw l8;                                      (* 386-393 *)
      if negb (token_eqb tk9 CLOSE_BRACE)
      then PErr (EParser (T "'}' after declaration of http options marking end of rpc declarations")
                         (lx_line l9) (val9 ++ token_string tk9))
      else POk (Some (mkMethod name desc req resp bindings)) l9
  end)))).

(** parser.go:201-214: the loop over the methods, on fuel. *)
Fixpoint methods_loop (fuel : nat) (l : lexer) (ms : list hmethod) : pres (list hmethod) :=
  match fuel with
  | O => PFuel
  | S fuel' =>
      match parse_method l with
      | POk (Some m) l' => methods_loop fuel' l' (ms ++ [m])
      | POk None l' => methods_loop fuel' l' ms
      | PErr ESvcDefEnd => POk ms l
      | PErr e => PErr e
      | PPanic => PPanic
      | PFuel => PFuel
      end
  end.

(** parser.go:166-217, ParseService.  Line 171 tests [tk != IDENT && val != "service"]. *)
Definition parse_service (l : lexer) : pres hservice :=
  do (tk, val), l1 <- next_iw l;
  if token_eqb tk TEOF then PErr EUnexpectedEOF
  else if negb (token_eqb tk IDENT) && negb (str_eqb val (T "service"))
  then PErr (EParser (T "'service' identifier") (lx_line l1) val)
  else
  do (tk2, name), l2 <- next_iw l1;
  if negb (token_eqb tk2 IDENT) then PErr (EParser (T "a string identifier") (lx_line l2) name)
  else
  do (tk3, val3), l3 <- next_iw l2;
  if negb (token_eqb tk3 OPEN_BRACE) then PErr (EParser (T "'{'") (lx_line l3) val3)
  else
  pbind (methods_loop (S (tokens_left l3)) l3 []) (fun ms l4 => POk (mkService name ms) l4).

(** NewSvcLexer followed by ParseService (svcdef/consolidate_http.go:40-41). *)
Definition parse_text (U : unicode) (g : globals) (text : str) : outcome (pres hservice * globals) :=
  match lex_text U g text with
  | Ret (ts, g') => Ret (parse_service (new_lexer ts), g')
  | Panic => Panic
  | OutOfFuel => OutOfFuel
  end.
