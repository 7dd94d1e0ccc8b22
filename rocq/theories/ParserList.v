(** Proof device: the parser of Parser.v restated over the list of significant (non white-space)
    tokens.  ParserSim.v proves that Parser.v computes the same; nothing here is trusted. *)
From Verif Require Import GoStr Scanner Lexer Unquote Parser ParserSpec.

Inductive ares (A : Type) :=
| AOk (a : A) (s : list stok)
| AErr (e : perr)
| AFuel.
Arguments AOk {A} a s.
Arguments AErr {A} e.
Arguments AFuel {A}.

Definition abind {A B} (m : ares A) (k : A -> list stok -> ares B) : ares B :=
  match m with AOk a s => k a s | AErr e => AErr e | AFuel => AFuel end.
Definition awrap {A} (msg : str) (m : ares A) : ares A :=
  match m with AErr e => AErr (EWrap msg e) | _ => m end.

Definition anext (s : list stok) : token * str * list stok :=
  match s with [] => (TEOF, [], []) | (t, v) :: s' => (t, v, s') end.

Fixpoint aff (delim : str) (s : list stok) : ares unit :=
  match s with
  | [] => AErr (EFastForward TEOF [])
  | (t, v) :: s' =>
      if token_eqb t TEOF || token_eqb t ILLEGAL then AErr (EFastForward t v)
      else if str_eqb v delim then AOk tt s' else aff delim s'
  end.

(** Skip comments: last comment, then the token after them. *)
Fixpoint askip (desc : str) (s : list stok) : str * (token * str) * list stok :=
  match s with
  | [] => (desc, (TEOF, []), [])
  | (t, v) :: s' => if token_eqb t COMMENT then askip v s' else (desc, (t, v), s')
  end.

Fixpoint afields (fuel : nat) (s : list stok) (desc : str) (fields custom : list hfield)
  : ares (list hfield * list hfield) :=
  match fuel with
  | O => AFuel
  | S fuel' =>
      let '(desc1, (tk, val), s1) := askip desc s in
      if token_eqb tk TEOF || token_eqb tk ILLEGAL
      then AErr (EParser (T "legal token while parsing binding fields") 0 val)
      else if token_eqb tk CLOSE_BRACE && str_eqb val (T "}") then AOk (fields, custom) ((tk, val) :: s1)
      else if str_eqb val (T "additional_bindings") then AOk (fields, custom) ((tk, val) :: s1)
      else if str_eqb val (T "custom") then
        abind (awrap (T "cannot fastforward till opening brace") (aff (T "{") s1)) (fun _ s2 =>
        abind (awrap (T "cannot parse custom binding fields") (afields fuel' s2 [] [] [])) (fun cc s3 =>
        let '(c, _) := cc in
        abind (awrap (T "cannot fastforward to closing brace") (aff (T "}") s3)) (fun _ s4 =>
        afields fuel' s4 desc1 fields c)))
      else
        let '(tk2, val2, s2) := anext s1 in
        if negb (token_eqb tk2 SYMBOL) || negb (str_eqb val2 (T ":"))
        then AErr (EParser (T "symbol ':'") 0 val2)
        else let '(tk3, val3, s3) := anext s2 in
        if negb (token_eqb tk3 STRING_LITERAL) then AErr (EParser (T "string literal") 0 val3)
        else match unquote val3 with
        | None => AErr (EWrap (T "cannot unquote value " ++ val3) EUnquote)
        | Some nq => afields fuel' s3 [] (fields ++ [mkField val desc1 val nq]) custom
        end
  end.
Definition aparse_fields (s : list stok) := afields (S (length s)) s [] [] [].

(** "additional_bindings" ... { FIELDS ... }, the keyword being already read. *)
Definition aadditional (desc : str) (s : list stok) : ares (option (list hbinding)) :=
  abind (aff (T "{") s) (fun _ s2 =>
  abind (aparse_fields s2) (fun fc s3 =>
  let '(fields, custom) := fc in
  abind (aff (T "}") s3) (fun _ s4 => AOk (Some [mkBinding desc fields custom]) s4))).

Fixpoint aoption (fuel : nat) (s : list stok) (rv : list hbinding) (new_opt : hbinding)
  : ares (option (list hbinding)) :=
  match fuel with
  | O => AFuel
  | S fuel' =>
      let '(tk, val, s1) := anext s in
      if token_eqb tk CLOSE_BRACE then AOk (Some (rv ++ [new_opt])) s1
      else if token_eqb tk COMMENT then aoption fuel' s1 rv new_opt
      else if str_eqb val (T "additional_bindings") then
        if token_eqb tk TEOF || token_eqb tk ILLEGAL
        then AErr (EParser (T "non-illegal input") 0 (token_string tk))
        else abind (aadditional [] s1) (fun more s2 =>
             aoption fuel' s2 (rv ++ match more with Some m => m | None => [] end) new_opt)
      else if token_eqb tk TEOF || token_eqb tk ILLEGAL then
        AErr (EParser (T "legal token while parsing HttpBindings") 0
                      (T "(" ++ val ++ T ") of type " ++ token_string tk))
      else AErr (EParser (T "close brace or comment while parsing http bindings") 0 (token_string tk ++ val))
  end.

Definition ahttp (s : list stok) : ares (option (list hbinding)) :=
  let '(desc, (tk, val), s1) := askip [] s in
  if token_eqb tk TEOF || token_eqb tk ILLEGAL
  then AErr (EParser (T "non-illegal input") 0 (token_string tk))
  else if str_eqb val (T "option") then
    abind (aff (T "{") s1) (fun _ s2 =>
    abind (aparse_fields s2) (fun fc s3 =>
    let '(fields, custom) := fc in aoption (S (length s3)) s3 [] (mkBinding desc fields custom)))
  else if str_eqb val (T "additional_bindings") then aadditional desc s1
  else if str_eqb val (T "}") then AOk None s1
  else AErr (EOptional (T "'}', 'option' or 'additional_bindings' while parsing options") 0 val).

Fixpoint atype (ty : str) (s : list stok) : ares str :=
  match s with
  | [] => AErr (EParser (T "')' or '.'") 0 [])
  | (tk, val) :: s' =>
      if token_eqb tk CLOSE_PAREN then AOk ty s'
      else if token_eqb tk SYMBOL then atype ty s'
      else if token_eqb tk IDENT then atype val s'
      else AErr (EParser (T "')' or '.'") 0 val)
  end.

Definition aarg (expected : str) (s : list stok) : ares str :=
  let '(tk, val, s1) := anext s in
  if negb (token_eqb tk OPEN_PAREN) then AErr (EParser (T "'('") 0 val)
  else
  let '(_, val1, s2) := anext s1 in
  let s3 := if str_eqb val1 (T "stream") then s2 else s1 in
  let '(tk2, val2, _) := anext s3 in
  if negb (token_eqb tk2 IDENT) then AErr (EParser expected 0 val2) else atype [] s3.

(** ';' '}' after the bindings, comments ignored. *)
Definition aend (m : list hbinding -> hmethod) (bs : list hbinding) (s : list stok) : ares (option hmethod) :=
  let '(_, (tk8, val8), s8) := askip [] s in
  if negb (token_eqb tk8 SYMBOL) || negb (str_eqb val8 (T ";"))
  then AErr (EParser (T "';' after declaration of http options") 0 (val8 ++ token_string tk8))
  else
  let '(_, (tk9, val9), s9) := askip [] s8 in
  if negb (token_eqb tk9 CLOSE_BRACE)
  then AErr (EParser (T "'}' after declaration of http options marking end of rpc declarations") 0
                     (val9 ++ token_string tk9))
  else AOk (Some (m bs)) s9.

Definition amethod (s : list stok) : ares (option hmethod) :=
  let '(desc, (tk, val), s1) := askip [] s in
  if token_eqb tk CLOSE_BRACE then AErr ESvcDefEnd
  else if negb (token_eqb tk IDENT) || negb (str_eqb val (T "rpc"))
  then AErr (EParser (T "identifier 'rpc'") 0 val)
  else
  let '(tk2, name, s2) := anext s1 in
  if negb (token_eqb tk2 IDENT) then AErr (EParser (T "a string identifier") 0 name)
  else
  abind (aarg (T "a string identifier in first argument to method") s2) (fun req s3 =>
  let '(tk4, val4, s4) := anext s3 in
  if negb (token_eqb tk4 IDENT) || negb (str_eqb val4 (T "returns"))
  then AErr (EParser (T "'returns' keyword") 0 val4)
  else
  abind (aarg (T "a string identifier in return argument to method") s4) (fun resp s5 =>
  let '(tk6, val6, s6) := anext s5 in
  if str_eqb val6 (T ";") then AOk None s6
  else if negb (token_eqb tk6 OPEN_BRACE)
  then AErr (EParser (T "'{' after declaration of method signature") 0 val6)
  else
  abind (ahttp s6) (fun ob s7 =>
  match ob with
  | None => AOk None s7
  | Some bs => aend (mkMethod name desc req resp) bs s7
  end))).

Fixpoint amethods (fuel : nat) (s : list stok) (ms : list hmethod) : ares (list hmethod) :=
  match fuel with
  | O => AFuel
  | S fuel' =>
      match amethod s with
      | AOk (Some m) s' => amethods fuel' s' (ms ++ [m])
      | AOk None s' => amethods fuel' s' ms
      | AErr ESvcDefEnd => AOk ms s
      | AErr e => AErr e
      | AFuel => AFuel
      end
  end.

Definition aservice (s : list stok) : ares hservice :=
  let '(tk, val, s1) := anext s in
  if token_eqb tk TEOF then AErr EUnexpectedEOF
  else if negb (token_eqb tk IDENT) && negb (str_eqb val (T "service"))
  then AErr (EParser (T "'service' identifier") 0 val)
  else
  let '(tk2, name, s2) := anext s1 in
  if negb (token_eqb tk2 IDENT) then AErr (EParser (T "a string identifier") 0 name)
  else
  let '(tk3, val3, s3) := anext s2 in
  if negb (token_eqb tk3 OPEN_BRACE) then AErr (EParser (T "'{'") 0 val3)
  else abind (amethods (S (length s3)) s3 []) (fun ms s4 => AOk (mkService name ms) s4).
