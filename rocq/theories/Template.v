(** Model of Go's text/template (parse/lex.go, parse/parse.go, exec.go, funcs.go), for the constructs that occur in the templates of baron:
    text, comments, trim markers, fields, variables, functions, pipelines, if, else if, range, with.

    Not modelled: define, template, block, assignments (=), range with two variables, variables declared by an action of their own, nil, true, false, characters, raw
    strings, numbers but digits; all these are errors here.  The text is a list of bytes. *)
From Verif Require Import GoStr GoMap Decimals Unquote Strs HttpTransport.

(** ** parse/lex.go *)
Inductive item :=
| IText (s : str) | ILeft | IRight | ISpace | IField (n : str) | IVar (n : str) | IIdent (n : str) | IStr (s : str) | INum (n : N)
| IDot | IPipe | IDeclare | ILParen | IRParen.
(** lex.go, spaceChars *)
Definition space_char (c : N) : bool := N.eqb c 32 || N.eqb c 9 || N.eqb c 13 || N.eqb c 10.
Fixpoint trim_left (s : str) : str := match s with c :: s' => if space_char c then trim_left s' else s | [] => [] end.
(** lex.go, rightTrimLength *)
Fixpoint trim_right (s : str) : str :=
  match s with
  | [] => []
  | c :: s' => match trim_right s' with [] => if space_char c then [] else [c] | t => c :: t end
  end.
(** strings.Index: what is before and after the first occurrence. *)
Fixpoint cut (sep s : str) : option (str * str) :=
  if has_prefix s sep then Some ([], skipn (length sep) s)
  else match s with [] => None | c :: s' => match cut sep s' with Some (a, b) => Some (c :: a, b) | None => None end end.
(** lex.go, isAlphaNumeric (on bytes; no letters beyond ASCII in actions) *)
Definition tm_alnum (c : N) : bool := is_alnum c || N.eqb c c_underscore.
Fixpoint span_alnum (s : str) : str * str :=
  match s with c :: s' => if tm_alnum c then let (a, b) := span_alnum s' in (c :: a, b) else ([], s) | [] => ([], []) end.
(** lex.go, atTerminator *)
Definition at_terminator (s : str) : bool :=
  match s with [] => true | c :: _ => space_char c || existsb (N.eqb c) [c_dot; 44%N; 124%N; c_colon; c_rparen; c_lparen; c_rbrace] end.
(** lex.go, lexQuote: the text up to the closing quote, with the quotes, and the rest. *)
Fixpoint span_quote (s : str) : option (str * str) :=
  match s with
  | [] => None
  | c :: s' =>
      if N.eqb c c_dquote then Some ([c], s')
      else if N.eqb c c_nl then None
      else if N.eqb c c_backslash then
        match s' with
        | d :: s'' => if N.eqb d c_nl then None else match span_quote s'' with Some (a, b) => Some (c :: d :: a, b) | None => None end
        | [] => None
        end
      else match span_quote s' with Some (a, b) => Some (c :: a, b) | None => None end
  end.
Fixpoint digits_val (s : str) (acc : N) : N := match s with c :: s' => digits_val s' (acc * 10 + (c - 48))%N | [] => acc end.
(** lex.go, lexSpace and the loop of lexInsideAction: spaces up to something else, or to the space of a closing " -}}". *)
Fixpoint skip_spaces (s : str) : str :=
  match s with c :: s' => if (N.eqb c 32 || N.eqb c 9) && negb (has_prefix s (T " -}}")) then skip_spaces s' else s | [] => [] end.
Definition text_item (s : str) : list item := match s with [] => [] | _ => [IText s] end.
(** lex.go, lexText, lexLeftDelim, lexComment, lexRightDelim and lexInsideAction.  [depth]: None outside of an action, else the number of open
    parentheses.  The fuel is more than the length of the text. *)
Fixpoint lex (fuel : nat) (depth : option nat) (s : str) : option (list item) :=
  match fuel with
  | 0 => None
  | S fuel =>
      match depth with
      | None =>
          match cut (T "{{") s with
          | None => Some (text_item s)
          | Some (pre, rest) =>
              let trim := has_prefix rest (T "- ") in
              let pre := if trim then trim_right pre else pre in
              let rest := if trim then skipn 2 rest else rest in
              if has_prefix rest (T "/*") then
                match cut (T "*/") rest with
                | None => None
                | Some (_, r) =>
                    if has_prefix r (T " -}}") then option_map (app (text_item pre)) (lex fuel None (trim_left (skipn 4 r)))
                    else if has_prefix r (T "}}") then option_map (app (text_item pre)) (lex fuel None (skipn 2 r))
                    else None
                end
              else option_map (fun l => text_item pre ++ ILeft :: l) (lex fuel (Some 0) rest)
          end
      | Some d =>
          let one i r := option_map (cons i) (lex fuel (Some d) r) in
          let close r := match d with 0 => option_map (cons IRight) (lex fuel None r) | S _ => None end in
          if has_prefix s (T " -}}") then close (trim_left (skipn 4 s))
          else if has_prefix s (T "}}") then close (skipn 2 s)
          else match s with
          | [] => None
          | c :: s' =>
              if N.eqb c 32 || N.eqb c 9 then one ISpace (skip_spaces s)
              else if N.eqb c c_colon then match s' with e :: r => if N.eqb e 61 then one IDeclare r else None | [] => None end
              else if N.eqb c 124 then one IPipe s'
              else if N.eqb c c_dquote then
                match span_quote s' with
                | Some (q, r) => match unquote (c :: q) with Some t => one (IStr t) r | None => None end
                | None => None
                end
              else if N.eqb c 36 then let (n, r) := span_alnum s' in if at_terminator r then one (IVar n) r else None
              else if N.eqb c c_dot then
                if at_terminator s' then one IDot s' else let (n, r) := span_alnum s' in if at_terminator r then one (IField n) r else None
              else if is_digit c then let (n, r) := span_alnum s in if forallb is_digit n && at_terminator r then one (INum (digits_val n 0)) r else None
              else if tm_alnum c then let (n, r) := span_alnum s in if at_terminator r then one (IIdent n) r else None
              else if N.eqb c c_lparen then option_map (cons ILParen) (lex fuel (Some (S d)) s')
              else if N.eqb c c_rparen then match d with S d' => option_map (cons IRParen) (lex fuel (Some d') s') | 0 => None end
              else None
          end
      end
  end.
Definition lex_template (s : str) : option (list item) := lex (S (length s)) None s.

(** ** parse/parse.go *)
(** A pipeline: the variable it declares, and its commands; the operands of a command. *)
Inductive arg := ADot | AField (l : list str) | AVar (x : str) (l : list str) | AFun (f : str) | AStr (s : str) | ANum (n : N) | APipe (cmds : list (list arg)).
Record pipeline := mkPipe { pl_decl : option str; pl_cmds : list (list arg) }.
Inductive node :=
| NText (s : str)
| NAction (cmds : list (list arg))
| NIf (cmds : list (list arg)) (yes no : list node)
| NRange (p : pipeline) (body no : list node)
| NWith (p : pipeline) (body no : list node).
Definition keywords : list str := map T ["if"; "else"; "end"; "range"; "with"; "define"; "template"; "block"; "nil"; "true"; "false"; "break"; "continue"]%string.
(** gengokit.go:44-50 and httptransport.go:583-589, the functions of a template, with the predeclared ones (funcs.go) that are used. *)
Definition functions : list str := map T ["ToLower"; "ToUpper"; "Title"; "GoName"; "Contains"; "eq"; "ne"; "and"; "or"; "not"; "index"]%string.
Definition is_function (n : str) : bool := existsb (str_eqb n) functions.
Fixpoint skip_space (l : list item) : list item := match l with ISpace :: l' => skip_space l' | _ => l end.
(** parse.go, operand: the fields that follow a term. *)
Fixpoint field_chain (l : list item) : list str * list item :=
  match l with IField n :: l' => let (a, b) := field_chain l' in (n :: a, b) | _ => ([], l) end.
(** parse.go, pipeline, command, operand and term.  [vars]: the variables in scope.  [cmds] and [cmd] are the commands and the operands so far, in
    reverse.  The pipeline ends with [IRight] or [IRParen], which stays. *)
Fixpoint parse_cmds (fuel : nat) (vars : list str) (cmds : list (list arg)) (cmd : list arg) (l : list item) : option (list (list arg) * list item) :=
  match fuel with
  | 0 => None
  | S fuel =>
      let next a r :=
        match r with
        | ISpace :: r' => parse_cmds fuel vars cmds (a :: cmd) (skip_space r')
        | IPipe :: r' => parse_cmds fuel vars (rev (a :: cmd) :: cmds) [] (skip_space r')
        | IRight :: _ | IRParen :: _ => Some (rev (rev (a :: cmd) :: cmds), r)
        | _ => None
        end in
      match l with
      | IRight :: _ | IRParen :: _ => match cmd with [] => None | _ => Some (rev (rev cmd :: cmds), l) end
      | IPipe :: l' => match cmd with [] => None | _ => parse_cmds fuel vars (rev cmd :: cmds) [] (skip_space l') end
      | IDot :: r => next ADot r
      | IField _ :: _ => let (fs, r) := field_chain l in next (AField fs) r
      | IVar x :: r => if existsb (str_eqb x) vars then let (fs, r') := field_chain r in next (AVar x fs) r' else None
      | IIdent n :: r => if is_function n then next (AFun n) r else None
      | IStr s :: r => next (AStr s) r
      | INum n :: r => next (ANum n) r
      | ILParen :: r =>
          match parse_cmds fuel vars [] [] (skip_space r) with
          | Some (p, IRParen :: r') => next (APipe p) r'
          | _ => None
          end
      | _ => None
      end
  end.
Definition parse_pipe (vars : list str) (l : list item) : option (list (list arg) * list item) :=
  match parse_cmds (S (length l)) vars [] [] (skip_space l) with Some (p, IRight :: r) => Some (p, r) | _ => None end.
(** parse.go, pipeline: with the declaration of a variable. *)
Definition parse_decl (vars : list str) (l : list item) : option (pipeline * list item) :=
  match skip_space l with
  | IVar x :: r =>
      match skip_space r with
      | IDeclare :: r' => match parse_pipe vars r' with Some (p, r'') => Some (mkPipe (Some x) p, r'') | None => None end
      | _ => match parse_pipe vars l with Some (p, r'') => Some (mkPipe None p, r'') | None => None end
      end
  | _ => match parse_pipe vars l with Some (p, r'') => Some (mkPipe None p, r'') | None => None end
  end.
Definition declared (p : pipeline) (vars : list str) : list str := match pl_decl p with Some x => x :: vars | None => vars end.
(** How a list of nodes ends: at the end of the text, with end, with else, or with else if (what follows the if). *)
Inductive ending := EEof | EEnd (l : list item) | EElse (l : list item) | EElseIf (l : list item).
(** parse.go, action: the keyword at its head *)
Definition head_is (k : string) (l : list item) : option (list item) :=
  match skip_space l with IIdent n :: r => if str_eqb n (T k) then Some r else None | _ => None end.
Definition end_action (l : list item) : option (list item) := match skip_space l with IRight :: r => Some r | _ => None end.
(** parse.go, parse, itemList, action and parseControl. *)
Fixpoint parse_list (fuel : nat) (vars : list str) (l : list item) : option (list node * ending) :=
  match fuel with
  | 0 => None
  | S fuel =>
      let control r (kind : list node -> list node -> node) (is_if : bool) (bvars : list str) : option (list node * ending) :=
        match parse_list fuel bvars r with
        | Some (yes, EEnd r') => match parse_list fuel vars r' with Some (ns, e) => Some (kind yes [] :: ns, e) | None => None end
        | Some (yes, EElse r') =>
            match parse_list fuel bvars r' with
            | Some (no, EEnd r'') => match parse_list fuel vars r'' with Some (ns, e) => Some (kind yes no :: ns, e) | None => None end
            | _ => None
            end
        | Some (yes, EElseIf r') =>
            if is_if then
              match parse_list fuel bvars (ILeft :: IIdent (T "if") :: r') with
              | Some (n :: ns, e) => Some (kind yes [n] :: ns, e)
              | _ => None
              end
            else None
        | _ => None
        end in
      match l with
      | [] => Some ([], EEof)
      | IText s :: r => match parse_list fuel vars r with Some (ns, e) => Some (NText s :: ns, e) | None => None end
      | ILeft :: a =>
          match head_is "end" a with Some r => match end_action r with Some r' => Some ([], EEnd r') | None => None end | None =>
          match head_is "else" a with
          | Some r => match end_action r with Some r' => Some ([], EElse r') | None => match head_is "if" r with Some r' => Some ([], EElseIf r') | None => None end end
          | None =>
          match head_is "if" a with Some r => match parse_pipe vars r with Some (p, r') => control r' (NIf p) true vars | None => None end | None =>
          match head_is "range" a with Some r => match parse_decl vars r with Some (p, r') => control r' (NRange p) false (declared p vars) | None => None end | None =>
          match head_is "with" a with Some r => match parse_decl vars r with Some (p, r') => control r' (NWith p) false (declared p vars) | None => None end | None =>
          match parse_pipe vars a with
          | Some (p, r) => match parse_list fuel vars r with Some (ns, e) => Some (NAction p :: ns, e) | None => None end
          | None => None
          end end end end end end
      | _ => None
      end
  end.
(** Template.Parse; the variable $ (here with an empty name) is there from the start. *)
Definition parse_template (s : str) : option (list node) :=
  match lex_template s with
  | Some l => match parse_list (S (length l)) [[]] l with Some (ns, EEof) => Some ns | _ => None end
  | None => None
  end.

(** ** exec.go and funcs.go *)
Section Exec.
  (** Structs and pointers to structs, with their fields and methods without arguments; None: an error. *)
  Variable O : Type.
  Inductive value := VStr (s : str) | VBool (b : bool) | VNum (n : N) | VList (l : list value) | VObj (o : O).
  Variable get : O -> str -> option value.
  Definition field_of (v : value) (n : str) : option value := match v with VObj o => get o n | _ => None end.
  Fixpoint fields_of (v : value) (l : list str) : option value :=
    match l with [] => Some v | n :: l' => match field_of v n with Some w => fields_of w l' | None => None end end.
  (** exec.go, isTrue *)
  Definition truth (v : value) : bool :=
    match v with VStr [] | VBool false | VNum 0 | VList [] => false | _ => true end.
  (** funcs.go, eq, on values of basic kinds; None: an error *)
  Definition basic_eq (a b : value) : option bool :=
    match a, b with
    | VStr s, VStr t => Some (str_eqb s t)
    | VBool x, VBool y => Some (Bool.eqb x y)
    | VNum x, VNum y => Some (N.eqb x y)
    | _, _ => None
    end.
  (** funcs.go, eq with two or more arguments: stops at the first that is equal. *)
  Fixpoint eq_any (a : value) (l : list value) : option bool :=
    match l with
    | [] => Some false
    | b :: l' => match basic_eq a b with Some true => Some true | Some false => eq_any a l' | None => None end
    end.
  (** funcs.go, and / or *)
  Fixpoint fn_and (a : value) (l : list value) : value := match l with [] => a | b :: l' => if truth a then fn_and b l' else a end.
  Fixpoint fn_or (a : value) (l : list value) : value := match l with [] => a | b :: l' => if truth a then a else fn_or b l' end.
  (** exec.go, evalCall (strings.Title is of no use here and not modelled) *)
  Definition call (f : str) (args : list value) : option value :=
    if str_eqb f (T "ToLower") then match args with [VStr s] => Some (VStr (to_lower s)) | _ => None end
    else if str_eqb f (T "ToUpper") then match args with [VStr s] => Some (VStr (to_upper s)) | _ => None end
    else if str_eqb f (T "GoName") then match args with [VStr s] => Some (VStr (go_camel_case s)) | _ => None end
    else if str_eqb f (T "Contains") then match args with [VStr s; VStr t] => Some (VBool (contains s t)) | _ => None end
    else if str_eqb f (T "eq") then match args with a :: b :: l => option_map VBool (eq_any a (b :: l)) | _ => None end
    else if str_eqb f (T "ne") then match args with [a; b] => option_map (fun x => VBool (negb x)) (basic_eq a b) | _ => None end
    else if str_eqb f (T "and") then match args with a :: l => Some (fn_and a l) | _ => None end
    else if str_eqb f (T "or") then match args with a :: l => Some (fn_or a l) | _ => None end
    else if str_eqb f (T "not") then match args with [a] => Some (VBool (negb (truth a))) | _ => None end
    else if str_eqb f (T "index") then match args with [VList l; VNum n] => nth_error l (N.to_nat n) | _ => None end
    else None.
  Definition vars := list (str * value).
  Definition lookup (e : vars) (x : str) : option value := mget e x.
  Definition with_final (args : list value) (final : option value) : list value := match final with Some v => args ++ [v] | None => args end.
  (** exec.go, evalArg *)
  Fixpoint eval_arg (e : vars) (dot : value) (a : arg) {struct a} : option value :=
    let eval_args := fix go (l : list arg) : option (list value) :=
      match l with [] => Some [] | x :: l' => match eval_arg e dot x, go l' with Some v, Some vs => Some (v :: vs) | _, _ => None end end in
    let eval_cmd := fun (c : list arg) (final : option value) =>
      match c with
      | AFun f :: l => match eval_args l with Some vs => call f (with_final vs final) | None => None end
      | [x] => match final with None => eval_arg e dot x | Some _ => None end
      | _ => None
      end in
    match a with
    | ADot => Some dot
    | AField l => fields_of dot l
    | AVar x l => match lookup e x with Some v => fields_of v l | None => None end
    | AFun f => call f []
    | AStr s => Some (VStr s)
    | ANum n => Some (VNum n)
    | APipe cmds =>
        (fix go (cs : list (list arg)) (final : option value) : option value :=
           match cs with
           | [] => final
           | c :: cs' => match eval_cmd c final with Some v => go cs' (Some v) | None => None end
           end) cmds None
    end.
  (** exec.go, evalPipeline *)
  Definition eval_pipe (e : vars) (dot : value) (cmds : list (list arg)) : option value := eval_arg e dot (APipe cmds).
  (** exec.go, printValue; other kinds are not modelled *)
  Definition print (v : value) : option str :=
    match v with
    | VStr s => Some s
    | VBool true => Some (T "true")
    | VBool false => Some (T "false")
    | VNum n => Some (itoa (Z.of_N n))
    | _ => None
    end.
  Definition bind (p : pipeline) (v : value) (e : vars) : vars := match pl_decl p with Some x => (x, v) :: e | None => e end.
  (** exec.go, walk, walkIfOrWith and walkRange *)
  Fixpoint exec_node (e : vars) (dot : value) (n : node) {struct n} : option str :=
    let exec_list := fix go (e : vars) (dot : value) (l : list node) : option str :=
      match l with [] => Some [] | x :: l' => match exec_node e dot x, go e dot l' with Some a, Some b => Some (a ++ b) | _, _ => None end end in
    match n with
    | NText s => Some s
    | NAction cmds => match eval_pipe e dot cmds with Some v => print v | None => None end
    | NIf cmds yes no =>
        match eval_pipe e dot cmds with
        | Some v => if truth v then exec_list e dot yes else exec_list e dot no
        | None => None
        end
    | NWith p yes no =>
        match eval_pipe e dot (pl_cmds p) with
        | Some v => if truth v then exec_list (bind p v e) v yes else exec_list (bind p v e) dot no
        | None => None
        end
    | NRange p body no =>
        match eval_pipe e dot (pl_cmds p) with
        | Some (VList []) => exec_list e dot no
        | Some (VList l) =>
            (fix each (l : list value) : option str :=
               match l with [] => Some [] | v :: l' => match exec_list (bind p v e) v body, each l' with Some a, Some b => Some (a ++ b) | _, _ => None end end) l
        | _ => None
        end
    end.
  Fixpoint exec_nodes (e : vars) (dot : value) (l : list node) : option str :=
    match l with [] => Some [] | x :: l' => match exec_node e dot x, exec_nodes e dot l' with Some a, Some b => Some (a ++ b) | _, _ => None end end.
  (** Template.Execute on a struct *)
  Definition execute (ns : list node) (data : O) : option str := exec_nodes [([], VObj data)] (VObj data) ns.
  (** gengokit.go:101-118 and httptransport.go:594-603, ApplyTemplate: None: an error (or, in httptransport, the panic of template.Must) *)
  Definition apply_template (text : str) (data : O) : option str := match parse_template text with Some ns => execute ns data | None => None end.
End Exec.
Arguments VStr {O} s.
Arguments VBool {O} b.
Arguments VNum {O} n.
Arguments VList {O} l.
Arguments VObj {O} o.
