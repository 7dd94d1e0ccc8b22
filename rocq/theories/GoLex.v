(** The tokens of Go source text (The Go Programming Language Specification, "Lexical elements"), for texts without rune literals, letters outside ASCII, and raw strings
    or block comments that go over more than one line, which are [Bad]; numbers are integers.  A specification: nothing here is baron's code. *)
From Coq Require Import String.
From Verif Require Import GoStr Strs.

(** What a byte is to the lexer. *)
Inductive class := KLine | KSpace | KLetter | KDigit | KQuote | KTick | KBackslash | KOp (c : N) | KText | KOther.
Definition op_chars : str := T "+-*/%&|^<>=!()[]{},;.:~".
Definition class_of (c : N) : class :=
  if N.eqb c 10 then KLine
  else if N.eqb c 32 || N.eqb c 9 || N.eqb c 13 then KSpace
  else if is_letter c || N.eqb c c_underscore then KLetter
  else if is_digit c then KDigit
  else if N.eqb c c_dquote then KQuote
  else if N.eqb c 96 then KTick
  else if N.eqb c c_backslash then KBackslash
  else if existsb (N.eqb c) op_chars then KOp c
  else KOther.
(** The operators and punctuation; ".." is here only because it starts "...". *)
Definition operators : list str :=
  map T ["+"; "-"; "*"; "/"; "%"; "&"; "|"; "^"; "<"; ">"; "="; "!"; "("; ")"; "["; "]"; "{"; "}"; ","; ";"; "."; ":"; "~";
         "<<"; ">>"; "&^"; "+="; "-="; "*="; "/="; "%="; "&="; "|="; "^="; "<<="; ">>="; "&^="; "&&"; "||"; "<-"; "++"; "--"; "=="; "!="; "<="; ">="; ":="; ".."; "..."]%string.
(** After these a line that ends gets a semicolon; after a word it does unless the word is a keyword other than the four. *)
Definition ends_statement (o : str) : bool := existsb (str_eqb o) (map T [")"; "]"; "}"; "++"; "--"]%string).
Definition goes_on (w : str) : bool := is_keyword w && negb (existsb (str_eqb w) (map T ["break"; "continue"; "fallthrough"; "return"]%string)).

(** Over any alphabet whose letters have a class (the proofs use one with names as single letters). *)
Section Lexer.
  Variable A : Type.
  Variable cls : A -> class.
  (** None: cannot be told *)
  Variable on : list A -> option bool.
  Inductive tok := Word (w : list A) | Num (n : list A) | Str (s : list A) (* as between the quotes *) | Raw (s : list A) | Op (o : str) | Semi | Bad.
  (** The token being read; [prev]: the token before it (for [Idle] and [Note]: the last token) can end a statement. *)
  Inductive state := Idle (prev : bool) | InWord (w : list A) | InNum (n : list A) | InOp (prev : bool) (o : str) | InStr (s : list A) | InEsc (s : list A) | InRaw (s : list A) | Note (prev : bool) | InBlock (prev star : bool).
  Definition finish (st : state) : list tok * bool :=
    match st with
    | Idle b | Note b => ([], b)
    | InWord w => match on w with Some b => ([Word w], negb b) | None => ([Bad], false) end
    | InNum n => ([Num n], true)
    | InOp _ o => (if str_eqb o (T ";") then [Semi] else [Op o], ends_statement o)
    | InStr _ | InEsc _ | InRaw _ | InBlock _ _ => ([Bad], false)
    end.
  (** A byte that is not part of the token before it *)
  Definition start (prev : bool) (c : A) : list tok * state :=
    match cls c with
    | KLine => (if prev then [Semi] else [], Idle false)
    | KSpace => ([], Idle prev)
    | KLetter => ([], InWord [c])
    | KDigit => ([], InNum [c])
    | KQuote => ([], InStr [])
    | KTick => ([], InRaw [])
    | KOp o => ([], InOp prev [o])
    | KBackslash | KText | KOther => ([Bad], Idle false)
    end.
  Definition next (st : state) (c : A) : list tok * state := let (t, b) := finish st in let (t', st') := start b c in (t ++ t', st').
  Definition step (st : state) (c : A) : list tok * state :=
    match st, cls c with
    | InStr _, KLine | InEsc _, KLine => ([Bad], Idle false)
    | InStr s, KQuote => ([Str s], Idle true)
    | InStr s, KBackslash => ([], InEsc (s ++ [c]))
    | InStr s, _ => ([], InStr (s ++ [c]))
    | InEsc s, KText => ([Bad], Idle false)
    | InEsc s, _ => ([], InStr (s ++ [c]))
    | InRaw _, KLine | InRaw _, KText => ([Bad], Idle false)
    | InRaw s, KTick => ([Raw s], Idle true)
    | InRaw s, _ => ([], InRaw (s ++ [c]))
    | InBlock _ _, KLine | InBlock _ _, KText => ([Bad], Idle false)
    | InBlock b s, KOp o => ([], if s && N.eqb o c_slash then Idle b else InBlock b (N.eqb o c_star))
    | InBlock b _, _ => ([], InBlock b false)
    | Note b, KLine => next (Note b) c
    | Note b, _ => ([], Note b)
    | InWord w, KLetter | InWord w, KDigit => ([], InWord (w ++ [c]))
    | InNum n, KLetter | InNum n, KDigit => ([], InNum (n ++ [c]))
    | InOp p o, KOp d => if str_eqb (o ++ [d]) (T "//") then ([], Note p)
                         else if str_eqb (o ++ [d]) (T "/*") then ([], InBlock p false)
                         else if existsb (str_eqb (o ++ [d])) operators then ([], InOp p (o ++ [d]))
                         else next (InOp p o) c
    | st, _ => next st c
    end.
  Fixpoint run (st : state) (s : list A) : list tok * state :=
    match s with
    | [] => ([], st)
    | c :: s' => let (t, st1) := step st c in let (t', st2) := run st1 s' in (t ++ t', st2)
    end.
  (** Semicolons and commas before a closing bracket may be left out. *)
  Definition closing (t : tok) : bool := match t with Op o => str_eqb o (T "}") || str_eqb o (T ")") | Semi => false | _ => false end.
  Definition optional (t : tok) : bool := match t with Op o => str_eqb o (T ",") | Semi => true | _ => false end.
  Definition closes (l : list tok) : bool := match l with t :: _ => closing t | [] => false end.
  Fixpoint plain (l : list tok) : list tok :=
    match l with
    | [] => []
    | t :: l' => let r := plain l' in if optional t && closes r then r else t :: r
    end.
End Lexer.
Arguments Word {A}. Arguments Num {A}. Arguments Str {A}. Arguments Raw {A}. Arguments Op {A}. Arguments Semi {A}. Arguments Bad {A}. Arguments plain {A}.
Arguments Idle {A}. Arguments InWord {A}. Arguments InNum {A}. Arguments InOp {A}. Arguments InStr {A}. Arguments InEsc {A}. Arguments Note {A}. Arguments InRaw {A}. Arguments InBlock {A}.
(** The tokens of a text, with a semicolon for the end of its last line. *)
Definition lex (s : str) : list (tok N) := fst (run N class_of (fun w => Some (goes_on w)) (Idle false) (s ++ [10%N])).
(** The tokens that matter *)
Definition tokens (s : str) : list (tok N) := plain (lex s).
(** go/format changes only the layout of this text, if it accepts it. *)
Definition lays_out (format_source : str -> option str) (s : str) : Prop := forall s', format_source s = Some s' -> tokens s' = tokens s.
