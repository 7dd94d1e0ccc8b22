(** Model of Go's [strconv.Unquote] (used at svcdef/svcparse/parser.go:565), on runes.
    The byte escapes \xHH and \OOO yield a rune when the value is ASCII; a byte >= 128, which in
    Go becomes a lone (non UTF-8) byte of the string, is modelled by the out-of-range code point
    0x110000 + byte.  [None] is strconv.ErrSyntax. *)
From Verif Require Import GoStr.

Definition hex_val (c : N) : option N :=
  if in_range 48 57 c then Some (c - 48)%N
  else if in_range 97 102 c then Some (c - 97 + 10)%N
  else if in_range 65 70 c then Some (c - 65 + 10)%N
  else None.

Fixpoint hex_digits (n : nat) (s : str) (acc : N) : option (N * str) :=
  match n with
  | O => Some (acc, s)
  | S n' => match s with
            | [] => None
            | c :: s' => match hex_val c with
                         | Some d => hex_digits n' s' (acc * 16 + d)%N
                         | None => None
                         end
            end
  end.

Definition byte_rune (b : N) : N := if N.ltb b 128 then b else (1114112 + b)%N.

(** \u and \U: above U+10FFFF is a syntax error; surrogates are stored as U+FFFD (so in the Go releases of the
    go.mod of this project; later releases reject them). *)
Definition code_rune (v : N) : option N :=
  if N.ltb 1114111 v then None
  else Some (if in_range 55296 57343 v then 65533%N else v).

(** The escape sequence after a backslash, inside double quotes: value and rest. *)
Definition unquote_escape (c : N) (s : str) : option (N * str) :=
  if N.eqb c 97 then Some (7%N, s)            (* \a *)
  else if N.eqb c 98 then Some (8%N, s)       (* \b *)
  else if N.eqb c 102 then Some (12%N, s)     (* \f *)
  else if N.eqb c 110 then Some (10%N, s)     (* \n *)
  else if N.eqb c 114 then Some (13%N, s)     (* \r *)
  else if N.eqb c 116 then Some (9%N, s)      (* \t *)
  else if N.eqb c 118 then Some (11%N, s)     (* \v *)
  else if N.eqb c 120 then                    (* \xHH *)
    match hex_digits 2 s 0 with Some (v, s') => Some (byte_rune v, s') | None => None end
  else if N.eqb c 117 then                    (* \uHHHH *)
    match hex_digits 4 s 0 with
    | Some (v, s') => match code_rune v with Some r => Some (r, s') | None => None end
    | None => None end
  else if N.eqb c 85 then                     (* \UHHHHHHHH *)
    match hex_digits 8 s 0 with
    | Some (v, s') => match code_rune v with Some r => Some (r, s') | None => None end
    | None => None end
  else if in_range 48 55 c then               (* \OOO *)
    match s with
    | d1 :: d2 :: s' =>
        if in_range 48 55 d1 && in_range 48 55 d2 then
          let v := ((c - 48) * 64 + (d1 - 48) * 8 + (d2 - 48))%N in
          if N.ltb 255 v then None else Some (byte_rune v, s')
        else None
    | _ => None
    end
  else if N.eqb c c_backslash then Some (c_backslash, s)
  else if N.eqb c c_dquote then Some (c_dquote, s)
  else None.

(** The body between double quotes: no bare newline and no bare double quote. *)
Fixpoint unquote_body (fuel : nat) (s : str) : option str :=
  match fuel with
  | O => None
  | S fuel' =>
      match s with
      | [] => Some []
      | c :: s' =>
          if N.eqb c c_nl then None
          else if N.eqb c c_dquote then None
          else if N.eqb c c_backslash then
            match s' with
            | [] => None
            | d :: s'' =>
                match unquote_escape d s'' with
                | Some (r, rest) =>
                    match unquote_body fuel' rest with Some v => Some (r :: v) | None => None end
                | None => None
                end
            end
          else match unquote_body fuel' s' with Some v => Some (c :: v) | None => None end
      end
  end.

(** strconv.Unquote.  Only double-quoted input is modelled in full: the lexer only hands over
    units starting with a double quote.  Values starting with any other rune are rejected here
    (Go would accept back-quoted and single-quoted ones, which the lexer never produces). *)
Definition unquote (s : str) : option str :=
  match s with
  | q :: rest =>
      if N.eqb q c_dquote then
        match rev rest with
        | q2 :: body_rev =>
            if N.eqb q2 c_dquote then unquote_body (S (length body_rev)) (rev body_rev) else None
        | [] => None
        end
      else None
  | [] => None
  end.
