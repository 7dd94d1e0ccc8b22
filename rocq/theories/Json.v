(** What the generated error handling uses of encoding/json: json.Marshal of
    struct{Error string `json:error`} and json.Unmarshal into it
    (gengokit/template/NAME-service/baron/NAME.pb.baron.go.tmpl:362, 383-384, 396-398; encode.go and
    decode.go of the Go library).  A text is the sequence of its runes; a byte b that is not part of valid
    UTF-8 is the number 1114112 + b.  Not modelled: the limit of 10000 nested values. *)
From Verif Require Import GoStr GoStrProofs GoMap GenHttp.

(** ** Marshal *)
Definition hex_lower (n : N) : N := if (n <? 10)%N then (48 + n)%N else (87 + n)%N.
Definition u_escape (c : N) : str :=
  T "\u" ++ [hex_lower (c / 4096 mod 16); hex_lower (c / 256 mod 16); hex_lower (c / 16 mod 16); hex_lower (c mod 16)].
Definition rune_error : N := 65533.
(** encode.go, encodeState.string with escapeHTML. *)
Definition quote_rune (c : N) : str :=
  if N.eqb c c_dquote || N.eqb c c_backslash then [c_backslash; c]
  else if N.eqb c 10 then T "\n" else if N.eqb c 13 then T "\r" else if N.eqb c 9 then T "\t"
  else if (c <? 32)%N || N.eqb c 60 || N.eqb c 62 || N.eqb c 38 then u_escape c
  else if N.eqb c 8232 || N.eqb c 8233 then u_escape c
  else if (1114112 <=? c)%N then T "\ufffd"
  else [c].
Definition json_quote (s : str) : str := [c_dquote] ++ flat_map quote_rune s ++ [c_dquote].
(** json.Marshal(errorWrapper{Error: s}) *)
Definition marshal_error (s : str) : str := T "{" ++ json_quote (T "error") ++ T ":" ++ json_quote s ++ T "}".

(** ** Unmarshal *)
Definition hex_digit_val (c : N) : option N :=
  if is_digit c then Some (c - 48)%N
  else if in_range 97 102 c then Some (c - 87)%N
  else if in_range 65 70 c then Some (c - 55)%N
  else None.
Definition hex4 (a b c d : N) : option N :=
  match hex_digit_val a, hex_digit_val b, hex_digit_val c, hex_digit_val d with
  | Some w, Some x, Some y, Some z => Some (w * 4096 + x * 256 + y * 16 + z)%N
  | _, _, _, _ => None
  end.
Definition simple_escape (c : N) : option N :=
  if N.eqb c c_dquote || N.eqb c c_backslash || N.eqb c c_slash then Some c
  else if N.eqb c 98 then Some 8%N else if N.eqb c 102 then Some 12%N else if N.eqb c 110 then Some 10%N
  else if N.eqb c 114 then Some 13%N else if N.eqb c 116 then Some 9%N else None.
Definition push_rune (c : N) (o : option (str * str)) : option (str * str) :=
  match o with Some (a, r) => Some (c :: a, r) | None => None end.
Definition lead (r : N) : bool := in_range 55296 56319 r.
Definition trail (r : N) : bool := in_range 56320 57343 r.
(** decode.go, unquoteBytes, together with the scanner: the text of a string literal (the opening quote
    is gone), and what follows the closing quote. *)
Fixpoint json_unquote (s : str) : option (str * str) :=
  match s with
  | [] => None
  | c :: s1 =>
      if N.eqb c c_dquote then Some ([], s1)
      else if (c <? 32)%N then None
      else if N.eqb c c_backslash then
        match s1 with
        | [] => None
        | d :: s2 =>
            if N.eqb d 117 then
              match s2 with
              | a :: b :: e :: f :: s3 =>
                  match hex4 a b e f with
                  | None => None
                  | Some r =>
                      if lead r || trail r then
                        match s3 with
                        | x :: y :: a2 :: b2 :: e2 :: f2 :: s4 =>
                            match (if N.eqb x c_backslash && N.eqb y 117 then hex4 a2 b2 e2 f2 else None) with
                            | Some r2 =>
                                if lead r && trail r2
                                then push_rune ((r - 55296) * 1024 + (r2 - 56320) + 65536)%N (json_unquote s4)
                                else push_rune rune_error (json_unquote s3)
                            | None => push_rune rune_error (json_unquote s3)
                            end
                        | _ => push_rune rune_error (json_unquote s3)
                        end
                      else push_rune r (json_unquote s3)
                  end
              | _ => None
              end
            else match simple_escape d with
                 | Some r => push_rune r (json_unquote s2)
                 | None => None
                 end
        end
      else push_rune (if (1114112 <=? c)%N then rune_error else c) (json_unquote s1)
  end.

Inductive json :=
| JNull | JBool (b : bool) | JNum (lit : str) | JStr (s : str) | JArr (l : list json) | JObj (l : list (str * json)).
(** scanner.go: one value at the start of the text, which has no leading space. *)
Fixpoint parse_value (fuel : nat) (s : str) : option (json * str) :=
  match fuel with
  | 0 => None
  | S fuel =>
      match s with
      | [] => None
      | c :: r =>
          if N.eqb c c_dquote then match json_unquote r with Some (t, r') => Some (JStr t, r') | None => None end
          else if N.eqb c 91 then
            match skip_ws r with
            | d :: r' => if N.eqb d 93 then Some (JArr [], r')
                         else match parse_elems fuel (skip_ws r) with Some (l, t) => Some (JArr l, t) | None => None end
            | [] => None
            end
          else if N.eqb c c_lbrace then
            match skip_ws r with
            | d :: r' => if N.eqb d c_rbrace then Some (JObj [], r')
                         else match parse_members fuel (skip_ws r) with Some (l, t) => Some (JObj l, t) | None => None end
            | [] => None
            end
          else if has_prefix s (T "null") then Some (JNull, skipn 4 s)
          else if has_prefix s (T "true") then Some (JBool true, skipn 4 s)
          else if has_prefix s (T "false") then Some (JBool false, skipn 5 s)
          else let (lit, t) := span num_char s in if json_number lit then Some (JNum lit, t) else None
      end
  end
with parse_elems (fuel : nat) (s : str) : option (list json * str) :=
  match fuel with
  | 0 => None
  | S fuel =>
      match parse_value fuel s with
      | None => None
      | Some (v, r) =>
          match skip_ws r with
          | c :: r' =>
              if N.eqb c 44 then match parse_elems fuel (skip_ws r') with Some (l, t) => Some (v :: l, t) | None => None end
              else if N.eqb c 93 then Some ([v], r') else None
          | [] => None
          end
      end
  end
with parse_members (fuel : nat) (s : str) : option (list (str * json) * str) :=
  match fuel with
  | 0 => None
  | S fuel =>
      match s with
      | q :: s1 =>
          if N.eqb q c_dquote then
            match json_unquote s1 with
            | None => None
            | Some (k, r) =>
                match skip_ws r with
                | c :: r1 =>
                    if N.eqb c c_colon then
                      match parse_value fuel (skip_ws r1) with
                      | None => None
                      | Some (v, r2) =>
                          match skip_ws r2 with
                          | d :: r3 =>
                              if N.eqb d 44
                              then match parse_members fuel (skip_ws r3) with Some (l, t) => Some ((k, v) :: l, t) | None => None end
                              else if N.eqb d c_rbrace then Some ([(k, v)], r3) else None
                          | [] => None
                          end
                      end
                    else None
                | [] => None
                end
            end
          else None
      | [] => None
      end
  end.
(** A whole text: None is a SyntaxError. *)
Definition parse_json (s : str) : option json :=
  match parse_value (2 * length s + 2) (skip_ws s) with
  | Some (v, r) => match skip_ws r with [] => Some v | _ => None end
  | None => None
  end.
(** decode.go, object and literalStore, for the struct with the one string field named error: names are
    compared without regard to case, null leaves the field, another kind of value is an
    UnmarshalTypeError (None), which is reported after the rest was read. *)
Fixpoint store_error (l : list (str * json)) (cur : str) (bad : bool) : option str :=
  match l with
  | [] => if bad then None else Some cur
  | (k, v) :: l' =>
      if str_eqb (to_lower k) (T "error") then
        match v with
        | JStr s => store_error l' s bad
        | JNull => store_error l' cur bad
        | _ => store_error l' cur true
        end
      else store_error l' cur bad
  end.
Definition unmarshal_error (buf : str) : option str :=
  match parse_json buf with
  | Some (JObj l) => store_error l [] false
  | Some JNull => Some []
  | _ => None
  end.
