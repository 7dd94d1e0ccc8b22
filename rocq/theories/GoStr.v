(** Text and the parts of Go's [strings]/[strconv] packages the model uses.

    A Go string is modelled by the sequence of its runes ([list N], one code point per
    element).  Byte-indexed Go code is only modelled this way where it inspects ASCII bytes
    alone (UTF-8 never hides an ASCII byte inside a longer sequence). *)
From Coq Require Export String Ascii.
From Coq Require Export List Arith NArith ZArith Lia Bool.
Export ListNotations.
Close Scope string_scope.
Open Scope list_scope.

Definition str := list N.

(** String literals: [T "get"] is the Go literal ["get"]. *)
Definition T (s : string) : str := map N_of_ascii (list_ascii_of_string s).

(** Go's [==] on strings. *)
Fixpoint str_eqb (a b : str) : bool :=
  match a, b with
  | [], [] => true
  | x :: a', y :: b' => N.eqb x y && str_eqb a' b'
  | _, _ => false
  end.

(** Rune literals that occur in the Go sources. *)
Definition c_nl : N := 10.      (* '\n' *)
Definition c_tab : N := 9.
Definition c_cr : N := 13.
Definition c_space : N := 32.
Definition c_dquote : N := 34.  (* double quote *)
Definition c_squote : N := 39.
Definition c_lparen : N := 40.
Definition c_rparen : N := 41.
Definition c_star : N := 42.
Definition c_dash : N := 45.
Definition c_dot : N := 46.
Definition c_slash : N := 47.
Definition c_colon : N := 58.
Definition c_semi : N := 59.
Definition c_backslash : N := 92.
Definition c_underscore : N := 95.
Definition c_backquote : N := 96.
Definition c_lbrace : N := 123.
Definition c_rbrace : N := 125.

Definition in_range (lo hi c : N) : bool := N.leb lo c && N.leb c hi.
Definition is_lower (c : N) : bool := in_range 97 122 c.
Definition is_upper (c : N) : bool := in_range 65 90 c.
Definition is_digit (c : N) : bool := in_range 48 57 c.
Definition is_letter (c : N) : bool := is_lower c || is_upper c.
Definition is_alnum (c : N) : bool := is_letter c || is_digit c.

(** The Unicode tables behind [unicode.IsLetter], [unicode.IsDigit] and [unicode.IsSpace]:
    any classification that agrees with ASCII on ASCII. *)
Record unicode := {
  u_letter : N -> bool;
  u_digit : N -> bool;
  u_space : N -> bool }.

(** [unicode.IsSpace] on ASCII: '\t','\n','\v','\f','\r',' '. *)
Definition ascii_space (c : N) : bool := in_range 9 13 c || N.eqb c 32.

Definition unicode_ok (U : unicode) : Prop :=
  (forall c, (c < 128)%N ->
     u_letter U c = is_letter c /\ u_digit U c = is_digit c /\ u_space U c = ascii_space c)
  /\ (forall c, u_space U c = true -> u_letter U c = false /\ u_digit U c = false).

(** A concrete instance, used by the examples: ASCII plus Latin-1 letters, NEL and NBSP. *)
Definition latin1 : unicode := {|
  u_letter := fun c => is_letter c || N.eqb c 170 || N.eqb c 181 || N.eqb c 186
                       || (in_range 192 255 c && negb (N.eqb c 215) && negb (N.eqb c 247));
  u_digit := is_digit;
  u_space := fun c => ascii_space c || N.eqb c 133 || N.eqb c 160 |}.

(** [strings.HasPrefix] *)
Fixpoint has_prefix (s p : str) : bool :=
  match p, s with
  | [], _ => true
  | x :: p', y :: s' => N.eqb x y && has_prefix s' p'
  | _ :: _, [] => false
  end.

(** [strings.HasSuffix] *)
Definition has_suffix (s p : str) : bool := has_prefix (rev s) (rev p).

(** [strings.TrimPrefix] / [strings.TrimSuffix] *)
Definition trim_prefix (s p : str) : str :=
  if has_prefix s p then skipn (length p) s else s.
Definition trim_suffix (s p : str) : str :=
  if has_suffix s p then firstn (length s - length p) s else s.

(** [strings.Split(s, sep)] for a one-rune separator. *)
Fixpoint split1 (sep : N) (s : str) : list str :=
  match s with
  | [] => [[]]
  | c :: s' =>
      if N.eqb c sep then [] :: split1 sep s'
      else match split1 sep s' with
           | w :: ws => (c :: w) :: ws
           | [] => [[c]]            (* unreachable: split1 is never empty *)
           end
  end.

(** [strings.Join(parts, sep)] *)
Fixpoint join (sep : str) (parts : list str) : str :=
  match parts with
  | [] => []
  | [w] => w
  | w :: ws => w ++ sep ++ join sep ws
  end.

(** [strings.Contains(s, string(c))] *)
Definition contains1 (s : str) (c : N) : bool := existsb (N.eqb c) s.

(** [strings.Count(s, "x")] for a one-rune pattern. *)
Definition count1 (s : str) (c : N) : nat := length (filter (N.eqb c) s).

(** ASCII part of [strings.ToLower]/[strings.ToUpper]. *)
Definition lower1 (c : N) : N := if is_upper c then (c + 32)%N else c.
Definition upper1 (c : N) : N := if is_lower c then (c - 32)%N else c.
Definition to_lower (s : str) : str := map lower1 s.
Definition to_upper (s : str) : str := map upper1 s.

(** [strings.Replace(s, old, new, -1)] for a one-rune [old]. *)
Definition replace1 (old : N) (new : str) (s : str) : str :=
  flat_map (fun c => if N.eqb c old then new else [c]) s.

(** [strings.TrimRight]/[TrimLeft] with a one-rune cutset. *)
Fixpoint trim_left1 (c : N) (s : str) : str :=
  match s with
  | [] => []
  | x :: s' => if N.eqb x c then trim_left1 c s' else s
  end.
Definition trim_right1 (c : N) (s : str) : str := rev (trim_left1 c (rev s)).

(** Result of running a piece of Go code: a value, a run-time panic, or (only for loops modelled
    on fuel) exhaustion of the fuel, which the termination theorems rule out. *)
Inductive outcome (A : Type) :=
| Ret (a : A)
| Panic
| OutOfFuel.
Arguments Ret {A} a.
Arguments Panic {A}.
Arguments OutOfFuel {A}.
