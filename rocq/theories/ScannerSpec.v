(** Specification vocabulary for the scanner: what a lexical unit looks like, independent of how
    scanner.go finds one. *)
From Verif Require Import GoStr.

(** [subseq a b]: [a] is obtained from [b] by deleting some elements. *)
Inductive subseq {A} : list A -> list A -> Prop :=
| subseq_nil : forall l, subseq [] l
| subseq_keep : forall x a b, subseq a b -> subseq (x :: a) (x :: b)
| subseq_skip : forall x a b, subseq a b -> subseq a (x :: b).

(** Number of newlines in a text. *)
Fixpoint newlines (s : str) : Z :=
  match s with
  | [] => 0
  | c :: s' => (if N.eqb c c_nl then 1 else 0) + newlines s'
  end.

(** Identifier runes: letters, digits, underscore. *)
Definition ident_rune (U : unicode) (c : N) : Prop :=
  u_letter U c = true \/ u_digit U c = true \/ c = c_underscore.

(** Contents of a double-quoted string: plain runes and backslash escapes. *)
Inductive string_body : str -> Prop :=
| sb_nil : string_body []
| sb_plain : forall c b, c <> c_dquote -> c <> c_backslash -> string_body b -> string_body (c :: b)
| sb_escape : forall c b, string_body b -> string_body (c_backslash :: c :: b).

(** The lexical units of a proto file, as far as this scanner distinguishes them. *)
Inductive unit_shape (U : unicode) : str -> Prop :=
| us_line : forall b, ~ In c_nl b -> unit_shape U (T "//" ++ b ++ [c_nl])
| us_block : forall b, ~ In c_star b -> unit_shape U (T "/*" ++ b ++ T "*/")
| us_string : forall b, string_body b -> unit_shape U ([c_dquote] ++ b ++ [c_dquote])
| us_space : forall s, s <> [] -> Forall (fun c => u_space U c = true) s -> unit_shape U s
| us_ident : forall s, s <> [] -> Forall (ident_rune U) s -> unit_shape U s
| us_symbol : forall c, c <> c_dquote -> u_space U c = false -> ~ ident_rune U c -> unit_shape U [c].

(** [starts P s]: the first rune of [s], if any, satisfies [P]. *)
Definition starts (P : N -> Prop) (s : str) : Prop :=
  match s with [] => False | c :: _ => P c end.

(** Two neighbouring units that would not be read as two units: white space next to white space,
    identifier next to identifier, and a lone '/' before '/', '*' or the end of the file. *)
Definition merges (U : unicode) (u rest : str) : Prop :=
  (starts (fun c => u_space U c = true) u /\ starts (fun c => u_space U c = true) rest)
  \/ (starts (ident_rune U) u /\ starts (ident_rune U) rest)
  \/ (u = [c_slash] /\ (rest = [] \/ starts (fun c => c = c_slash \/ c = c_star) rest)).

(** A file written as a list of units none of which merges with what follows. *)
Inductive well_separated (U : unicode) : list str -> Prop :=
| ws_nil : well_separated U []
| ws_cons : forall u us, unit_shape U u -> ~ merges U u (concat us) ->
    well_separated U us -> well_separated U (u :: us).

(** What the scanner keeps of a block-comment body: each rune that follows a '*' is deleted. *)
Inductive squeezed : str -> str -> Prop :=
| sq_nil : squeezed [] []
| sq_star : forall d b v, squeezed b v -> squeezed (c_star :: d :: b) (c_star :: v)
| sq_other : forall c b v, c <> c_star -> squeezed b v -> squeezed (c :: b) (c :: v).

(** [unit_text piece v]: the value [v] reported for the piece of text [piece]. *)
Inductive unit_text : str -> str -> Prop :=
| ut_exact : forall p, unit_text p p
| ut_block : forall b v, squeezed b v -> unit_text (T "/*" ++ b ++ T "*/") (T "/*" ++ v ++ T "*/").

(** The service/brace automaton: (in header, in body, depth) after a unit, [more] telling whether
    the file goes on after the unit. *)
Definition region : Type := (bool * bool * Z)%type.
Definition region_step (v : str) (more : bool) (s : region) : region :=
  let '(hdr, body, depth) := s in
  if str_eqb v (T "service") then ((if more then true else hdr), body, depth)
  else if str_eqb v (T "{") then
    if hdr then (false, true, depth + 1)%Z else (false, body, depth + 1)%Z
  else if str_eqb v (T "}") then
    (hdr, body && negb (Z.eqb (depth - 1) 0), depth - 1)%Z
  else s.

(** Number of units equal to [w]. *)
Definition count_units (w : str) (us : list str) : Z :=
  Z.of_nat (length (filter (str_eqb w) us)).

(** Declarative reading of the service/brace flags of unit [i], for the unit values [vs] of a file
    whose unread rest is [tail] (non-empty only if the file ends in an unterminated unit). *)
Definition at_unit (vs : list str) (i : nat) (w : str) : Prop := nth_error vs i = Some w.

Definition depth_at (d0 : Z) (vs : list str) (i : nat) : Z :=
  (d0 + count_units (T "{") (firstn (S i) vs) - count_units (T "}") (firstn (S i) vs))%Z.

(** Unit [i] lies in a service header: some "service" unit at or before it, not at the very end of
    the file, with no "{" since (or the scan began inside a header that no "{" has ended). *)
Definition in_header_at (hdr0 : bool) (vs : list str) (tail : str) (i : nat) : Prop :=
  (exists j, j <= i /\ at_unit vs j (T "service") /\ (S j < length vs \/ tail <> [])
             /\ forall k, j < k <= i -> ~ at_unit vs k (T "{"))
  \/ (hdr0 = true /\ forall k, k <= i -> ~ at_unit vs k (T "{")).

(** Unit [i] lies in a service body: some "{" that ended a header, and no "}" back to depth 0
    since. *)
Definition in_body_at (hdr0 body0 : bool) (d0 : Z) (vs : list str) (tail : str) (i : nat) : Prop :=
  let closes m := at_unit vs m (T "}") /\ depth_at d0 vs m = 0%Z in
  (exists k, k <= i /\ at_unit vs k (T "{")
             /\ (match k with O => hdr0 = true | S k' => in_header_at hdr0 vs tail k' end)
             /\ forall m, k < m <= i -> ~ closes m)
  \/ (body0 = true /\ forall m, m <= i -> ~ closes m).
