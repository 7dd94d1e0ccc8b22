(** Specification vocabulary for names. *)
From Verif Require Import GoStr Strs.

(** Runes of a (possibly dotted) proto identifier. *)
Definition proto_rune (c : N) : Prop := is_alnum c = true \/ c = c_underscore \/ c = c_dot.
(** A proto identifier: letters, digits, underscores and dots, beginning with a letter or underscore. *)
Definition proto_ident (s : str) : Prop :=
  Forall proto_rune s /\ match s with c :: _ => is_letter c = true \/ c = c_underscore | [] => False end.
(** An exported Go identifier in ASCII. *)
Definition exported_ident (s : str) : Prop :=
  match s with
  | c :: s' => is_upper c = true /\ Forall (fun d => is_alnum d = true \/ d = c_underscore) s'
  | [] => False
  end.
(** A Go identifier: a letter or underscore, then letters, digits and underscores; not a keyword. *)
Definition go_ident (U : unicode) (s : str) : Prop :=
  match s with
  | c :: s' => (u_letter U c = true \/ c = c_underscore)
               /\ Forall (fun d => u_letter U d = true \/ u_digit U d = true \/ d = c_underscore) s'
  | [] => False
  end /\ ~ In s go_keywords.
(** Lower snake case in which every underscore is followed by a lower-case letter. *)
Inductive snake : str -> Prop :=
| sn_nil : snake []
| sn_char : forall c s, c <> c_underscore -> is_upper c = false -> snake s -> snake (c :: s)
| sn_word : forall c s, is_lower c = true -> snake s -> snake (c_underscore :: c :: s).
Definition starts_letter (U : unicode) (s : str) : Prop :=
  match s with c :: _ => u_letter U c = true | [] => False end.
(** A word with its first letter raised and the rest lowered; and with only the first letter raised. *)
Definition cap_lower (w : str) : str := match w with [] => [] | c :: w' => upper1 c :: map lower1 w' end.
Definition cap_only (w : str) : str := match w with [] => [] | c :: w' => upper1 c :: w' end.
