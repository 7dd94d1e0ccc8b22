(** What the Go compiler asks of declared names. *)
From Verif Require Import GoStr Strs.

Definition ident_rune (c : N) : Prop := is_alnum c = true \/ c = c_underscore.
(** An (ASCII) identifier that is no keyword. *)
Definition ident (s : str) : Prop :=
  match s with c :: s' => (is_letter c = true \/ c = c_underscore) /\ Forall ident_rune s' | [] => False end /\ ~ In s go_keywords.
(** The names declared in one scope are identifiers, and different. *)
Definition scope_ok (names : list str) : Prop := NoDup names /\ Forall ident names.
(** One text ends in the other. *)
Definition same_end (a b : str) : Prop := exists x, a = x ++ b \/ b = x ++ a.
(** A method name that cannot be taken for the end of a variable of a decoder. *)
Definition quiet (m : str) : Prop := forall s, In s [T "Str"; T "StrArr"; T "OK"; T "CountSet"] -> ~ same_end m s.
