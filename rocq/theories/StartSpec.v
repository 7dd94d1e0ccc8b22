(** Vocabulary for the properties of baron --start. *)
From Verif Require Import GoStr Strs Generator Start.

(** Names users are expected to give: a letter, then letters, digits, spaces, dashes and underscores. *)
Definition starter_rune (c : N) : Prop := is_alnum c = true \/ c = c_space \/ c = c_dash \/ c = c_underscore.
Definition starter_name (a : str) : Prop :=
  match a with c :: a' => is_letter c = true /\ Forall starter_rune a' | [] => False end.
(** A lower-case proto identifier. *)
Definition lower_ident (s : str) : Prop :=
  match s with
  | c :: s' => is_lower c = true /\ Forall (fun d => is_lower d = true \/ is_digit d = true \/ d = c_underscore) s'
  | [] => False
  end.
(** The file a run is about, for the name given on the command line. *)
Definition given (pkg : str) : str := match pkg with [] => T "start" | _ => pkg end.
Definition target (pkg : str) (out : path) : path := file_name (remove_dot_proto_suffix (given pkg)) out.
(** [d] is a directory on the way to [p]. *)
Definition above (d p : path) : Prop := exists more, more <> [] /\ p = d ++ more.
