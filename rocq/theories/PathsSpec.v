(** What a path means, without looking at texts: a directory is the list of names from the root to it. *)
From Verif Require Import GoStr.

Definition dir := list str.
(** Going along one element from a directory. *)
Definition go_elem (d : dir) (e : str) : dir :=
  if str_eqb e [] || str_eqb e (T ".") then d
  else if str_eqb e (T "..") then removelast d
  else d ++ [e].
(** Where a path leads from a directory. *)
Definition goes (from : dir) (s : str) : dir :=
  fold_left go_elem (split1 c_slash s) (match s with c :: _ => if N.eqb c c_slash then [] else from | [] => from end).
(** A name of a file or directory. *)
Definition plain (e : str) : Prop := e <> [] /\ e <> T "." /\ e <> T ".." /\ ~ In c_slash e.
(** The absolute path of a directory. *)
Definition text_of (d : dir) : str := c_slash :: join [c_slash] d.
Definition ends_in_slash (s : str) : bool := match rev s with c :: _ => N.eqb c c_slash | [] => false end.
