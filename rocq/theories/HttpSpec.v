(** Vocabulary for the HTTP transport properties, independent of the model. *)
From Verif Require Import GoStr GoStrProofs GoMap.

(** The '/'-separated parts of a path. *)
Definition parts_of (s : str) (ps : list str) : Prop :=
  ps <> [] /\ Forall (fun p => ~ In c_slash p) ps /\ s = join [c_slash] ps.
(** The number of parts that count: empty parts at the end do not (but there is always one). *)
Definition counted (ps : list str) (n : nat) : Prop :=
  exists qs k, ps = qs ++ repeat [] k /\ last qs [c_slash] <> [] /\ n = Nat.max 1 (length qs).

(** A path template: literal parts and {name} parts. *)
Inductive tpart := TLit (s : str) | TVar (name : str).
Definition plain (s : str) : Prop := ~ In c_slash s /\ ~ In c_lbrace s /\ ~ In c_rbrace s.
Definition tpart_ok (p : tpart) : Prop := match p with TLit s => plain s | TVar n => plain n end.
Definition write_part (p : tpart) : str := match p with TLit s => s | TVar n => c_lbrace :: n ++ [c_rbrace] end.
Definition fill_part (env : str -> str) (p : tpart) : str := match p with TLit s => s | TVar n => env n end.
Definition write_template (ts : list tpart) : str := join [c_slash] (map write_part ts).
Definition fill_template (env : str -> str) (ts : list tpart) : str := join [c_slash] (map (fill_part env) ts).
Definition template_vars (ts : list tpart) : list str := flat_map (fun p => match p with TVar n => [n] | _ => [] end) ts.

(** The English words of decimal digits. *)
Definition digit_word (d : nat) : str :=
  nth d [T "Zero"; T "One"; T "Two"; T "Three"; T "Four"; T "Five"; T "Six"; T "Seven"; T "Eight"; T "Nine"] [].
(** The digits [ds], most significant first, are those of [n] in base ten, without leading zeros. *)
Definition decimal (n : N) (ds : list nat) : Prop :=
  Forall (fun d => d < 10) ds /\ fold_left (fun a d => 10 * a + N.of_nat d)%N ds 0%N = n
  /\ ds <> [] /\ (hd 1 ds = 0 -> ds = [0]).
(** Part [j] is the last part of a template that names parameter [k]: it has a brace, and [k] is the
    part without its braces. *)
Definition names (k p : str) : Prop :=
  (In c_lbrace p \/ In c_rbrace p) /\ k = filter (fun c => negb (N.eqb c c_lbrace) && negb (N.eqb c c_rbrace)) p.
Definition named_at (parts : list str) (k : str) (j : nat) : Prop :=
  (exists p, nth_error parts j = Some p /\ names k p)
  /\ forall j' p', j < j' -> nth_error parts j' = Some p' -> ~ names k p'.
