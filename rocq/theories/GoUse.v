(** What a Go source file takes from elsewhere, and function declarations as tokens (The Go Programming Language Specification, "Qualified identifiers", "Calls", "Import declarations",
    "Function declarations").  A specification: nothing here is baron's code. *)
From Coq Require Import String.
From Verif Require Import GoStr Strs GoLex GoDecls.

(** The names x of the p.x in it, where p is not itself selected from something ([dot]: the token before is a dot). *)
Fixpoint uses (p : str) (dot : bool) (l : list token) : list str :=
  match l with
  | [] => []
  | t :: l' => match t, l' with
               | Word w, o :: Word x :: _ => if negb dot && is_op "." o && str_eqb w p then [x] else []
               | _, _ => []
               end ++ uses p (is_op "." t) l'
  end.
Definition uses_of (p : str) (d : list token) : list str := uses p false d.
(** The names f of the f(..) in it that are neither selected from something nor being declared; [prev]: the token before. *)
Definition bars (prev : option token) : bool := match prev with Some t => is_op "." t || is_op ")" t || is_word "func" t | None => false end.
Fixpoint calls (prev : option token) (l : list token) : list str :=
  match l with
  | [] => []
  | t :: l' => match t, l' with
               | Word w, o :: _ => if is_op "(" o && negb (bars prev) && negb (is_keyword w) then [w] else []
               | _, _ => []
               end ++ calls (Some t) l'
  end.
Definition calls_of (d : list token) : list str := calls None d.
(** The package clause *)
Definition package_of (d : list token) : list str := match d with [k; Word p] => if is_word "package" k then [p] else [] | _ => [] end.
(** The paths that it imports, with the names that are written before them *)
Definition import_specs (d : list token) : list (option str * str) :=
  match d with
  | k :: p :: r => if is_word "import" k && is_op "(" p
                   then flat_map (fun i => match i with [Word n; Str p] => [(Some n, p)] | [Str p] => [(None, p)] | _ => [] end) (group r) else []
  | _ => []
  end.
