(** Specification of C83: the tokens of a declaration of Handler.v (The Go Programming Language Specification, "Function declarations", "Method declarations"). *)
From Coq Require Import String.
From Verif Require Import GoStr Strs Handler GoLex GoDecls.

Fixpoint expr_toks (e : expr) : list token :=
  match e with
  | EIdent n => [Word n]
  | ESel x n => expr_toks x ++ [Op (T "."); Word n]
  | EStar x => Op (T "*") :: expr_toks x
  | EOther _ => [Bad]
  end.
(** Lists with commas between, and in round brackets *)
Fixpoint commas (l : list (list token)) : list token := match l with [] => [] | [x] => x | x :: r => x ++ Op (T ",") :: commas r end.
Definition brackets_of (l : list (list token)) : list token := Op (T "(") :: commas l ++ [Op (T ")")].
Definition field_toks (f : afield) : list token := commas (map (fun n => [Word n]) (af_names f)) ++ expr_toks (af_type f).
(** The results: one without a name needs no brackets. *)
Definition result_toks (l : list afield) : list token :=
  match l with
  | [] => []
  | [f] => match af_names f with [] => expr_toks (af_type f) | _ => brackets_of [field_toks f] end
  | l => brackets_of (map field_toks l)
  end.
Definition fun_toks (f : fundecl) : list token :=
  Word (T "func") :: match fd_recv f with Some r => brackets_of (map field_toks r) | None => [] end ++ [Word (fd_fname f)] ++ brackets_of (map field_toks (fd_params f)) ++ result_toks (fd_results f)
  ++ [Op (T "{")] ++ lex (fd_body f) ++ [Op (T "}")].
(** These tokens are that declaration; one that is no function (Handler.v keeps only how it begins) begins so. *)
Definition shows (l : list token) (d : decl) : Prop :=
  match d with
  | DFunc f => l = plain (fun_toks f)
  | DOther t => (exists r, l = lex t ++ r) /\ forall r, l <> Word (T "func") :: r
  end.
