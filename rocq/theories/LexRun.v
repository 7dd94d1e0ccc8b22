(** Sequences of operations on a lexer. *)
From Verif Require Import GoStr Lexer.

(** Operations on a lexer. *)
Inductive lex_op := LGet | LUnget | LUngetTo (p : nat).
Definition lex_op_step (l : lexer) (o : lex_op) : option lexer :=
  match o with
  | LGet => Some (snd (get_token l))
  | LUnget => match unget_token l with UGOk l' => Some l' | UGError => Some l | UGPanic => None end
  | LUngetTo p => match unget_to_position l p with Ret (l', _) => Some l' | _ => None end
  end.
Fixpoint lex_ops_run (l : lexer) (os : list lex_op) : option lexer :=
  match os with
  | [] => Some l
  | o :: os' => match lex_op_step l o with Some l' => lex_ops_run l' os' | None => None end
  end.

