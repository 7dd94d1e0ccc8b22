(** The declarations of a Go source file (The Go Programming Language Specification, "Source file organization", "Declarations and scope"), read off its tokens (GoLex.v).
    A specification: nothing here is baron's code.  Not covered: var x, y = ..; grouped const and type declarations; type parameters. *)
From Coq Require Import String.
From Verif Require Import GoStr Strs GoLex.
Notation token := (tok N).

(** The bracket that closes this one *)
Definition closer (o : str) : option str :=
  if str_eqb o (T "(") then Some (T ")") else if str_eqb o (T "[") then Some (T "]") else if str_eqb o (T "{") then Some (T "}") else None.
Definition is_closer (o : str) : bool := existsb (str_eqb o) [T ")"; T "]"; T "}"].
(** The closing brackets that are expected after a token; None: a bracket that does not match, or no token at all. *)
Definition brackets {A} (st : list str) (t : tok A) : option (list str) :=
  match t with
  | Bad => None
  | Op o => match closer o with
            | Some c => Some (c :: st)
            | None => if is_closer o then match st with c :: st' => if str_eqb c o then Some st' else None | [] => None end else Some st
            end
  | _ => Some st
  end.
(** The parts that end with a semicolon outside brackets; None: the brackets do not match, or the last part is not ended. *)
Fixpoint parts_from {A} (st : list str) (cur : list (tok A)) (l : list (tok A)) : option (list (list (tok A))) :=
  match l with
  | [] => match st, cur with [], [] => Some [] | _, _ => None end
  | t :: l' => match t, st with
               | Semi, [] => option_map (cons cur) (parts_from [] [] l')
               | _, _ => match brackets st t with Some st' => parts_from st' (cur ++ [t]) l' | None => None end
               end
  end.
Definition parts {A} (l : list (tok A)) : option (list (list (tok A))) := parts_from [] [] l.
(** The declarations of a file, its package clause first *)
Definition declarations (text : str) : option (list (list token)) := parts (tokens text).

Definition is_word (w : string) (t : token) : bool := match t with Word x => str_eqb x (T w) | _ => false end.
Definition is_op (w : string) (t : token) : bool := match t with Op x => str_eqb x (T w) | _ => false end.
(** What is in the round brackets (braces) that end it: keyword ( .. ) or type x struct { .. }.  The last of the parts inside has no semicolon (GoLex.plain). *)
Fixpoint but_last (l : list token) : list token := match l with [] => [] | [t] => [] | t :: l' => t :: but_last l' end.
Definition group (l : list token) : list (list token) := match but_last l with [] => [] | r => match parts (r ++ [Semi]) with Some ps => ps | None => [] end end.
Definition first_word (l : list token) : list str := match l with Word n :: _ => [n] | _ => [] end.
Definition named (n : str) : bool := negb (str_eqb n (T "_")).

(** The names that a declaration puts into the package *)
Definition declares (d : list token) : list str :=
  match d with
  | k :: Word n :: _ => if is_word "func" k || is_word "type" k || is_word "var" k || is_word "const" k then [n] else []
  | k :: p :: r => if is_word "var" k && is_op "(" p then filter named (flat_map first_word (group r)) else []
  | _ => []
  end.
(** The names that it imports: the written ones; of a package without one, what [package_name] says about its path. *)
Definition imports_of (package_name : str -> str) (d : list token) : list str :=
  match d with
  | k :: p :: r => if is_word "import" k && is_op "(" p
                   then flat_map (fun i => match i with [Word n; Str _] => [n] | [Str p] => [package_name p] | _ => [] end) (group r) else []
  | _ => []
  end.
(** The fields of a struct type of this name: the first name of each (an embedded type of the same package is named like the type) *)
Definition fields_of (ty : str) (d : list token) : list str :=
  match d with
  | k :: Word n :: s :: p :: r => if is_word "type" k && is_word "struct" s && is_op "{" p && str_eqb n ty then flat_map first_word (group r) else []
  | _ => []
  end.
(** The methods of this type: func (x T) name, func (x *T) name *)
Definition methods_of (ty : str) (d : list token) : list str :=
  match d with
  | k :: p :: Word _ :: s :: r =>
      if is_word "func" k && is_op "(" p
      then match (if is_op "*" s then r else s :: r) with
           | Word t :: c :: Word n :: _ => if is_op ")" c && str_eqb t ty then [n] else []
           | _ => []
           end
      else []
  | _ => []
  end.
