(** The rules of Go for names, for the fragment of GoGlue.v (The Go Programming Language Specification: "Declarations and scope", "Blocks", "Short variable declarations", "Implementation restriction" of "Variable declarations",
    "Composite literals"): every name is declared, no block declares a name twice, [:=] declares a new variable, every variable of a function is used, and no key or field of a literal is given twice.
    A specification: nothing here is baron's code. *)
From Coq Require Import String.
From Verif Require Import GoStr Strs GoLex GoDecls GoGlue.

Definition mem (x : str) (l : list str) : bool := existsb (str_eqb x) l.
Fixpoint distinct (l : list str) : bool := match l with [] => true | x :: l' => negb (mem x l') && distinct l' end.
Definition named_only (l : list str) : list str := filter (fun x => negb (str_eqb x (T "_"))) l.
(** Keywords that begin types *)
Definition type_keyword (x : str) : bool := mem x [T "interface"; T "func"; T "map"; T "struct"; T "chan"].
(** The names in a type, apart from the names that a package has *)
Fixpoint type_names (dot : bool) (l : list token) : list str :=
  match l with
  | [] => []
  | Word x :: l' => (if dot then [] else match l' with Word _ :: _ => if type_keyword x then [x] else [] | _ => [x] end) ++ type_names false l'
  | Op o :: l' => type_names (str_eqb o (T ".")) l'
  | _ :: l' => type_names false l'
  end.
(** The names of results: (x T, y U) *)
Fixpoint result_names (l : list token) : list str :=
  match l with
  | Word x :: (Word _ :: _) as l' => (if type_keyword x then [] else [x]) ++ result_names l'
  | _ :: l' => result_names l'
  | [] => []
  end.
(** The names that a statement declares in its block *)
Definition declared (s : gstm) : list str := match s with SDef xs _ => named_only xs | SVar x _ => [x] | SConst x _ => [x] | _ => [] end.

(** ** Use of a variable: [x] occurs other than as the target of an assignment, and is not another [x] of an inner block *)
Section Uses.
  Variable x : str.
  Section Inner.
    Variable us : gstm -> bool.
    Fixpoint uses_inner (l : list gstm) : bool := match l with [] => false | s :: l' => us s || (negb (mem x (declared s)) && uses_inner l') end.
  End Inner.
  Fixpoint uses_exp (e : gexp) : bool :=
    match e with
    | EVar y => str_eqb x y
    | EStr _ | ENum _ | EBool _ | ENil | EKeys _ => false
    | ESel e _ | EAssert e _ | ENot e | EDeref e | EAddr e | ESpread e | ELine _ _ e => uses_exp e
    | ECall f args | ECallC f args => uses_exp f || existsb uses_exp args
    | EInto f args y => uses_exp f || existsb uses_exp args || str_eqb x y
    | EIndex a b | EUpTo a b | EGt a b | EPlus a b | EEq a b | ENe a b => uses_exp a || uses_exp b
    | ELit _ fs => existsb (fun p => uses_exp (snd p)) fs
    | EList _ es => existsb uses_exp es
    | EFun ps res body => negb (mem x (map fst ps ++ result_names res)) && uses_inner uses_stm body
    end
  with uses_stm (s : gstm) : bool :=
    match s with
    | SDef _ e | SDo e | SDefer e => uses_exp e
    | SSet ts e => existsb (fun t => match t with EVar _ => false | _ => uses_exp t end) ts || uses_exp e
    | SVar _ _ | SConst _ _ => false
    | SIf i c body => match i with
                      | Some s => uses_stm s || (negb (mem x (declared s)) && (uses_exp c || uses_inner uses_stm body))
                      | None => uses_exp c || uses_inner uses_stm body
                      end
    | SRange xs e body => uses_exp e || (negb (mem x xs) && uses_inner uses_stm body)
    | SRet es => existsb uses_exp es
    | SDelete m k => str_eqb x m || uses_exp k
    | SBlock body => uses_inner uses_stm body
    end.
End Uses.

(** Go's predeclared identifiers ("Predeclared identifiers", Go 1.16) *)
Definition predeclared : list str :=
  [T "bool"; T "byte"; T "complex64"; T "complex128"; T "error"; T "float32"; T "float64"; T "int"; T "int8"; T "int16"; T "int32"; T "int64"; T "rune"; T "string"; T "uint"; T "uint8"; T "uint16"; T "uint32"; T "uint64"; T "uintptr";
   T "true"; T "false"; T "iota"; T "nil"; T "append"; T "cap"; T "close"; T "complex"; T "copy"; T "delete"; T "imag"; T "len"; T "make"; T "new"; T "panic"; T "print"; T "println"; T "real"; T "recover"].

Section Check.
  Variable g : str -> bool.                                   (* the names of the package, its imports, and of Go itself *)
  (** The names of the blocks around, the innermost first *)
  Definition known (sc : list (list str)) (x : str) : bool := g x || existsb (mem x) sc.
  Definition type_ok (sc : list (list str)) (t : list token) : bool := forallb (fun x => known sc x || type_keyword x) (type_names false t).
  Definition declares_ok (top : list str) (s : gstm) : bool :=
    match s with
    | SDef xs _ => distinct (named_only xs) && existsb (fun x => negb (mem x top)) (named_only xs)
    | SVar x _ | SConst x _ => negb (mem x top)
    | _ => true
    end.
  Definition new_variables (top : list str) (s : gstm) : list str := match s with SDef xs _ => filter (fun x => negb (mem x top)) (named_only xs) | SVar x _ => [x] | _ => [] end.
  Section Block.
    Variable ok : list (list str) -> gstm -> bool.
    Fixpoint block_ok (top : list str) (outer : list (list str)) (l : list gstm) : bool :=
      match l with
      | [] => true
      | s :: l' => ok (top :: outer) s && declares_ok top s && forallb (fun x => existsb (uses_stm x) l') (new_variables top s) && block_ok (declared s ++ top) outer l'
      end.
  End Block.
  Fixpoint exp_ok (sc : list (list str)) (e : gexp) : bool :=
    match e with
    | EVar x => known sc x
    | EStr _ | ENum _ | EBool _ | ENil => true
    | ESel e _ | ENot e | EDeref e | EAddr e | ESpread e => exp_ok sc e
    | ECall f args | ECallC f args => exp_ok sc f && forallb (exp_ok sc) args
    | EInto f args x => exp_ok sc f && forallb (exp_ok sc) args && known sc x
    | EAssert e ty => exp_ok sc e && type_ok sc ty
    | EIndex a b | EUpTo a b | EGt a b | EPlus a b | EEq a b | ENe a b => exp_ok sc a && exp_ok sc b
    | EKeys l => distinct l
    | ELit ty fs => type_ok sc ty && distinct (map fst fs) && forallb (fun p => exp_ok sc (snd p)) fs
    | ELine ty _ e => type_ok sc ty && exp_ok sc e
    | EList ty es => type_ok sc ty && forallb (exp_ok sc) es
    | EFun ps res body => forallb (fun p => type_ok sc (snd p)) ps && type_ok sc res && distinct (named_only (map fst ps ++ result_names res)) && block_ok stm_ok (map fst ps ++ result_names res) sc body
    end
  with stm_ok (sc : list (list str)) (s : gstm) : bool :=
    match s with
    | SDef _ e | SDo e | SDefer e => exp_ok sc e
    | SSet ts e => forallb (fun t => match t with EVar x => str_eqb x (T "_") || known sc x | _ => exp_ok sc t end) ts && exp_ok sc e
    | SVar _ ty => type_ok sc ty
    | SConst _ _ => true
    | SIf i c body => match i with
                      | Some s => stm_ok ([] :: sc) s && declares_ok [] s && forallb (fun x => uses_exp x c || uses_inner x (uses_stm x) body) (new_variables [] s) && exp_ok (declared s :: sc) c && block_ok stm_ok [] (declared s :: sc) body
                      | None => exp_ok sc c && block_ok stm_ok [] sc body
                      end
    | SRange xs e body => exp_ok sc e && distinct (named_only xs) && forallb (fun x => uses_inner x (uses_stm x) body) (named_only xs) && block_ok stm_ok [] (xs :: sc) body
    | SRet es => forallb (exp_ok sc) es
    | SDelete m k => known sc m && exp_ok sc k
    | SBlock body => block_ok stm_ok [] sc body
    end.
  Definition parameters (f : gfunc) : list str := match f_recv f with Some (x, _) => [x] | None => [] end ++ map fst (f_params f) ++ result_names (f_results f).
  Definition func_ok (f : gfunc) : bool :=
    distinct (named_only (parameters f)) && match f_recv f with Some (_, ty) => type_ok [] ty | None => true end && forallb (fun p => type_ok [] (snd p)) (f_params f) && type_ok [] (f_results f)
    && block_ok stm_ok (parameters f) [] (f_body f).
End Check.
