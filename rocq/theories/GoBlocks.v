(** The rules of Go for names (GoScope.v), for the fragment of GoLang.v that request decoders and encoders are made of.
    A specification: nothing here is baron's code. *)
From Coq Require Import String.
From Verif Require Import GoStr Strs GoLex GoLang GoScope.

Section Uses.
  Variable x : str.
  Fixpoint uses_e (e : expr) : bool :=
    match e with
    | EVar y => str_eqb x y
    | ENum _ | EStr _ | EType _ => false
    | ESel e _ | EAddr e | EDeref e | EAssert e _ => uses_e e
    | ECall f args => uses_e f || existsb uses_e args
    | EIndex a b | EUpTo a b | EBin _ a b => uses_e a || uses_e b
    | ELit _ _ args => existsb uses_e args
    end.
  (** What is assigned to: x = .. is no use of x, x.f = .. and x[i] = .. are *)
  Definition uses_target (e : expr) : bool := match e with EVar _ => false | _ => uses_e e end.
  Definition names_of (s : simple) : list str := match s with SVar x _ | SConst x _ => [x] | SDefine xs _ => named_only xs | _ => [] end.
  Definition names_in (s : stmt) : list str := match s with Do s => names_of s | _ => [] end.
  Definition uses_simple (s : simple) : bool :=
    match s with
    | SVar _ _ | SConst _ _ | SNone | SGarbage _ | SInc _ => false
    | SDefine _ e | SCall e | SDefer e => uses_e e
    | SAssign t e => uses_target t || uses_e e
    | SAssigns ts e => existsb uses_target ts || uses_e e
    | SReturn es => existsb uses_e es
    end.
  (** In an inner block, up to where it declares another x *)
  Fixpoint uses_stmt (s : stmt) : bool :=
    match s with
    | Do s => uses_simple s
    | If i c yes no => uses_simple i || (negb (mem x (names_of i)) && (uses_e c || uses_block yes || uses_block no))
    | For i v e body => uses_e e || (negb (mem x (named_only [i; v])) && uses_block body)
    | Switch cs => uses_clauses cs
    end
  with uses_block (b : block) : bool := match b with Nil => false | Cons s b' => uses_stmt s || (negb (mem x (names_in s)) && uses_block b') end
  with uses_clauses (cs : clauses) : bool := match cs with NoCase => false | Case c b cs' => uses_e c || uses_block b || uses_clauses cs' end.
  (** In the rest of the block that declares x *)
  Fixpoint used_in (b : block) : bool := match b with Nil => false | Cons s b' => uses_stmt s || used_in b' end.
End Uses.

Section Check.
  Variable g : str -> bool.
  Fixpoint ty_ok (sc : list (list str)) (t : ty) : bool := match t with TyName n => known g sc n | TySel p _ => known g sc p | TyPtr t | TySlice t => ty_ok sc t end.
  Fixpoint e_ok (sc : list (list str)) (e : expr) : bool :=
    match e with
    | EVar x => known g sc x
    | ENum _ | EStr _ => true
    | EType t => ty_ok sc t
    | ESel e _ | EAddr e | EDeref e => e_ok sc e
    | EAssert e t => e_ok sc e && ty_ok sc t
    | ECall f args => e_ok sc f && forallb (e_ok sc) args
    | EIndex a b | EUpTo a b | EBin _ a b => e_ok sc a && e_ok sc b
    | ELit t keys args => ty_ok sc t && distinct keys && forallb (e_ok sc) args
    end.
  Definition target_ok (sc : list (list str)) (e : expr) : bool := match e with EVar x => str_eqb x (T "_") || known g sc x | _ => e_ok sc e end.
  Definition simple_ok (sc : list (list str)) (s : simple) : bool :=
    match s with
    | SVar _ t => ty_ok sc t
    | SConst _ _ | SNone => true
    | SDefine _ e | SCall e | SDefer e => e_ok sc e
    | SAssign t e => target_ok sc t && e_ok sc e
    | SAssigns ts e => forallb (target_ok sc) ts && e_ok sc e
    | SInc x => known g sc x
    | SReturn es => forallb (e_ok sc) es
    | SGarbage _ => false
    end.
  (** In a block whose names so far are [top]: the names are new; one of those that := declares is *)
  Definition new_ok (top : list str) (s : simple) : bool :=
    match s with
    | SDefine xs _ => distinct (named_only xs) && existsb (fun x => negb (mem x top)) (named_only xs)
    | SVar x _ | SConst x _ => negb (mem x top)
    | _ => true
    end.
  Definition new_names (top : list str) (s : simple) : list str := match s with SDefine xs _ => filter (fun x => negb (mem x top)) (named_only xs) | SVar x _ => [x] | _ => [] end.
  Definition top_ok (top : list str) (s : stmt) : bool := match s with Do s => new_ok top s | _ => true end.
  Definition top_names (top : list str) (s : stmt) : list str := match s with Do s => new_names top s | _ => [] end.
  Fixpoint stmt_ok (sc : list (list str)) (s : stmt) : bool :=
    match s with
    | Do s => simple_ok sc s
    | If i c yes no => simple_ok ([] :: sc) i && new_ok [] i && forallb (fun x => uses_e x c || uses_block x yes || uses_block x no) (new_names [] i)
                       && e_ok (names_of i :: sc) c && scope_ok [] (names_of i :: sc) yes && scope_ok [] (names_of i :: sc) no
    | For i v e body => e_ok sc e && distinct (named_only [i; v]) && forallb (fun x => uses_block x body) (named_only [i; v]) && scope_ok [] (named_only [i; v] :: sc) body
    | Switch cs => clauses_ok sc cs
    end
  with scope_ok (top : list str) (outer : list (list str)) (b : block) : bool :=
    match b with
    | Nil => true
    | Cons s b' => stmt_ok (top :: outer) s && top_ok top s && forallb (fun x => used_in x b') (top_names top s) && scope_ok (names_in s ++ top) outer b'
    end
  with clauses_ok (sc : list (list str)) (cs : clauses) : bool := match cs with NoCase => true | Case c b cs' => e_ok sc c && scope_ok [] sc b && clauses_ok sc cs' end.
  (** func name(_ context.Context, r *http.Request) (interface{}, error) {..} and func name(_ context.Context, r *http.Request, request interface{}) error {..} *)
  Definition decoder_ok (b : block) : bool := forallb g [T "context"; T "http"; T "error"] && scope_ok [T "r"] [] b.
  Definition encoder_ok (b : block) : bool := forallb g [T "context"; T "http"; T "error"] && scope_ok [T "r"; T "request"] [] b.
End Check.
