(** A fragment of Go for small functions over library values: programs, their tokens (GoLex.v), and what they do (The Go Programming Language Specification: "Assignments", "If statements", "For statements"
    with range clause, "Return statements", "Type assertions", "Index expressions", "Calls", "Function literals").  What the library does is a parameter.  A specification: nothing here is baron's code.
    Simplifications: pointers are not shared (a parameter that is a pointer is a variable, whose final value the caller sees); constants and types are not checked. *)
From Coq Require Import String ZArith.
From Verif Require Import GoStr GoMap Strs GoLex GoDecls Decimals.

(** ** Programs *)
Inductive gexp :=
| EVar (x : str) | EStr (s : str) | ENum (n : Z) | EBool (b : bool) | ENil
| ESel (e : gexp) (f : str)                                  (* e.f *)
| ECall (f : gexp) (args : list gexp)                        (* f(args) *)
| ECallC (f : gexp) (args : list gexp)                       (* f(args,) over several lines *)
| EInto (f : gexp) (args : list gexp) (x : str)              (* f(args, &x), which sets x *)
| EAssert (e : gexp) (ty : list token)                       (* e.(ty) *)
| EIndex (e i : gexp)                                        (* e[i] *)
| EUpTo (e i : gexp)                                         (* e[:i] *)
| EGt (a b : gexp)
| EPlus (a b : gexp)                                         (* a + b, of strings *)
| EEq (a b : gexp) | ENe (a b : gexp) | ENot (a : gexp)
| EDeref (e : gexp)                                          (* *e *)
| EAddr (e : gexp)                                           (* &e *)
| ESpread (e : gexp)                                         (* e..., as the last argument *)
| EKeys (l : list str)                                       (* map[string]struct{}{"a": {}, ...} *)
| ELit (ty : list token) (fs : list (str * gexp))            (* ty{f: e, ...,} over several lines *)
| ELine (ty : list token) (f : str) (e : gexp)               (* ty{f: e} *)
| EList (ty : list token) (es : list gexp)                   (* ty{e, ...,} over several lines *)
| EFun (ps : list (str * list token)) (res : list token) (body : list gstm)  (* func(ps) res { body } *)
with gstm :=
| SDef (xs : list str) (e : gexp)                            (* xs := e *)
| SSet (xs : list gexp) (e : gexp)                           (* xs = e *)
| SVar (x : str) (ty : list token)                           (* var x ty *)
| SIf (init : option gstm) (c : gexp) (body : list gstm)     (* if init; c { body } *)
| SRange (xs : list str) (e : gexp) (body : list gstm)       (* for xs := range e { body } *)
| SRet (es : list gexp)                                      (* return es *)
| SDo (e : gexp)                                             (* e, a call *)
| SDelete (m : str) (k : gexp)                               (* delete(m, k) *)
| SConst (x : str) (n : Z)                                   (* const x = n *)
| SDefer (e : gexp)                                          (* defer e *)
| SBlock (body : list gstm).                                 (* { body } *)
Record gfunc := mkFunc { f_recv : option (str * list token); f_name : str; f_params : list (str * list token); f_results : list token; f_body : list gstm }.

(** ** Their tokens *)
Definition kw (s : string) : token := Word (T s).
Definition op (s : string) : token := Op (T s).
Fixpoint commas (l : list (list token)) : list token := match l with [] => [] | [x] => x | x :: l' => x ++ [op ","] ++ commas l' end.
Definition params_toks (ps : list (str * list token)) : list token := commas (map (fun p => Word (fst p) :: snd p) ps).
Fixpoint exp_toks (e : gexp) : list token :=
  match e with
  | EVar x => [Word x] | EStr s => [Str s] | ENum n => [Num (itoa n)] | EBool b => [if b then kw "true" else kw "false"] | ENil => [kw "nil"]
  | ESel e f => exp_toks e ++ [op "."; Word f]
  | ECall f args => exp_toks f ++ [op "("] ++ commas (map exp_toks args) ++ [op ")"]
  | ECallC f args => exp_toks f ++ [op "("] ++ flat_map (fun a => exp_toks a ++ [op ","]) args ++ [op ")"]
  | EInto f args x => exp_toks f ++ [op "("] ++ flat_map (fun a => exp_toks a ++ [op ","]) args ++ [op "&"; Word x; op ")"]
  | EAssert e ty => exp_toks e ++ [op "."; op "("] ++ ty ++ [op ")"]
  | EIndex e i => exp_toks e ++ [op "["] ++ exp_toks i ++ [op "]"]
  | EUpTo e i => exp_toks e ++ [op "["; op ":"] ++ exp_toks i ++ [op "]"]
  | EGt a b => exp_toks a ++ [op ">"] ++ exp_toks b
  | EPlus a b => exp_toks a ++ [op "+"] ++ exp_toks b
  | EEq a b => exp_toks a ++ [op "=="] ++ exp_toks b
  | ENe a b => exp_toks a ++ [op "!="] ++ exp_toks b
  | ENot a => op "!" :: exp_toks a
  | EDeref a => op "*" :: exp_toks a
  | EAddr a => op "&" :: exp_toks a
  | ESpread a => exp_toks a ++ [op "..."]
  | EKeys l => [kw "map"; op "["; kw "string"; op "]"; kw "struct"; op "{"; op "}"; op "{"] ++ flat_map (fun s => [Str s; op ":"; op "{"; op "}"; op ","]) l ++ [op "}"]
  | ELit ty fs => ty ++ [op "{"] ++ flat_map (fun p => [Word (fst p); op ":"] ++ exp_toks (snd p) ++ [op ","]) fs ++ [op "}"]
  | ELine ty f e => ty ++ [op "{"; Word f; op ":"] ++ exp_toks e ++ [op "}"]
  | EList ty es => ty ++ [op "{"] ++ flat_map (fun a => exp_toks a ++ [op ","]) es ++ [op "}"]
  | EFun ps res body => [kw "func"; op "("] ++ params_toks ps ++ [op ")"] ++ res ++ [op "{"] ++ flat_map (fun s => stm_toks s ++ [Semi]) body ++ [op "}"]
  end
with stm_toks (s : gstm) : list token :=
  match s with
  | SDef xs e => commas (map (fun x => [Word x]) xs) ++ [op ":="] ++ exp_toks e
  | SSet xs e => commas (map exp_toks xs) ++ [op "="] ++ exp_toks e
  | SVar x ty => [kw "var"; Word x] ++ ty
  | SIf i c body => [kw "if"] ++ match i with Some s => stm_toks s ++ [Semi] | None => [] end ++ exp_toks c ++ [op "{"] ++ flat_map (fun s => stm_toks s ++ [Semi]) body ++ [op "}"]
  | SRange xs e body => [kw "for"] ++ commas (map (fun x => [Word x]) xs) ++ [op ":="; kw "range"] ++ exp_toks e ++ [op "{"] ++ flat_map (fun s => stm_toks s ++ [Semi]) body ++ [op "}"]
  | SRet es => kw "return" :: commas (map exp_toks es)
  | SDo e => exp_toks e
  | SDelete m k => [kw "delete"; op "("; Word m; op ","] ++ exp_toks k ++ [op ")"]
  | SConst x n => [kw "const"; Word x; op "="; Num (itoa n)]
  | SDefer e => kw "defer" :: exp_toks e
  | SBlock body => [op "{"] ++ flat_map (fun s => stm_toks s ++ [Semi]) body ++ [op "}"]
  end.
Definition block_toks (l : list gstm) : list token := flat_map (fun s => stm_toks s ++ [Semi]) l.
Definition func_toks (f : gfunc) : list token :=
  [kw "func"] ++ match f_recv f with Some (x, ty) => [op "("; Word x] ++ ty ++ [op ")"] | None => [] end
  ++ [Word (f_name f); op "("] ++ params_toks (f_params f) ++ [op ")"] ++ f_results f ++ [op "{"] ++ block_toks (f_body f) ++ [op "}"].

(** ** What they do *)
Section Run.
  (** Values of the library, and what it can change *)
  Variables O W : Type.
  Inductive gval :=
  | VNil | VStr (s : str) | VBool (b : bool) | VNum (n : Z)      (* []byte are VStr, too *)
  | VStrs (l : list str)                                     (* a slice of strings that is not nil *)
  | VKeys (m : gomap unit)                                   (* a map[string]struct{} *)
  | VList (l : list gval)                                    (* a slice of anything else *)
  | VObj (x : O)
  | VStruct (ty : list token) (fs : list (str * gval))
  | VFun (ps : list (str * list token)) (body : list gstm) (env : list (str * gval)).
  Definition genv := list (str * gval).
  Definition outcome := option (list gval * W).              (* None: a panic *)
  (** The library: p.f(args) and builtins by name, methods, fields, calls of its function values, type tests, zero values, and iteration *)
  Record golib := mkLib {
    l_call : list str -> list gval -> W -> outcome;
    l_meth : str -> gval -> list gval -> W -> outcome;
    l_field : str -> gval -> W -> option gval;
    l_global : list str -> option gval;                      (* names of the package, p.f of other packages *)
    l_same : O -> O -> bool;
    l_app : O -> list gval -> W -> outcome;
    l_is : list token -> gval -> bool;
    l_zero : list token -> gval;
    l_range : gval -> W -> option (list (gval * gval));
    l_order : list str -> list str }.                        (* the order in which a map[string]struct{} is visited *)
  Variable lib : golib.
  Fixpoint lookup (x : str) (env : genv) : option gval := match env with [] => None | (y, v) :: env' => if str_eqb x y then Some v else lookup x env' end.
  Fixpoint update (x : str) (v : gval) (env : genv) : genv := match env with [] => [] | (y, u) :: env' => if str_eqb x y then (y, v) :: env' else (y, u) :: update x v env' end.
  (** x := v: a new variable; _ is none *)
  Definition bind (x : str) (v : gval) (env : genv) : genv := if str_eqb x (T "_") then env else (x, v) :: env.
  Fixpoint binds (xs : list str) (vs : list gval) (env : genv) : genv := match xs, vs with x :: xs', v :: vs' => binds xs' vs' (bind x v env) | _, _ => env end.
  Definition same_value (a b : gval) : option bool :=
    match a, b with
    | VNil, VNil => Some true
    | VStr x, VStr y => Some (str_eqb x y)
    | VNum x, VNum y => Some (Z.eqb x y)
    | VObj x, VObj y => Some (l_same lib x y)
    | VBool x, VBool y => Some (Bool.eqb x y)
    | VNil, (VStrs _ | VObj _ | VStruct _ _ | VFun _ _ _ | VKeys _ | VList _) | (VStrs _ | VObj _ | VStruct _ _ | VFun _ _ _ | VKeys _ | VList _), VNil => Some false
    | _, _ => None
    end.
  Definition is_type (ty : list token) (v : gval) : bool := match v with VNil => false | _ => l_is lib ty v end.
  (** The value of e where n values are wanted: 2 is the comma-ok form of assertions and of map look-ups. *)
  Fixpoint eval (e : gexp) (env : genv) (w : W) (n : nat) {struct e} : outcome :=
    let one v := match n with 1 => Some ([v], w) | _ => None end in
    let args := (fix args (es : list gexp) (w : W) : outcome := match es with [] => Some ([], w) | a :: es' =>
      match eval a env w 1 with Some ([v], w1) => match args es' w1 with Some (vs, w2) => Some (v :: vs, w2) | None => None end | _ => None end end) in
    match e with
    | EVar x => match lookup x env with Some v => one v | None => match l_global lib [x] with Some v => one v | None => None end end
    | EStr s => one (VStr s)
    | ENum k => one (VNum k)
    | EBool b => one (VBool b)
    | ENil => one VNil
    | EFun ps _ body => one (VFun ps body env)
    | EKeys l => one (VKeys (fold_left (fun m k => mset m k tt) l []))
    | ELit ty fs =>
        match (fix fields (l : list (str * gexp)) (w : W) : option (list (str * gval) * W) := match l with [] => Some ([], w) | (f, a) :: l' =>
          match eval a env w 1 with Some ([v], w1) => match fields l' w1 with Some (vs, w2) => Some ((f, v) :: vs, w2) | None => None end | _ => None end end) fs w with
        | Some (vs, w1) => match n with 1 => Some ([VStruct ty vs], w1) | _ => None end
        | None => None
        end
    | ELine ty f a => match eval a env w 1 with Some ([v], w1) => match n with 1 => Some ([VStruct ty [(f, v)]], w1) | _ => None end | _ => None end
    | EList ty es => match args es w with Some (vs, w1) => match n with 1 => Some ([VList vs], w1) | _ => None end | None => None end
    | EInto _ _ _ => None                                     (* only in assignments *)
    | ESel a f =>
        match a with
        | EVar p => match lookup p env with
                    | None => match l_global lib [p; f] with Some v => one v | None => None end
                    | Some (VStruct _ fs) => match lookup f fs with Some v => one v | None => None end
                    | Some v => match l_field lib f v w with Some u => one u | None => None end
                    end
        | _ => match eval a env w 1 with
               | Some ([v], w1) => match l_field lib f v w1, n with Some u, 1 => Some ([u], w1) | _, _ => None end
               | _ => None
               end
        end
    | EAssert a ty => match eval a env w 1 with
                      | Some ([v], w1) => match n with
                                          | 1 => if is_type ty v then Some ([v], w1) else None
                                          | 2 => Some ([if is_type ty v then v else l_zero lib ty; VBool (is_type ty v)], w1)
                                          | _ => None
                                          end
                      | _ => None
                      end
    | EIndex a i => match eval a env w 1 with
                    | Some ([v], w1) => match eval i env w1 1 with
                        | Some ([k], w2) =>
                            match v, k, n with
                            | VKeys m, VStr s, 2 => Some ([VNil; VBool (match mget m s with Some _ => true | None => false end)], w2)
                            | VStrs (x :: _), VNum z, 1 => if Z.eqb z 0 then Some ([VStr x], w2) else None
                            | _, _, _ => None
                            end
                        | _ => None
                        end
                    | _ => None
                    end
    | EUpTo a i => match eval a env w 1 with
                   | Some ([VStr s], w1) => match eval i env w1 1 with Some ([VNum z], w2) => match n with 1 => if Z.leb 0 z && Z.leb z (Z.of_nat (length s)) then Some ([VStr (firstn (Z.to_nat z) s)], w2) else None | _ => None end | _ => None end
                   | _ => None
                   end
    | EGt a b => match eval a env w 1 with
                 | Some ([VNum x], w1) => match eval b env w1 1 with Some ([VNum y], w2) => match n with 1 => Some ([VBool (Z.ltb y x)], w2) | _ => None end | _ => None end
                 | _ => None
                 end
    | EPlus a b => match eval a env w 1 with
                   | Some ([VStr x], w1) => match eval b env w1 1 with Some ([VStr y], w2) => match n with 1 => Some ([VStr (x ++ y)], w2) | _ => None end | _ => None end
                   | _ => None
                   end
    | EEq a b => match eval a env w 1 with
                 | Some ([x], w1) => match eval b env w1 1 with Some ([y], w2) => match same_value x y, n with Some r, 1 => Some ([VBool r], w2) | _, _ => None end | _ => None end
                 | _ => None
                 end
    | ENe a b => match eval a env w 1 with
                 | Some ([x], w1) => match eval b env w1 1 with Some ([y], w2) => match same_value x y, n with Some r, 1 => Some ([VBool (negb r)], w2) | _, _ => None end | _ => None end
                 | _ => None
                 end
    | ENot a => match eval a env w 1 with Some ([VBool b], w1) => match n with 1 => Some ([VBool (negb b)], w1) | _ => None end | _ => None end
    | EDeref a | EAddr a | ESpread a => eval a env w n
    | ECall f es | ECallC f es =>
        let result (r : outcome) : outcome := match r with Some (vs, w1) => if Nat.eqb (length vs) n then Some (vs, w1) else None | None => None end in
        match f with
        | EVar g => match lookup g env with
                    | None => match args es w with Some (vs, w1) => result (l_call lib [g] vs w1) | None => None end                        (* a function or builtin *)
                    | Some (VObj x) => match args es w with Some (vs, w1) => result (l_app lib x vs w1) | None => None end
                    | Some _ => None
                    end
        | ESel (EVar p) g => match lookup p env with
                             | None => match args es w with Some (vs, w1) => result (l_call lib [p; g] vs w1) | None => None end            (* p.g of a package *)
                             | Some (VStruct ty fs) => match lookup g fs with
                                 | Some (VObj x) => match args es w with Some (vs, w1) => result (l_app lib x vs w1) | None => None end      (* a field *)
                                 | Some _ => None
                                 | None => match args es w with Some (vs, w1) => result (l_meth lib g (VStruct ty fs) vs w1) | None => None end
                                 end
                             | Some v => match args es w with Some (vs, w1) => result (l_meth lib g v vs w1) | None => None end
                             end
        | ESel a g => match eval a env w 1 with
                      | Some ([v], w1) => match args es w1 with Some (vs, w2) => result (l_meth lib g v vs w2) | None => None end
                      | _ => None
                      end
        | _ => None
        end
    end.
  Definition eval1 (e : gexp) (env : genv) (w : W) : option (gval * W) := match eval e env w 1 with Some ([v], w1) => Some (v, w1) | _ => None end.
  Fixpoint eval_all (es : list gexp) (env : genv) (w : W) : outcome :=
    match es with [] => Some ([], w) | e :: es' => match eval1 e env w with Some (v, w1) => match eval_all es' env w1 with Some (vs, w2) => Some (v :: vs, w2) | None => None end | None => None end end.
  (** A statement goes on, returns, or panics. *)
  Inductive flow := Next (env : genv) (w : W) | Return (vs : list gval) (env : genv) (w : W) | Panic.
  (** At the end of a block its variables are gone. *)
  Definition leave (outer : genv) (f : flow) : flow :=
    let cut env := skipn (length env - length outer) env in
    match f with Next env w => Next (cut env) w | Return vs env w => Return vs (cut env) w | Panic => Panic end.
  Definition assign (x : gexp) (v : gval) (env : genv) : option genv :=
    match x with
    | EVar y => Some (if str_eqb y (T "_") then env else update y v env)
    | EDeref (EVar y) => Some (update y v env)
    | ESel (EVar y) f => match lookup y env with Some (VStruct ty fs) => Some (update y (VStruct ty (update f v fs)) env) | _ => None end
    | _ => None
    end.
  Fixpoint assigns (xs : list gexp) (vs : list gval) (env : genv) : option genv :=
    match xs, vs with [], [] => Some env | x :: xs', v :: vs' => match assign x v env with Some env' => assigns xs' vs' env' | None => None end | _, _ => None end.
  (** What a range clause visits *)
  Definition visits (v : gval) (w : W) : option (list (gval * gval)) :=
    match v with
    | VNil => Some []
    | VStrs l => Some (map (fun s => (VNil, VStr s)) l)
    | VKeys m => Some (map (fun s => (VStr s, VNil)) (l_order lib (keys m)))
    | _ => l_range lib v w
    end.
  (** Statements one after the other, and the iterations of a range loop; [ex] does one statement. *)
  Section Blocks.
    Variable ex : gstm -> genv -> W -> flow.
    Fixpoint block_of (l : list gstm) (env : genv) (w : W) {struct l} : flow := match l with [] => Next env w | s :: l' => match ex s env w with Next env1 w1 => block_of l' env1 w1 | r => r end end.
    Definition loop_of (xs : list str) (body : list gstm) : list (gval * gval) -> genv -> W -> flow :=
      fix go l env w := match l with [] => Next env w | (k, u) :: l' => match leave env (block_of body (binds xs [k; u] env) w) with Next env1 w2 => go l' env1 w2 | r => r end end.
  End Blocks.
  (** The values of an expression, and the environment: f(args, &x) gives one value more, which is x's. *)
  Definition eval_into (e : gexp) (env : genv) (w : W) (n : nat) : option (list gval * genv * W) :=
    match e with
    | EInto f es x => match eval (ECall f (es ++ [EVar x])) env w (S n) with Some (vs, w1) => Some (firstn n vs, update x (nth n vs VNil) env, w1) | None => None end
    | _ => match eval e env w n with Some (vs, w1) => Some (vs, env, w1) | None => None end
    end.
  Fixpoint exec (s : gstm) (env : genv) (w : W) {struct s} : flow :=
    match s with
    | SDef xs e => match eval_into e env w (length xs) with Some (vs, env1, w1) => Next (binds xs vs env1) w1 | None => Panic end
    | SSet xs e => match eval_into e env w (length xs) with Some (vs, env0, w1) => match assigns xs vs env0 with Some env1 => Next env1 w1 | None => Panic end | None => Panic end
    | SConst x z => Next (bind x (VNum z) env) w
    | SDefer e => Next env w                                  (* what deferred calls do is not looked at *)
    | SBlock body => leave env (block_of exec body env w)
    | SVar x ty => Next (bind x (l_zero lib ty) env) w
    | SDo e => match eval e env w 1 with Some (_, w1) => Next env w1 | None => match eval e env w 0 with Some (_, w1) => Next env w1 | None => match eval e env w 2 with Some (_, w1) => Next env w1 | None => Panic end end end
    | SDelete m k => match lookup m env, eval k env w 1 with Some (VKeys ks), Some ([VStr s], w1) => Next (update m (VKeys (mdel ks s)) env) w1 | _, _ => Panic end
    | SRet es => match es with
                 | [ECall f args] => match eval (ECall f args) env w 1 with Some (vs, w1) => Return vs env w1 | None => Panic end
                 | _ => match eval_all es env w with Some (vs, w1) => Return vs env w1 | None => Panic end
                 end
    | SIf i c body =>
        leave env (match (match i with Some s => exec s env w | None => Next env w end) with
                   | Next env1 w1 => match eval c env1 w1 1 with
                                     | Some ([VBool true], w2) => block_of exec body env1 w2
                                     | Some ([VBool false], w2) => Next env1 w2
                                     | _ => Panic
                                     end
                   | r => r
                   end)
    | SRange xs e body =>
        match eval e env w 1 with
        | Some ([v], w1) =>
            match visits v w1 with
            | Some l => loop_of exec xs body l env w1
            | None => Panic
            end
        | _ => Panic
        end
    end.
  Definition exec_block : list gstm -> genv -> W -> flow := block_of exec.
  (** A call with these arguments: the results, the parameters (and receiver) at the end, and the world *)
  Definition run_body (ps : list (str * list token)) (body : list gstm) (outer : genv) (args : list gval) (w : W) : flow :=
    let env := binds (map fst ps) args outer in
    match exec_block body env w with Next env1 w1 => Return [] env1 w1 | r => r end.
  Definition run_func (f : gfunc) (recv : list gval) (args : list gval) (w : W) : flow :=
    run_body (match f_recv f with Some (x, ty) => [(x, ty)] | None => [] end ++ f_params f) (f_body f) [] (recv ++ args) w.
  Definition run_closure (v : gval) (args : list gval) (w : W) : flow := match v with VFun ps body env => run_body ps body env args w | _ => Panic end.
End Run.
Arguments VNil {O}. Arguments VStr {O}. Arguments VBool {O}. Arguments VNum {O}. Arguments VStrs {O}. Arguments VKeys {O}. Arguments VList {O}. Arguments VObj {O}. Arguments VStruct {O}. Arguments VFun {O}.
Arguments Next {O W}. Arguments Return {O W}. Arguments Panic {O W}.
