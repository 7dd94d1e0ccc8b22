(** A part of Go, as the specification of C80: the syntax tree of the statements that generated request decoders are made of, the tokens of a tree, and what it does.
    Nothing here is baron's code.  Library functions are those of GenHttp.v ([codecs]).
    Simplified: types are those of the values (HttpTypes.v is about the assignments), and what Go would reject when it compiles is [Reject] when it is reached. *)
From Coq Require Import String.
From Verif Require Import GoStr GoMap Strs HttpTransport Url GenHttp GoLex.

Inductive ty := TyName (n : str) | TySel (p n : str) | TyPtr (t : ty) | TySlice (t : ty).
Inductive expr :=
| EVar (x : str)
| ENum (n : str)
| EStr (s : str)                       (* as between the quotes *)
| EType (t : ty)
| ESel (e : expr) (x : str)            (* e.x *)
| ECall (f : expr) (args : list expr)
| EIndex (e i : expr)
| EUpTo (e hi : expr)                  (* e[:hi] *)
| EAddr (e : expr)
| EDeref (e : expr)
| EAssert (e : expr) (t : ty)          (* e.(t) *)
| EBin (op : str) (a b : expr)
| ELit (t : ty) (keys : list str) (args : list expr).   (* t{a, b}, or t{k: a, l: b} *)
Inductive simple :=
| SVar (x : str) (t : ty)
| SConst (x : str) (n : str)
| SDefine (xs : list str) (e : expr)   (* x, y := e *)
| SAssign (x : expr) (e : expr)
| SAssigns (xs : list expr) (e : expr) (* x, y = e *)
| SCall (e : expr)
| SInc (x : str)
| SDefer (e : expr)
| SReturn (es : list expr)
| SNone                                (* no statement *)
| SGarbage (l : list (tok N)).         (* what is no Go *)
Inductive stmt :=
| Do (s : simple)
| If (init : simple) (c : expr) (yes no : block)
| For (i v : str) (e : expr) (body : block)           (* for i, v := range e *)
| Switch (cs : clauses)
with block := Nil | Cons (s : stmt) (b : block)
with clauses := NoCase | Case (c : expr) (b : block) (cs : clauses).
Fixpoint block_app (a b : block) : block := match a with Nil => b | Cons s a' => Cons s (block_app a' b) end.
Fixpoint block_of (l : list stmt) : block := match l with [] => Nil | s :: l' => Cons s (block_of l') end.

(** ** The tokens of a tree *)
Definition op (s : string) : tok N := Op (T s).
Definition word (s : string) : tok N := Word (T s).
Fixpoint sep {A} (x : list A) (l : list (list A)) : list A := match l with [] => [] | [a] => a | a :: l' => a ++ x ++ sep x l' end.
Fixpoint ty_toks (t : ty) : list (tok N) :=
  match t with
  | TyName n => [Word n]
  | TySel p n => [Word p; op "."; Word n]
  | TyPtr t => op "*" :: ty_toks t
  | TySlice t => op "[" :: op "]" :: ty_toks t
  end.
Fixpoint expr_toks (e : expr) : list (tok N) :=
  match e with
  | EVar x => [Word x]
  | ENum n => [Num n]
  | EStr s => [Str s]
  | EType t => ty_toks t
  | ESel e x => expr_toks e ++ [op "."; Word x]
  | ECall f args => expr_toks f ++ [op "("] ++ sep [op ","] (map expr_toks args) ++ [op ")"]
  | EIndex e i => expr_toks e ++ [op "["] ++ expr_toks i ++ [op "]"]
  | EUpTo e hi => expr_toks e ++ [op "["; op ":"] ++ expr_toks hi ++ [op "]"]
  | EAddr e => op "&" :: expr_toks e
  | EDeref e => op "*" :: expr_toks e
  | EAssert e t => expr_toks e ++ [op "."; op "("] ++ ty_toks t ++ [op ")"]
  | EBin o a b => expr_toks a ++ [Op o] ++ expr_toks b
  | ELit t keys args =>
      ty_toks t ++ [op "{"]
      ++ sep [op ","] ((fix go ks l := match l with
                        | [] => []
                        | a :: l' => match ks with k :: ks' => (Word k :: op ":" :: expr_toks a) :: go ks' l' | [] => expr_toks a :: go [] l' end
                        end) keys args)
      ++ [op "}"]
  end.
Definition simple_toks (s : simple) : list (tok N) :=
  match s with
  | SVar x t => word "var" :: Word x :: ty_toks t
  | SConst x n => [word "const"; Word x; op "="; Num n]
  | SDefine xs e => sep [op ","] (map (fun x => [Word x]) xs) ++ [op ":="] ++ expr_toks e
  | SAssign x e => expr_toks x ++ [op "="] ++ expr_toks e
  | SAssigns xs e => sep [op ","] (map expr_toks xs) ++ [op "="] ++ expr_toks e
  | SCall e => expr_toks e
  | SInc x => [Word x; op "++"]
  | SDefer e => word "defer" :: expr_toks e
  | SReturn es => word "return" :: sep [op ","] (map expr_toks es)
  | SNone => []
  | SGarbage l => l
  end.
Fixpoint stmt_toks (s : stmt) : list (tok N) :=
  match s with
  | Do s => simple_toks s
  | If init c yes no =>
      [word "if"] ++ (match init with SNone => [] | _ => simple_toks init ++ [Semi] end) ++ expr_toks c ++ [op "{"] ++ block_toks yes ++ [op "}"]
      ++ match no with Nil => [] | _ => [word "else"; op "{"] ++ block_toks no ++ [op "}"] end
  | For i v e body => [word "for"; Word i; op ","; Word v; op ":="; word "range"] ++ expr_toks e ++ [op "{"] ++ block_toks body ++ [op "}"]
  | Switch cs => [word "switch"; op "{"] ++ clauses_toks cs ++ [op "}"]
  end
(** Every statement is followed by a semicolon, the last one's being optional. *)
with block_toks (b : block) : list (tok N) := match b with Nil => [] | Cons s b' => stmt_toks s ++ Semi :: block_toks b' end
with clauses_toks (cs : clauses) : list (tok N) := match cs with NoCase => [] | Case c b cs' => word "case" :: expr_toks c ++ op ":" :: block_toks b ++ clauses_toks cs' end.

(** func name(_ context.Context, r *http.Request) (interface{}, error) { body } *)
Definition decoder_toks (name : str) (body : block) : list (tok N) :=
  [word "func"; Word name; op "("; word "_"; word "context"; op "."; word "Context"; op ","; word "r"; op "*"; word "http"; op "."; word "Request"; op ")"; op "("; word "interface"; op "{"; op "}"; op ","; word "error"; op ")"; op "{"]
  ++ block_toks body ++ [op "}"; Semi].

(** ** What a tree does *)
Inductive val :=
| VG (g : gval)                        (* numbers, strings, slices, messages *)
| VErr (e : bool)                      (* an error; false: nil *)
| VNil
| VBytes (s : str)
| VVars (m : gomap str)                (* a map[string]string *)
| VQuery (q : values)                  (* an url.Values *)
| VReq (r : request)                   (* a struct with the request *)
| VPtr (x : str)                       (* the address of a variable *)
| VHttp | VBody | VUrl                 (* the *http.Request, its Body and URL *)
| VOptions                             (* a protojson.UnmarshalOptions *)
| VWrap (k : str) (g : gval)           (* a struct with one field *)
| VMade (t : ty)                       (* an empty struct *)
| VPair (a b : val)
| VOther.                              (* anything else *)
Inductive why := Reject | Panics.
Inductive eres := Ok (v : val) | Bust (w : why).
(** The variables of the scopes, the innermost first: name, declared type if written, value. *)
Definition scope := list (str * (option ty * val)).
Definition env := list scope.
Fixpoint find_in (sc : scope) (x : str) : option (option ty * val) := match sc with [] => None | (y, d) :: sc' => if str_eqb x y then Some d else find_in sc' x end.
Fixpoint look (e : env) (x : str) : option (option ty * val) := match e with [] => None | sc :: e' => match find_in sc x with Some d => Some d | None => look e' x end end.
Fixpoint set_in (sc : scope) (x : str) (v : val) : scope := match sc with [] => [] | (y, (t, u)) :: sc' => if str_eqb x y then (y, (t, v)) :: sc' else (y, (t, u)) :: set_in sc' x v end.
Fixpoint set (e : env) (x : str) (v : val) : env := match e with [] => [] | sc :: e' => match find_in sc x with Some _ => set_in sc x v :: e' | None => sc :: set e' x v end end.
Definition declare (e : env) (x : str) (t : option ty) (v : val) : env := match e with sc :: e' => ((x, (t, v)) :: sc) :: e' | [] => [[(x, (t, v))]] end.

(** A decimal number *)
Definition decimal (s : str) : Z := fold_left (fun z c => (z * 10 + Z.of_N (c - 48))%Z) s 0%Z.
Definition wrap_u32 (z : Z) : Z := Z.modulo z 4294967296.
Definition wrap_i32 (z : Z) : Z := (Z.modulo (z + 2147483648) 4294967296 - 2147483648)%Z.
(** The value of a text between quotes, if there is nothing to unquote *)
Definition literal (s : str) : val := if contains1 s c_backslash then VOther else VG (VS s).
Definition nat_of (v : val) : option nat := match v with VG (VZ z) => if Z.ltb z 0 then None else Some (Z.to_nat z) | _ => None end.
Fixpoint replace_nth {A} (l : list A) (n : nat) (x : A) : list A := match l, n with [], _ => [] | _ :: l', 0 => x :: l' | a :: l', S n' => a :: replace_nth l' n' x end.

Section Run.
  Variable K : codecs.
  Variable zero : request.           (* the zero value of the request type *)
  Variable request_type : str.
  Variable vars : gomap str.         (* mux.Vars of the request *)
  Variable query : values.           (* its URL's Query *)
  Variable body : option str.        (* its body; None: it cannot be read *)

  (** Identifiers that every Go file can use. *)
  Definition universe (x : str) : option val :=
    if str_eqb x (T "nil") then Some VNil
    else if str_eqb x (T "true") then Some (VG (VB true))
    else if str_eqb x (T "false") then Some (VG (VB false))
    else None.
  (** t(v) for the name of a type *)
  Definition convert_to (t : str) (v : val) : eres :=
    match v with
    | VG (VZ z) => if str_eqb t (T "uint32") then Ok (VG (VZ (wrap_u32 z)))
                   else if str_eqb t (T "uint64") || str_eqb t (T "int64") || str_eqb t (T "bool") || str_eqb t (T "float32") || str_eqb t (T "float64") || str_eqb t (T "string") then Bust Reject
                   else Ok (VG (VZ (wrap_i32 z)))     (* int32 and enum types *)
    | VG (VF f) => if str_eqb t (T "float32") then Ok (VG (VF f)) else Bust Reject    (* parsed for 32 bits *)
    | _ => Bust Reject
    end.
  Definition zero_of (t : ty) : val :=
    match t with
    | TyPtr _ => VG VNone
    | TySlice _ => VG (VList [])
    | TyName n => if str_eqb n (T "string") then VG (VS [])
                  else if str_eqb n request_type then VReq zero
                  else if str_eqb n (T "bool") then VG (VB false)
                  else if str_eqb n (T "float32") || str_eqb n (T "float64") then VG (VF 0)
                  else if existsb (str_eqb n) [T "uint32"; T "uint64"; T "int32"; T "int64"] then VG (VZ 0)
                  else VG (empty_msg K)
    | TySel _ _ => VOther
    end.
  Definition zero_elem (t : ty) : gval := match zero_of t with VG g => g | _ => VNone end.
  Definition parsed (p : scalar_parse) (s : str) : eres := match parse_scalar K p s with Some g => Ok (VPair (VG g) (VErr false)) | None => Ok (VPair (VG VNone) (VErr true)) end.
  Definition width_of (z : Z) : option nat := if Z.eqb z 32 then Some 32 else if Z.eqb z 64 then Some 64 else None.
  (** The functions of packages *)
  Definition lib (p f : str) (args : list val) : eres :=
    let is x y := str_eqb p (T x) && str_eqb f (T y) in
    if is "strconv"%string "ParseUint"%string then match args with [VG (VS s); VG (VZ 10); VG (VZ w)] => match width_of w with Some n => parsed (PUint n) s | None => Bust Reject end | _ => Bust Reject end
    else if is "strconv"%string "ParseInt"%string then match args with [VG (VS s); VG (VZ 10); VG (VZ w)] => match width_of w with Some n => parsed (PInt n) s | None => Bust Reject end | _ => Bust Reject end
    else if is "strconv"%string "ParseFloat"%string then match args with [VG (VS s); VG (VZ w)] => match width_of w with Some n => parsed (PFloat n) s | None => Bust Reject end | _ => Bust Reject end
    else if is "strconv"%string "ParseBool"%string then match args with [VG (VS s)] => parsed PBool s | _ => Bust Reject end
    else if is "errors"%string "Wrap"%string || is "errors"%string "Wrapf"%string then match args with VErr b :: _ :: _ => Ok (VErr b) | _ => Bust Reject end
    else if is "errors"%string "Errorf"%string then match args with _ :: _ => Ok (VErr true) | _ => Bust Reject end
    else if is "fmt"%string "Sprintf"%string then match args with _ :: _ => Ok VOther | _ => Bust Reject end
    else if is "mux"%string "Vars"%string then match args with [VHttp] => Ok (VVars vars) | _ => Bust Reject end
    else if is "ioutil"%string "ReadAll"%string then match args with [VBody] => match body with Some s => Ok (VPair (VBytes s) (VErr false)) | None => Ok (VPair (VBytes []) (VErr true)) end | _ => Bust Reject end
    else Bust Reject.
  (** Methods of values *)
  Definition method (v : val) (m : str) (args : list val) : eres :=
    match v with
    | VBody => if str_eqb m (T "Close") then match args with [] => Ok (VErr false) | _ => Bust Reject end else Bust Reject
    | VUrl => if str_eqb m (T "Query") then match args with [] => Ok (VQuery query) | _ => Bust Reject end else Bust Reject
    | _ => Bust Reject
    end.
  Definition field_of (v : val) (x : str) : eres :=
    match v with
    | VHttp => if str_eqb x (T "Body") then Ok VBody else if str_eqb x (T "URL") then Ok VUrl else Bust Reject
    | _ => Bust Reject
    end.
  Definition binary (o : str) (a b : val) : eres :=
    if str_eqb o (T "!=") then match a, b with VErr x, VNil => Ok (VG (VB x)) | _, _ => Bust Reject end
    else if str_eqb o (T ">") then match a, b with VG (VZ x), VG (VZ y) => Ok (VG (VB (Z.ltb y x))) | _, _ => Bust Reject end
    else if str_eqb o (T "+") then match a, b with VG (VS x), VG (VS y) => Ok (VG (VS (x ++ y))) | _, _ => Bust Reject end
    else Bust Reject.
  Definition index (a i : val) : eres :=
    match a, i with
    | VVars m, VG (VS k) => Ok (VG (VS (match mget m k with Some s => s | None => [] end)))
    | VQuery q, VG (VS k) => Ok (VG (VList (match mget q k with Some l => map VS l | None => [] end)))
    | VG (VList l), i => match nat_of i with Some n => match nth_error l n with Some g => Ok (VG g) | None => Bust Panics end | None => Bust Panics end
    | _, _ => Bust Reject
    end.
  Definition composite (t : ty) (keys : list str) (args : list val) : eres :=
    match t, keys, args with
    | TyName n, [], [] => Ok (VMade t)
    | TyName n, [k], [VG g] => Ok (VWrap k g)
    | TyName n, [], VErr true :: _ => if str_eqb n (T "httpError") then Ok (VErr true) else Bust Reject
    | TySel p n, _, _ => if str_eqb p (T "protojson") && str_eqb n (T "UnmarshalOptions") then Ok VOptions else Bust Reject
    | _, _, _ => Bust Reject
    end.
  Definition address (v : val) : eres :=
    match v with
    | VMade _ => Ok (VG (VSome (empty_msg K)))
    | VWrap k g => Ok (VG (VOneof (Some (k, g))))
    | _ => Bust Reject
    end.

  (** Expressions; calls that change variables are below *)
  Fixpoint eval (e : env) (x : expr) {struct x} : eres :=
    let each := fix each (l : list expr) : option (list val) * why :=
      match l with
      | [] => (Some [], Reject)
      | a :: l' => match eval e a with Ok v => match each l' with (Some vs, w) => (Some (v :: vs), w) | (None, w) => (None, w) end | Bust w => (None, w) end
      end in
    let all (l : list expr) (k : list val -> eres) : eres := match each l with (Some vs, _) => k vs | (None, w) => Bust w end in
    match x with
    | EVar x => match look e x with Some (_, v) => Ok v | None => match universe x with Some v => Ok v | None => Bust Reject end end
    | ENum n => Ok (VG (VZ (decimal n)))
    | EStr s => Ok (literal s)
    | EType _ => Bust Reject
    | ESel y f =>
        match y with
        | EVar p => match look e p with Some (_, v) => field_of v f | None => Ok VOther (* a constant of a package *) end
        | _ => match eval e y with Ok v => field_of v f | b => b end
        end
    | ECall f args =>
        match f with
        | EType (TySlice (TyName n)) => if str_eqb n (T "byte") then all args (fun vs => match vs with [VG (VS s)] => Ok (VBytes s) | _ => Bust Reject end) else Bust Reject
        | EVar g =>
            match look e g with
            | Some _ => Bust Reject      (* not a function *)
            | None =>
                if str_eqb g (T "len") then
                  all args (fun vs => match vs with
                                      | [VBytes s] => Ok (VG (VZ (Z.of_nat (length s))))
                                      | [VG (VList l)] => Ok (VG (VZ (Z.of_nat (length l))))
                                      | _ => Bust Reject
                                      end)
                else if str_eqb g (T "make") then
                  match args with
                  | [EType (TySlice t); n] => match eval e n with Ok v => match nat_of v with Some n => Ok (VG (VList (repeat (zero_elem t) n))) | None => Bust Panics end | b => b end
                  | _ => Bust Reject
                  end
                else all args (fun vs => match vs with [v] => convert_to g v | _ => Bust Reject end)
            end
        | ESel y m =>
            match y with
            | EVar p => match look e p with Some (_, v) => all args (method v m) | None => all args (lib p m) end
            | _ => match eval e y with Ok v => all args (method v m) | b => b end
            end
        | _ => Bust Reject
        end
    | EIndex a i => match eval e a with Ok v => match eval e i with Ok k => index v k | b => b end | b => b end
    | EUpTo a hi => match eval e a with Ok v => match eval e hi with Ok n => match v, nat_of n with VBytes s, Some n => if Nat.leb n (length s) then Ok (VBytes (firstn n s)) else Bust Panics | _, _ => Bust Reject end | b => b end | b => b end
    | EAddr a =>
        match a with
        | EVar x => match look e x with Some _ => Ok (VPtr x) | None => Bust Reject end
        | ELit _ _ _ => match eval e a with Ok v => address v | b => b end
        | _ => Bust Reject         (* not addressable *)
        end
    | EDeref _ | EAssert _ _ => Bust Reject       (* not in decoders *)
    | EBin o a b => match eval e a with Ok v => match eval e b with Ok w => binary o v w | x => x end | x => x end
    | ELit t keys args => all args (composite t keys)
    end.

  (** json.Unmarshal(s, &x) for a variable of this type: its value after it, and whether there is an error. *)
  Definition unmarshal_slice (t : ty) (s : str) : val * bool :=
    match t with
    | TyName n =>
        match scalar_table n with
        | Some p => match json_slice K p s with Some l => (VG (VList l), false) | None => (VG (js_junk K n s), true) end
        | None => match js_dec K n true s with Some v => (VG v, false) | None => (VG (js_junk K n s), true) end
        end
    | TyPtr (TyName n) => match js_dec K n true s with Some v => (VG v, false) | None => (VG (js_junk K n s), true) end
    | _ => (VOther, true)
    end.
  (** json.Unmarshal(s, x) for a pointer to a struct: null changes nothing. *)
  Definition unmarshal_struct (t : ty) (v : val) (s : str) : val * bool :=
    match t with
    | TyName n => if str_eqb s (T "null") then (v, false) else match js_dec K n false s with Some g => (VG (VSome g), false) | None => (VG (VSome (js_junk K n s)), true) end
    | _ => (VOther, true)
    end.
  (** x = f(..) where f changes a variable: json.Unmarshal, and the Unmarshal of protojson's options; and what can be written to a field. *)
  Definition as_field (e : env) (v : val) : option gval :=
    match v with
    | VG g => Some g
    | VPtr x => match look e x with Some (_, VG g) => Some (VSome g) | _ => None end
    | _ => None
    end.
  Definition effect (e : env) (x : expr) : eres * env :=
    match x with
    | ECall (ESel (EVar p) m) [a; t] =>
        match eval e a, look e p with
        | Ok (VBytes s), None =>
            if str_eqb p (T "json") && str_eqb m (T "Unmarshal") then
              match t with
              | EAddr (EVar x) => match look e x with
                                  | Some (Some (TySlice t), _) => let (v, err) := unmarshal_slice t s in (Ok (VErr err), set e x v)
                                  | _ => (Bust Reject, e)
                                  end
              | EVar x => match look e x with
                          | Some (Some (TyPtr t), v) => let (v', err) := unmarshal_struct t v s in (Ok (VErr err), set e x v')
                          | Some _ => (Ok (VErr true), e)       (* not a pointer: json.InvalidUnmarshalError *)
                          | None => (Bust Reject, e)
                          end
              | _ => (Bust Reject, e)
              end
            else (Bust Reject, e)
        | Ok (VBytes s), Some (_, VOptions) =>
            if str_eqb m (T "Unmarshal") then
              match t with
              | EAddr (EVar x) => match look e x with
                                  | Some (_, VReq r) => match pj_dec K s with Some r' => (Ok (VErr false), set e x (VReq r')) | None => (Ok (VErr true), e) end
                                  | _ => (Bust Reject, e)
                                  end
              | _ => (Bust Reject, e)
              end
            else (Bust Reject, e)
        | Ok _, _ => (Bust Reject, e)
        | Bust w, _ => (Bust w, e)
        end
    | _ => (Bust Reject, e)
    end.
  Definition effects (x : expr) : bool := match x with ECall (ESel (EVar _) m) [_; _] => str_eqb m (T "Unmarshal") | _ => false end.
  (** x = v *)
  Definition store (e : env) (x : expr) (v : val) : env + why :=
    match x with
    | EVar x => if str_eqb x (T "_") then inl e
                else match look e x with
                     | Some (_, _) => match v with
                                      | VPair _ _ => inr Reject
                                      | VMade t => inl (set e x (VG (empty_msg K)))
                                      | _ => inl (set e x v)
                                      end
                     | None => inr Reject
                     end
    | ESel (EVar x) f => match look e x, as_field e v with
                         | Some (_, VReq r), Some g => inl (set e x (VReq (upd r f g)))
                         | _, _ => inr Reject
                         end
    | EIndex (EVar x) (EVar i) =>
        match look e x, look e i, v with
        | Some (_, VG (VList l)), Some (_, n), VG g =>
            match nat_of n with Some n => if Nat.ltb n (length l) then inl (set e x (VG (VList (replace_nth l n g)))) else inr Panics | None => inr Panics end
        | _, _, _ => inr Reject
        end
    | _ => inr Reject
    end.
  Inductive res := Next (e : env) | Return (vs : list val) (e : env) | Stop (w : why).
  Definition in_top (e : env) (x : str) : bool := match e with sc :: _ => match find_in sc x with Some _ => true | None => false end | [] => false end.
  (** x := v and x, y := v: at least one of the names is new in this scope. *)
  Definition bind1 (e : env) (x : str) (v : val) : env := if in_top e x then set e x v else declare e x None v.
  Definition define (e : env) (xs : list str) (v : val) : res :=
    match xs, v with
    | [_], VPair _ _ => Stop Reject
    | [x], v => if in_top e x then Stop Reject else Next (declare e x None v)
    | [x; y], VPair a b => if in_top e x && in_top e y || str_eqb x y then Stop Reject else Next (bind1 (bind1 e x a) y b)
    | _, _ => Stop Reject
    end.
  (** v, ok := m[k] *)
  Definition index_ok (e : env) (a i : expr) : eres :=
    match eval e a with
    | Ok v => match eval e i with
              | Ok (VG (VS k)) => match v with
                                  | VQuery q => match mget q k with Some l => Ok (VPair (VG (VList (map VS l))) (VG (VB true))) | None => Ok (VPair (VG (VList [])) (VG (VB false))) end
                                  | VVars m => match mget m k with Some s => Ok (VPair (VG (VS s)) (VG (VB true))) | None => Ok (VPair (VG (VS [])) (VG (VB false))) end
                                  | _ => Bust Reject
                                  end
              | Ok _ => Bust Reject
              | b => b
              end
    | b => b
    end.
  Definition run_simple (s : simple) (e : env) : res :=
    match s with
    | SVar x t => if in_top e x then Stop Reject else Next (declare e x (Some t) (zero_of t))
    | SConst x n => if in_top e x then Stop Reject else Next (declare e x None (VG (VZ (decimal n))))
    | SDefine xs x =>
        match (match xs, x with [_; _], EIndex a i => index_ok e a i | _, _ => eval e x end) with
        | Ok v => define e xs v
        | Bust w => Stop w
        end
    | SAssign l x =>
        if effects x then match effect e x with (Ok v, e') => match store e' l v with inl e'' => Next e'' | inr w => Stop w end | (Bust w, _) => Stop w end
        else match eval e x with Ok v => match store e l v with inl e' => Next e' | inr w => Stop w end | Bust w => Stop w end
    | SAssigns _ _ | SCall _ => Stop Reject      (* not in decoders *)
    | SInc x => match look e x with Some (_, VG (VZ z)) => Next (set e x (VG (VZ (z + 1)))) | _ => Stop Reject end
    | SDefer x => match eval e x with Ok _ => Next e | Bust w => Stop w end
    | SReturn es =>
        (fix go (l : list expr) (vs : list val) : res := match l with [] => Return (rev vs) e | x :: l' => match eval e x with Ok v => go l' (v :: vs) | Bust w => Stop w end end) es []
    | SNone => Next e
    | SGarbage _ => Stop Reject
    end.
  (** Leaving a scope *)
  Definition leave (r : res) : res := match r with Next (_ :: e) => Next e | r => r end.
  Fixpoint exec (s : stmt) (e : env) {struct s} : res :=
    match s with
    | Do s => run_simple s e
    | If init c yes no =>
        leave match run_simple init ([] :: e) with
              | Next e1 => match eval e1 c with
                           | Ok (VG (VB true)) => leave (exec_block yes ([] :: e1))
                           | Ok (VG (VB false)) => leave (exec_block no ([] :: e1))
                           | Ok _ => Stop Reject
                           | Bust w => Stop w
                           end
              | r => r
              end
    | For i v x body =>
        match eval e x with
        | Ok (VG (VList l)) =>
            (fix go (n : nat) (l : list gval) (e : env) : res :=
               match l with
               | [] => Next e
               | g :: l' => match leave (exec_block body ([(v, (None, VG g)); (i, (None, VG (VZ (Z.of_nat n))))] :: e)) with
                            | Next e' => go (S n) l' e'
                            | r => r
                            end
               end) 0 l e
        | Ok _ => Stop Reject
        | Bust w => Stop w
        end
    | Switch cs => exec_clauses cs e
    end
  with exec_block (b : block) (e : env) {struct b} : res := match b with Nil => Next e | Cons s b' => match exec s e with Next e' => exec_block b' e' | r => r end end
  with exec_clauses (cs : clauses) (e : env) {struct cs} : res :=
    match cs with
    | NoCase => Next e
    | Case c b cs' => match eval e c with
                      | Ok (VG (VB true)) => leave (exec_block b ([] :: e))
                      | Ok (VG (VB false)) => exec_clauses cs' e
                      | Ok _ => Stop Reject
                      | Bust w => Stop w
                      end
    end.
  (** A function (_ context.Context, r *http.Request) (interface{}, error): the request and the error it returns; an error alone; or neither ([None]: it
      returns something else, or panics). *)
  Definition call (f : block) : option dres :=
    match exec_block f [[(T "r", (None, VHttp))]] with
    | Return [VPtr x; VErr b] e => match look e x with Some (_, VReq r) => Some (DOk r b) | _ => None end
    | Return [VNil; VErr true] _ => Some DErr
    | Stop Reject => Some DBroken
    | _ => None
    end.
End Run.
