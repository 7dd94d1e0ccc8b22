(** A part of Go, as the specification of C81: what the statements that generated request encoders are made of do (the syntax is that of GoLang.v).
    Nothing here is baron's code.  Library functions are those of GenHttp.v ([codecs]) and Url.v.
    Simplified: what Go would reject when it compiles is [Reject] when it is reached; of the URL only the path (unescaped) and the query are kept. *)
From Coq Require Import String.
From Verif Require Import GoStr GoMap Decimals Strs HttpTransport Url GenHttp GoLex GoLang.

(** func name(_ context.Context, r *http.Request, request interface{}) error { body } *)
Definition encoder_toks (name : str) (body : block) : list (tok N) :=
  [word "func"; Word name; op "("; word "_"; word "context"; op "."; word "Context"; op ","; word "r"; op "*"; word "http"; op "."; word "Request"; op ","; word "request"; word "interface"; op "{"; op "}"; op ")"; word "error"; op "{"]
  ++ block_toks body ++ [op "}"; Semi].

(** The outgoing request: its path, query, body and the headers that were set *)
Record outgoing := mkOut { out_path : str; out_query : str; out_body : option str; out_headers : list (str * str) }.
(** The request message as Go sees it: its type, the types of the fields, and for every option of a oneof the field of the oneof and the type of the option. *)
Record struct := mkStruct { st_name : str; st_fields : str -> option ty; st_options : str -> option (str * ty) }.
(** The zero value of a type *)
Definition zero_value (t : ty) : gval :=
  match t with
  | TyName n => if str_eqb n (T "bool") then VB false else if str_eqb n (T "string") then VS []
                else if str_eqb n (T "float32") || str_eqb n (T "float64") then VF 0 else VZ 0
  | _ => VNone
  end.
(** The name in a type *)
Fixpoint named_type (t : ty) : str := match t with TyName n | TySel _ n => n | TyPtr t | TySlice t => named_type t end.

Inductive val :=
| XG (t : ty) (g : gval)               (* a value of a field *)
| XS (s : str) | XZ (z : Z) | XB (b : bool)
| XErr (e : bool)                      (* an error; false: nil *)
| XNil
| XBytes (s : str) | XBuffer (s : str) | XBody (s : str)
| XList (l : list str)                 (* a []string *)
| XUrl (path : str)                    (* what url.Parse gives *)
| XRawPath                             (* an encoding of a path, which the path decides *)
| XValues (m : values)                 (* an url.Values *)
| XRequest                             (* the *http.Request *)
| XRequestUrl | XHeader                (* and its URL and Header *)
| XAny                                 (* the parameter [request] *)
| XMessage                             (* the pointer in it *)
| XMarshal                             (* a protojson.MarshalOptions *)
| XPair (a b : val).
Inductive eres := Ok (v : val) | Bust (w : why).
Definition scope := list (str * val).
Definition env := list scope.
Fixpoint find_in (sc : scope) (x : str) : option val := match sc with [] => None | (y, v) :: sc' => if str_eqb x y then Some v else find_in sc' x end.
Fixpoint look (e : env) (x : str) : option val := match e with [] => None | sc :: e' => match find_in sc x with Some v => Some v | None => look e' x end end.
Fixpoint set_in (sc : scope) (x : str) (v : val) : scope := match sc with [] => [] | (y, u) :: sc' => if str_eqb x y then (y, v) :: sc' else (y, u) :: set_in sc' x v end.
Fixpoint set (e : env) (x : str) (v : val) : env := match e with [] => [] | sc :: e' => match find_in sc x with Some _ => set_in sc x v :: e' | None => sc :: set e' x v end end.
Definition declare (e : env) (x : str) (v : val) : env := match e with sc :: e' => ((x, v) :: sc) :: e' | [] => [[(x, v)]] end.

(** Variables, the outgoing request, and the message *)
Record state := mkState { s_env : env; s_out : outgoing; s_msg : request }.
Definition on_env (s : state) (f : env -> env) : state := mkState (f (s_env s)) (s_out s) (s_msg s).
Definition on_out (s : state) (o : outgoing) : state := mkState (s_env s) o (s_msg s).
Definition on_msg (s : state) (r : request) : state := mkState (s_env s) (s_out s) r.

Section Run.
  Variable K : codecs.
  Variable S : struct.

  Definition universe (x : str) : option val :=
    if str_eqb x (T "nil") then Some XNil else if str_eqb x (T "true") then Some (XB true) else if str_eqb x (T "false") then Some (XB false) else None.
  (** %d *)
  Definition decimal_text (g : gval) : str := match g with VZ z => itoa z | v => other_text K v end.
  (** Functions of packages *)
  Definition lib (p f : str) (args : list val) : eres :=
    if str_eqb p (T "fmt") then
      if str_eqb f (T "Sprint") then match args with [XG t g] => Ok (XS (sprint K (named_type t) g)) | _ => Bust Reject end
      else if str_eqb f (T "Sprintf") then match args with [XS fm; XG t g] => if str_eqb fm (T "%d") then Ok (XS (decimal_text g)) else Bust Reject | _ => Bust Reject end
      else Bust Reject
    else if str_eqb p (T "strings") then
      if str_eqb f (T "Join") then match args with [XList l; XS s] => Ok (XS (join s l)) | _ => Bust Reject end else Bust Reject
    else if str_eqb p (T "url") then
      if str_eqb f (T "Parse") then match args with [XS s] => Ok (match url_parse_path s with Some p => XPair (XUrl p) (XErr false) | None => XPair XNil (XErr true) end) | _ => Bust Reject end else Bust Reject
    else if str_eqb p (T "errors") then
      if str_eqb f (T "Wrap") then match args with [XErr b; XS _] => Ok (XErr b) | _ => Bust Reject end
      else if str_eqb f (T "Wrapf") then match args with [XErr b; XS _; _] => Ok (XErr b) | _ => Bust Reject end
      else Bust Reject
    else if str_eqb p (T "json") then
      if str_eqb f (T "Marshal") then match args with [XG t g] => Ok (match json_marshal K g with Some s => XPair (XBytes s) (XErr false) | None => XPair (XBytes []) (XErr true) end) | _ => Bust Reject end else Bust Reject
    else if str_eqb p (T "bytes") then
      if str_eqb f (T "NewBuffer") then match args with [XBytes s] => Ok (XBuffer s) | _ => Bust Reject end else Bust Reject
    else if str_eqb p (T "ioutil") then
      if str_eqb f (T "NopCloser") then match args with [XBuffer s] => Ok (XBody s) | _ => Bust Reject end else Bust Reject
    else Bust Reject.
  (** The getter of an option: its value if it is set, else the zero value. *)
  Definition getter (r : request) (o : str) : eres :=
    match st_options S o with
    | Some (f, t) => Ok (XG t (match r f with VOneof (Some (n, g)) => if str_eqb n o then g else zero_value t | _ => zero_value t end))
    | None => Bust Reject
    end.
  (** Methods that change nothing *)
  Definition method (s : state) (v : val) (m : str) (args : list val) : eres :=
    match v, args with
    | XRequestUrl, [] => if str_eqb m (T "Query") then Ok (XValues (parse_query (out_query (s_out s)))) else Bust Reject
    | XValues q, [] => if str_eqb m (T "Encode") then Ok (XS (encode_values q)) else Bust Reject
    | XMarshal, [XMessage] => if str_eqb m (T "Marshal") then Ok (match pj_enc K (s_msg s) with Some d => XPair (XBytes d) (XErr false) | None => XPair (XBytes []) (XErr true) end) else Bust Reject
    | XMessage, [] => match m with 71%N :: 101%N :: 116%N :: o (* Get.. *) => getter (s_msg s) o | _ => Bust Reject end
    | _, _ => Bust Reject
    end.
  Definition field_of (s : state) (v : val) (x : str) : eres :=
    match v with
    | XRequest => if str_eqb x (T "URL") then Ok XRequestUrl else if str_eqb x (T "Header") then Ok XHeader else Bust Reject
    | XRequestUrl => if str_eqb x (T "Path") then Ok (XS (out_path (s_out s))) else Bust Reject
    | XUrl p => if str_eqb x (T "Path") then Ok (XS p) else if str_eqb x (T "RawPath") then Ok XRawPath else Bust Reject
    | XMessage => match st_fields S x with Some t => Ok (XG t (s_msg s x)) | None => Bust Reject end
    | _ => Bust Reject
    end.
  (** a != b *)
  Definition float_zero (t : str) (f : N) : bool := N.eqb f 0 || N.eqb f (if str_eqb t (T "float32") then 2147483648 else 9223372036854775808).
  Definition differ (a b : val) : eres :=
    match a, b with
    | XErr x, XNil => Ok (XB x)
    | XG (TyPtr _) g, XNil => Ok (XB (match g with VSome _ => true | _ => false end))
    | XG (TyName _) (VZ z), XZ k => Ok (XB (negb (Z.eqb z k)))
    | XG (TyName n) (VF f), XZ 0 => Ok (XB (negb (float_zero n f)))
    | XG (TyName _) (VB x), XB y => Ok (XB (xorb x y))
    | XG (TyName _) (VS x), XS y => Ok (XB (negb (str_eqb x y)))
    | _, _ => Bust Reject
    end.
  Fixpoint strings_of (l : list val) : option (list str) := match l with [] => Some [] | XS s :: l' => option_map (cons s) (strings_of l') | _ => None end.
  Definition composite (t : ty) (keys : list str) (args : list val) : eres :=
    match t with
    | TySlice (TyName n) => if str_eqb n (T "string") then match keys, strings_of args with [], Some l => Ok (XList l) | _, _ => Bust Reject end else Bust Reject
    | TySel p n => if str_eqb p (T "protojson") && str_eqb n (T "MarshalOptions") then Ok XMarshal else Bust Reject
    | _ => Bust Reject
    end.

  Fixpoint eval (s : state) (x : expr) {struct x} : eres :=
    let each := fix each (l : list expr) : option (list val) * why :=
      match l with
      | [] => (Some [], Reject)
      | a :: l' => match eval s a with Ok v => match each l' with (Some vs, w) => (Some (v :: vs), w) | (None, w) => (None, w) end | Bust w => (None, w) end
      end in
    let all (l : list expr) (k : list val -> eres) : eres := match each l with (Some vs, _) => k vs | (None, w) => Bust w end in
    match x with
    | EVar x => match look (s_env s) x with Some v => Ok v | None => match universe x with Some v => Ok v | None => Bust Reject end end
    | ENum n => Ok (XZ (decimal n))
    | EStr t => if contains1 t c_backslash then Bust Reject else Ok (XS t)
    | ESel y f => match eval s y with Ok v => field_of s v f | b => b end
    | ECall f args =>
        match f with
        | EVar g =>
            match look (s_env s) g with
            | Some _ => Bust Reject
            | None => if str_eqb g (T "string") then all args (fun vs => match vs with [XBytes t] => Ok (XS t) | _ => Bust Reject end) else Bust Reject
            end
        | ESel y m =>
            match y with
            | EVar p => match look (s_env s) p with Some v => all args (method s v m) | None => all args (lib p m) end
            | _ => match eval s y with Ok v => all args (method s v m) | b => b end
            end
        | _ => Bust Reject
        end
    | EDeref y => match eval s y with
                  | Ok (XG (TyPtr t) (VSome g)) => Ok (XG t g)
                  | Ok (XG (TyPtr t) _) => Bust Panics
                  | Ok _ => Bust Reject
                  | b => b
                  end
    | EAssert y t => match eval s y with
                     | Ok XAny => match t with TyPtr (TyName n) => if str_eqb n (st_name S) then Ok XMessage else Bust Panics | _ => Bust Panics end
                     | Ok _ => Bust Reject
                     | b => b
                     end
    | EBin o a b => match eval s a with Ok v => match eval s b with Ok w => if str_eqb o (T "!=") then differ v w else Bust Reject | x => x end | x => x end
    | ELit t keys args => all args (composite t keys)
    | EType _ | EIndex _ _ | EUpTo _ _ | EAddr _ => Bust Reject     (* not in encoders *)
    end.

  (** x = v *)
  Definition store (s : state) (x : expr) (v : val) : state + why :=
    match v with
    | XPair _ _ => inr Reject
    | _ =>
        match x with
        | EVar x => if str_eqb x (T "_") then inl s else match look (s_env s) x with Some _ => inl (on_env s (fun e => set e x v)) | None => inr Reject end
        | ESel y f =>
            match eval s y, v with
            | Ok XRequest, XBody b => if str_eqb f (T "Body") then inl (on_out s (mkOut (out_path (s_out s)) (out_query (s_out s)) (Some b) (out_headers (s_out s)))) else inr Reject
            | Ok XRequestUrl, XRawPath => if str_eqb f (T "RawPath") then inl s else inr Reject
            | Ok XRequestUrl, XS t => if str_eqb f (T "Path") then inl (on_out s (mkOut t (out_query (s_out s)) (out_body (s_out s)) (out_headers (s_out s))))
                                      else if str_eqb f (T "RawQuery") then inl (on_out s (mkOut (out_path (s_out s)) t (out_body (s_out s)) (out_headers (s_out s))))
                                      else inr Reject
            | Ok XMessage, XG t g => match st_fields S f with Some _ => inl (on_msg s (upd (s_msg s) f g)) | None => inr Reject end
            | Ok _, _ => inr Reject
            | Bust w, _ => inr w
            end
        | _ => inr Reject
        end
    end.
  (** f(..) as a statement *)
  Definition perform (s : state) (x : expr) : state + why :=
    match x with
    | ECall (ESel (EVar p) m) [a; b] =>
        match look (s_env s) p, eval s a, eval s b with
        | Some (XValues q), Ok (XS k), Ok (XS t) => if str_eqb m (T "Add") then inl (on_env s (fun e => set e p (XValues (v_add q k t)))) else inr Reject
        | Some (XValues q), Bust w, _ | Some (XValues q), _, Bust w => inr w
        | _, _, _ => inr Reject
        end
    | ECall (ESel (ESel y h) m) [a; b] =>
        match eval s (ESel y h), eval s a, eval s b with
        | Ok XHeader, Ok (XS k), Ok (XS t) => if str_eqb m (T "Set") then inl (on_out s (mkOut (out_path (s_out s)) (out_query (s_out s)) (out_body (s_out s)) (out_headers (s_out s) ++ [(k, t)]))) else inr Reject
        | _, _, _ => inr Reject
        end
    | _ => inr Reject
    end.
  Inductive res := Next (s : state) | Return (vs : list val) (s : state) | Stop (w : why).
  Definition in_top (e : env) (x : str) : bool := match e with sc :: _ => match find_in sc x with Some _ => true | None => false end | [] => false end.
  Definition bind1 (x : str) (v : val) (e : env) : env := if in_top e x then set e x v else declare e x v.
  Definition define (s : state) (xs : list str) (v : val) : res :=
    match xs, v with
    | [_], XPair _ _ => Stop Reject
    | [x], v => if in_top (s_env s) x then Stop Reject else Next (on_env s (fun e => declare e x v))
    | [x; y], XPair a b => if in_top (s_env s) x && in_top (s_env s) y || str_eqb x y then Stop Reject else Next (on_env s (fun e => bind1 y b (bind1 x a e)))
    | _, _ => Stop Reject
    end.
  Definition run_simple (c : simple) (s : state) : res :=
    match c with
    | SVar x (TySlice (TyName n)) => if str_eqb n (T "byte") && negb (in_top (s_env s) x) then Next (on_env s (fun e => declare e x (XBytes []))) else Stop Reject
    | SDefine xs x => match eval s x with Ok v => define s xs v | Bust w => Stop w end
    | SAssign l x => match eval s x with Ok v => match store s l v with inl s' => Next s' | inr w => Stop w end | Bust w => Stop w end
    | SAssigns [l; l'] x =>
        match eval s x with
        | Ok (XPair a b) => match store s l a with inl s' => match store s' l' b with inl s'' => Next s'' | inr w => Stop w end | inr w => Stop w end
        | Ok _ => Stop Reject
        | Bust w => Stop w
        end
    | SCall x => match perform s x with inl s' => Next s' | inr w => Stop w end
    | SReturn [x] => match eval s x with Ok v => Return [v] s | Bust w => Stop w end
    | SNone => Next s
    | _ => Stop Reject                   (* not in encoders *)
    end.
  Definition enter (s : state) : state := on_env s (cons []).
  Definition leave (r : res) : res := match r with Next s => Next (on_env s (@tl scope)) | r => r end.
  Fixpoint exec (c : stmt) (s : state) {struct c} : res :=
    match c with
    | Do c => run_simple c s
    | If init c yes no =>
        leave match run_simple init (enter s) with
              | Next s1 => match eval s1 c with
                           | Ok (XB true) => leave (exec_block yes (enter s1))
                           | Ok (XB false) => leave (exec_block no (enter s1))
                           | Ok _ => Stop Reject
                           | Bust w => Stop w
                           end
              | r => r
              end
    | For i v x body =>                  (* i is _ *)
        if str_eqb i (T "_") then
          match eval s x with
          | Ok (XG (TySlice t) g) =>
              (fix go (l : list gval) (s : state) : res :=
                 match l with
                 | [] => Next s
                 | g :: l' => match leave (exec_block body (on_env s (cons [(v, XG t g)]))) with Next s' => go l' s' | r => r end
                 end) (match g with VList l => l | _ => [] end) s
          | Ok _ => Stop Reject
          | Bust w => Stop w
          end
        else Stop Reject
    | Switch _ => Stop Reject            (* not in encoders *)
    end
  with exec_block (b : block) (s : state) {struct b} : res := match b with Nil => Next s | Cons c b' => match exec c s with Next s' => exec_block b' s' | r => r end end.

  (** The function (_ context.Context, r *http.Request, request interface{}) error, called with a request for the path [base] without query and body, and a pointer to
      the message: what is in the request when it returns nil; or an error; or neither ([None]: it is no Go, or it panics). *)
  Inductive sent := Sends (o : outgoing) | Fails.
  Definition call (base : str) (r : request) (f : block) : option sent :=
    match exec_block f (mkState [[(T "r", XRequest); (T "request", XAny)]] (mkOut base [] None []) r) with
    | Return [XNil] s => Some (Sends (s_out s))
    | Return [XErr true] _ => Some Fails
    | _ => None
    end.
End Run.
