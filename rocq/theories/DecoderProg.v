(** The syntax tree of a generated request decoder: the witness of C80.  (The text is that of tmpl:421-463 and httptransport.go:287-512; DecoderText.v proves that it has the tokens
    of this tree, DecoderRun.v that the tree does what GenHttp.decode_request says.) *)
From Coq Require Import String.
From Verif Require Import GoStr GoMap Strs HttpTransport Url GenHttp GoLex GoLang.

Definition v (x : string) : expr := EVar (T x).
Definition pkg (p f : string) : expr := ESel (v p) (T f).
Definition failed : expr := EBin (T "!=") (v "err") (v "nil").
Definition local (f : hfield) (s : string) : str := hf_local f ++ T s.
Definition say (s : string) : expr := EStr (T s).

(** x, err := strconv.ParseX(y, ..) *)
Definition parse_stmt (p : scalar_parse) (x y : str) : stmt :=
  let bits n := ENum (if Nat.eqb n 32 then T "32" else T "64") in
  match p with
  | PUint n => Do (SDefine [x; T "err"] (ECall (pkg "strconv" "ParseUint") [EVar y; ENum (T "10"); bits n]))
  | PInt n => Do (SDefine [x; T "err"] (ECall (pkg "strconv" "ParseInt") [EVar y; ENum (T "10"); bits n]))
  | PBool => Do (SDefine [x; T "err"] (ECall (pkg "strconv" "ParseBool") [EVar y]))
  | PFloat n => Do (SDefine [x; T "err"] (ECall (pkg "strconv" "ParseFloat") [EVar y; bits n]))
  | PCopy => Do (SDefine [x] (EVar y))
  end.
Definition decode_check (f : hfield) : stmt :=
  If SNone failed (Cons (Do (SReturn [v "nil"; ECall (pkg "errors" "Wrapf") [v "err"; EStr (concat [T "couldn't decode "; hf_local f; T " from %v"]); EVar (local f "Str")]])) Nil) Nil.
Definition extract_check (f : hfield) (loc params : str) : stmt :=
  If SNone failed (Cons (Do (SReturn [v "nil"; ECall (pkg "errors" "Wrap") [v "err";
    ECall (pkg "fmt" "Sprintf") [EStr (concat [T "Error while extracting "; hf_local f; T " from "; loc; T ", "; params; T "Params: %v"]); EVar (params ++ T "Params")]]])) Nil) Nil.
Definition elem_ty (f : hfield) : ty := if hf_star f then TyPtr (TyName (hf_gotype f)) else TyName (hf_gotype f).
Definition from_json (f : hfield) (target : expr) : stmt := Do (SAssign (v "err") (ECall (pkg "json" "Unmarshal") [ECall (EType (TySlice (TyName (T "byte")))) [EVar (local f "Str")]; target])).
Definition convert_code (f : hfield) : block :=
  let x := hf_local f in
  match hf_conv f with
  | CvScalar p => Cons (parse_stmt p x (local f "Str")) Nil
  | CvGarbage => Cons (Do (SGarbage (concat [[op "%"; op "!"; op "("; word "EXTRA"; word "string"; op "="]; [Word x; op ","; word "string"; op "="; Word (local f "Str"); op ")"]]))) Nil
  | CvSingle => block_of [Do (SVar x (elem_ty f)); Do (SAssign (EVar x) (let e := ELit (TyName (hf_gotype f)) [] [] in if hf_star f then EAddr e else e)); from_json f (EVar x); decode_check f]
  | CvRepeated (Some p) narrow check =>
      let c := v "converted" in
      block_of ([Do (SVar x (TySlice (elem_ty f)));
        If SNone (EBin (T ">") (ECall (v "len") [EVar (local f "StrArr")]) (ENum (T "1")))
          (block_of [Do (SAssign (EVar x) (ECall (v "make") [EType (TySlice (elem_ty f)); ECall (v "len") [EVar (local f "StrArr")]]));
                     For (T "i") (T "v") (EVar (local f "StrArr"))
                       (block_of [parse_stmt p (T "converted") (T "v"); decode_check f;
                                  Do (SAssign (EIndex (EVar x) (v "i")) (if narrow then ECall (EVar (hf_gotype f)) [c] else c))])])
          (block_of [from_json f (EAddr (EVar x));
                     If SNone failed (Cons (Do (SAssign (EVar (local f "Str")) (EBin (T "+") (EBin (T "+") (say "[") (EVar (local f "Str"))) (say "]")))) Nil) Nil;
                     from_json f (EAddr (EVar x))])]
        ++ if check then [decode_check f] else [])
  | CvRepeated None narrow check => block_of ([Do (SVar x (TySlice (elem_ty f))); from_json f (EAddr (EVar x))] ++ if check then [decode_check f] else [])
  end.
Fixpoint tconv_expr (x : str) (t : tconv) : expr :=
  match t with
  | TcVar => EVar x
  | TcCast t => ECall (EVar t) [EVar x]
  | TcAddr => EAddr (EVar x)
  | TcAddrCast t => EAddr (ECall (EVar t) [EVar x])
  | TcWrap addr msg camel y => let e := ELit (TyName msg) [camel] [tconv_expr x y] in if addr then EAddr e else e
  end.
(** Conversion, check and assignment; [loc] and [params] are the places that the message names. *)
Definition extract_code (f : hfield) (loc params : str) : block :=
  block_app (convert_code f) (block_of ((if hf_check f then [extract_check f loc params] else [])
    ++ [Do (SAssign (ESel (v "req") (hf_camel f)) (tconv_expr (hf_local f) (hf_tconv f)))])).
Definition field_code (f : hfield) : block :=
  let value := EIndex (EVar (hf_loc f ++ T "Params")) (EStr (hf_query f)) in
  if str_eqb (hf_loc f) (T "path") then Cons (Do (SDefine [local f "Str"] value)) (extract_code f (hf_loc f) (hf_loc f))
  else Cons (If (SDefine [local f "StrArr"; T "ok"] value) (v "ok")
               (Cons (Do (SDefine [local f "Str"] (EIndex (EVar (local f "StrArr")) (ENum (T "0"))))) (extract_code f (hf_loc f) (hf_loc f))) Nil) Nil.
Definition option_code (o : honeof) (f : hfield) : block :=
  block_of [Do (SVar (local f "Str") (TyName (T "string")));
            Do (SDefine [local f "StrArr"; local f "OK"] (EIndex (EVar (ho_loc o ++ T "Params")) (EStr (hf_query f))));
            If SNone (EVar (local f "OK")) (block_of [Do (SAssign (EVar (local f "Str")) (EIndex (EVar (local f "StrArr")) (ENum (T "0")))); Do (SInc (ho_name o ++ T "CountSet"))]) Nil].
Fixpoint blocks (l : list block) : block := match l with [] => Nil | b :: l' => block_app b (blocks l') end.
Fixpoint option_clauses (o : honeof) (l : list hfield) : clauses :=
  match l with [] => NoCase | f :: l' => Case (EVar (local f "OK")) (extract_code f (hf_loc f) (ho_loc o)) (option_clauses o l') end.
Definition only_one (o : honeof) : str := concat [T "only one of ("; concat (map (fun f => concat [[c_backslash; c_dquote]; hf_query f; [c_backslash; c_dquote]; T ","]) (ho_options o)); T ") allowed"].
Definition oneof_code (o : honeof) : block :=
  block_app (Cons (Do (SDefine [ho_name o ++ T "CountSet"] (ENum (T "0")))) Nil)
    (block_app (blocks (map (option_code o) (ho_options o)))
      (block_of [If SNone (EBin (T ">") (EVar (ho_name o ++ T "CountSet")) (ENum (T "1"))) (block_of [Do (SReturn [v "nil"; ECall (pkg "errors" "Errorf") [EStr (only_one o)]])]) Nil;
                 Switch (option_clauses o (ho_options o))])).
Definition head_code (request : str) : block :=
  block_of [Do (SDefer (ECall (ESel (pkg "r" "Body") (T "Close")) []));
    Do (SVar (T "req") (TyName request));
    Do (SDefine [T "buf"; T "err"] (ECall (pkg "ioutil" "ReadAll") [pkg "r" "Body"]));
    If SNone failed (block_of [Do (SReturn [v "nil"; ECall (pkg "errors" "Wrapf") [v "err"; say "cannot read body of http request"]])]) Nil;
    If SNone (EBin (T ">") (ECall (v "len") [v "buf"]) (ENum (T "0")))
      (block_of [Do (SDefine [T "unmarshaller"] (ELit (TySel (T "protojson") (T "UnmarshalOptions")) [T "AllowPartial"; T "DiscardUnknown"] [v "true"; v "true"]));
        If (SAssign (v "err") (ECall (pkg "unmarshaller" "Unmarshal") [v "buf"; EAddr (v "req")])) failed
          (block_of [Do (SConst (T "size") (T "8196"));
            If SNone (EBin (T ">") (ECall (v "len") [v "buf"]) (v "size")) (block_of [Do (SAssign (v "buf") (EUpTo (v "buf") (v "size")))]) Nil;
            Do (SReturn [v "nil"; ELit (TyName (T "httpError")) [] [ECall (pkg "errors" "Wrapf") [v "err"; say "request body '%s': cannot parse non-json request body"; v "buf"]; pkg "http" "StatusBadRequest"; v "nil"]])])
          Nil])
      Nil;
    Do (SDefine [T "pathParams"] (ECall (pkg "mux" "Vars") [v "r"]));
    Do (SAssign (v "_") (v "pathParams"));
    Do (SDefine [T "queryParams"] (ECall (ESel (pkg "r" "URL") (T "Query")) []));
    Do (SAssign (v "_") (v "queryParams"))].
Definition fields_code (fs : list hfield) : block := blocks (map (fun f => if str_eqb (hf_loc f) (T "body") then Nil else field_code f) fs).
Definition oneofs_code (os : list honeof) : block := blocks (map (fun o => if str_eqb (ho_loc o) (T "query") then oneof_code o else Nil) os).
Definition decoder_prog (request : str) (b : hbind) : block :=
  block_app (head_code request) (block_app (fields_code (hb_fields b)) (block_app (oneofs_code (hb_oneofs b)) (block_of [Do (SReturn [EAddr (v "req"); v "err"])]))).
