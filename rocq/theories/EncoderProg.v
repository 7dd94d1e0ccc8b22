(** The syntax tree of the request encoder of a binding: the witness of C81.  (The text is that of tmpl:613-714; EncoderText.v proves that it has the tokens of this tree,
    EncoderRun.v that the tree does what GenHttp.encode_request says.) *)
From Coq Require Import String.
From Verif Require Import GoStr GoMap Strs HttpTransport Url GenHttp GoLex GoLang GoEncode DecoderProg.

Definition req_field (x : str) : expr := ESel (v "req") x.
(** values.Add(key, text) *)
Definition add (key : str) (text : expr) : stmt := Do (SCall (ECall (ESel (v "values") (T "Add")) [EStr key; text])).
Definition sprint_of (e : expr) : expr := ECall (pkg "fmt" "Sprint") [e].
(** A part of the path *)
Definition section_expr (s : section) : expr :=
  match s with
  | SecLit p => EStr p
  | SecEnum c => ECall (pkg "fmt" "Sprintf") [say "%d"; req_field c]
  | SecVal c => sprint_of (req_field c)
  end.
(** tmp, err = json.Marshal(e); an error returned; values.Add(key, string(tmp)) by way of strval *)
Definition marshal_code (e : expr) (what key : str) : list stmt :=
  [Do (SAssigns [v "tmp"; v "err"] (ECall (pkg "json" "Marshal") [e]));
   If SNone failed (block_of [Do (SReturn [ECall (pkg "errors" "Wrap") [v "err"; EStr (T "failed to marshal req." ++ what)]])]) Nil;
   Do (SAssign (v "strval") (ECall (v "string") [v "tmp"]));
   add key (v "strval")].
Definition query_code (f : hfield) : block :=
  block_of
    (if hf_rep f && hf_base f then [For (T "_") (T "v") (req_field (hf_camel f)) (block_of [add (hf_query f) (sprint_of (v "v"))])]
     else if negb (hf_base f) || hf_rep f then marshal_code (req_field (hf_camel f)) (hf_camel f) (hf_query f)
     else if hf_star f then [If SNone (EBin (T "!=") (req_field (hf_camel f)) (v "nil")) (block_of [add (hf_query f) (sprint_of (EDeref (req_field (hf_camel f))))]) Nil]
     else [add (hf_query f) (sprint_of (req_field (hf_camel f)))]).
Definition get_option_expr (o : hfield) : expr := ECall (ESel (v "req") (T "Get" ++ hf_name o)) [].
(** The literal of [hf_zero] *)
Definition zero_expr (z : str) : expr := if str_eqb z (T "0") then ENum (T "0") else if str_eqb z [c_dquote; c_dquote] then EStr [] else EVar z.
Definition option_query_code (o : hfield) : block :=
  block_of [If (SDefine [T "val"] (get_option_expr o)) (EBin (T "!=") (v "val") (zero_expr (hf_zero o)))
    (block_of (if negb (hf_base o) || hf_rep o then marshal_code (get_option_expr o) (T "Get" ++ hf_name o ++ T "()") (hf_query o) else [add (hf_query o) (sprint_of (v "val"))])) Nil].
Definition message_of (request : str) : expr := EAssert (v "request") (TyPtr (TyName request)).
Definition set_header (k : string) (e : expr) : stmt := Do (SCall (ECall (ESel (ESel (v "r") (T "Header")) (T "Set")) [say k; e])).
Definition url_field (f : string) : expr := ESel (ESel (v "r") (T "URL")) (T f).
Definition start_code (request : str) (sections : list section) : block :=
  block_of
    [Do (SDefine [T "strval"] (say "")); Do (SAssign (v "_") (v "strval")); Do (SDefine [T "req"] (message_of request)); Do (SAssign (v "_") (v "req"));
     set_header "transport" (say "HTTPJSON"); set_header "request-url" (url_field "Path");
     Do (SDefine [T "path"] (ECall (pkg "strings" "Join") [ELit (TySlice (TyName (T "string"))) [] (map section_expr sections); say "/"]));
     Do (SDefine [T "u"; T "err"] (ECall (pkg "url" "Parse") [v "path"]));
     If SNone failed (block_of [Do (SReturn [ECall (pkg "errors" "Wrapf") [v "err"; say "couldn't unmarshal path %q"; v "path"]])]) Nil;
     Do (SAssign (url_field "RawPath") (ESel (v "u") (T "RawPath"))); Do (SAssign (url_field "Path") (ESel (v "u") (T "Path")));
     Do (SDefine [T "values"] (ECall (ESel (ESel (v "r") (T "URL")) (T "Query")) [])); Do (SVar (T "tmp") (TySlice (TyName (T "byte")))); Do (SAssign (v "_") (v "tmp"))].
Definition body_field_code (f : hfield) : block := block_of [Do (SAssign (ESel (v "toRet") (hf_camel f)) (req_field (hf_camel f)))].
Definition body_start (request : str) : block := block_of [Do (SDefine [T "toRet"] (message_of request))].
Definition body_end : block :=
  block_of
    [Do (SDefine [T "marshaler"] (ELit (TySel (T "protojson") (T "MarshalOptions")) (map T ["AllowPartial"; "UseProtoNames"; "UseEnumNumbers"; "EmitUnpopulated"]%string) (repeat (v "true") 4)));
     Do (SDefine [T "data"; T "err"] (ECall (ESel (v "marshaler") (T "Marshal")) [v "req"]));
     If SNone failed (block_of [Do (SReturn [ECall (pkg "errors" "Wrapf") [v "err"; say "couldn't encode body as json %v"; v "toRet"]])]) Nil;
     Do (SAssign (ESel (v "r") (T "Body")) (ECall (pkg "ioutil" "NopCloser") [ECall (pkg "bytes" "NewBuffer") [v "data"]]))].
Definition query_text_code : block := block_of [Do (SAssign (url_field "RawQuery") (ECall (ESel (v "values") (T "Encode")) []))].
Definition in_loc (loc : string) (fs : list hfield) : list hfield := filter (fun f => str_eqb (hf_loc f) (T loc)) fs.
Definition query_oneofs_of (b : hbind) : list honeof := filter (fun o => str_eqb (ho_loc o) (T "query")) (hb_oneofs b).
Definition encoder_prog (request : str) (b : hbind) : block :=
  block_app (start_code request (path_sections b))
  (block_app (blocks (map query_code (in_loc "query" (hb_fields b))))
  (block_app (blocks (map option_query_code (flat_map ho_options (query_oneofs_of b))))
  (block_app query_text_code
  (block_app (if str_eqb (hb_verb b) (T "get") then Nil else block_app (body_start request) (block_app (blocks (map body_field_code (in_loc "body" (hb_fields b)))) body_end))
  (block_of [Do (SReturn [v "nil"])]))))).
