(** Functions of baron/NAME.pb.baron.go.tmpl ("tmpl") as programs of GoGlue.v.  That the generated text has these functions is proved (PropGlue.v). *)
From Coq Require Import String.
From Verif Require Import GoStr GoMap Strs GoLex GoDecls SvcTypes GoGlue.

Definition v (s : string) : gexp := EVar (T s).
Definition pkg (p f : string) : gexp := ESel (v p) (T f).
Definition ctx_ty : list token := [kw "context"; op "."; kw "Context"].
Definition any_ty : list token := [kw "interface"; op "{"; op "}"].
Definition ptr (n : str) : list token := [op "*"; Word n].
Definition pair_ty (a b : list token) : list token := [op "("] ++ a ++ [op ","] ++ b ++ [op ")"].
Definition if_err (l : list gexp) : gstm := SIf None (ENe (v "err") ENil) [SRet l].
Definition endpoint_ty : list token := [kw "endpoint"; op "."; kw "Endpoint"].
Section Methods.
  Variable svc : str.
  Variable m : smethod.
  Definition req_name : str := go_camel_case (ft_name (sm_req m)).
  Definition resp_name : str := go_camel_case (ft_name (sm_resp m)).
  Definition field : str := sm_name m ++ T "Endpoint".
  (** tmpl:92-98 *)
  Definition call_fun : gfunc := mkFunc (Some (T "e", [kw "Endpoints"])) (sm_name m) [(T "ctx", ctx_ty); (T "in", ptr req_name)] (pair_ty (ptr resp_name) [kw "error"])
    [SDef [T "response"; T "err"] (ECall (ESel (v "e") field) [v "ctx"; v "in"]); if_err [ENil; v "err"]; SRet [EAssert (v "response") (ptr resp_name); ENil]].
  (** tmpl:104-113 *)
  Definition make_fun : gfunc := mkFunc None (T "Make" ++ sm_name m ++ T "Endpoint") [(T "s", [Word (svc ++ T "Server")])] endpoint_ty
    [SRet [EFun [(T "ctx", ctx_ty); (T "request", any_ty)] (pair_ty (kw "response" :: any_ty) [kw "err"; kw "error"])
      [SDef [T "req"] (EAssert (v "request") (ptr req_name)); SDef [T "v"; T "err"] (ECall (ESel (v "s") (sm_name m)) [v "ctx"; v "req"]); if_err [ENil; v "err"]; SRet [v "v"; ENil]]]].
End Methods.
(** tmpl:123-144, 157-178: the two WrapAll functions; [labeled]: the second one, which passes the name to the middleware *)
Definition wrap_one (labeled : bool) (n : str) : gstm :=
  SIf None (EEq (v "inc") (EStr n)) [SSet [ESel (v "e") (n ++ T "Endpoint")] (ECall (v "middleware") ((if labeled then [EStr n] else []) ++ [ESel (v "e") (n ++ T "Endpoint")]))].
Definition wrap_fun (labeled : bool) (names : list str) : gfunc :=
  mkFunc (Some (T "e", [op "*"; kw "Endpoints"])) (if labeled then T "WrapAllLabeledExcept" else T "WrapAllExcept")
    [(T "middleware", if labeled then [kw "func"; op "("; kw "string"; op ","; kw "endpoint"; op "."; kw "Endpoint"; op ")"; kw "endpoint"; op "."; kw "Endpoint"] else [kw "endpoint"; op "."; kw "Middleware"]);
     (T "excluded", [op "..."; kw "string"])] []
    [SDef [T "included"] (EKeys names);
     SRange [T "_"; T "ex"] (v "excluded")
       [SIf (Some (SDef [T "_"; T "ok"] (EIndex (v "included") (v "ex")))) (ENot (v "ok"))
          [SDo (ECall (v "panic") [ECall (pkg "fmt" "Sprintf") [EStr (T "Excluded endpoint '%s' does not exist; see middlewares/endpoints.go"); v "ex"]])];
        SDelete (T "included") (v "ex")];
     SRange [T "inc"] (v "included") (map (wrap_one labeled) names)].
(** tmpl:486-503 *)
Definition with_value_of (k x : gexp) : gstm := SSet [v "ctx"] (ECall (pkg "context" "WithValue") [v "ctx"; k; x]).
Definition header_of (k : gexp) : gexp := ECall (ESel (ESel (v "r") (T "Header")) (T "Get")) [k].
Definition headers_fun : gfunc := mkFunc None (T "HTTPHeadersToContext") [(T "ctx", ctx_ty); (T "r", [op "*"; kw "http"; op "."; kw "Request"])] ctx_ty
  [SRange [T "k"] (ESel (v "r") (T "Header")) [with_value_of (v "k") (header_of (v "k")); with_value_of (ECall (pkg "strings" "ToLower") [v "k"]) (header_of (v "k"))];
   with_value_of (EStr (T "request-url")) (ESel (ESel (v "r") (T "URL")) (T "Path")); with_value_of (EStr (T "transport")) (EStr (T "HTTPJSON"));
   SRet [v "ctx"]].
(** tmpl:561-570 *)
Definition string_of_ctx : gstm := SDef [T "v"; T "ok"] (EAssert (ECall (ESel (v "ctx") (T "Value")) [v "k"]) [kw "string"]).
Definition send_fun : gfunc := mkFunc None (T "CtxValuesToSend") [(T "keys", [op "..."; kw "string"])] [kw "httptransport"; op "."; kw "ClientOption"]
  [SRet [ECall (pkg "httptransport" "ClientBefore") [EFun [(T "ctx", ctx_ty); (T "r", [op "*"; kw "http"; op "."; kw "Request"])] ctx_ty
     [SRange [T "_"; T "k"] (v "keys") [SIf (Some string_of_ctx) (v "ok") [SDo (ECall (ESel (ESel (v "r") (T "Header")) (T "Set")) [v "k"; v "v"])]];
      SRet [v "ctx"]]]]].
(** tmpl:241-254 *)
Definition metadata_fun : gfunc := mkFunc None (T "GRPCMetadataToContext") [(T "ctx", ctx_ty); (T "md", [kw "metadata"; op "."; kw "MD"])] ctx_ty
  [SRange [T "k"; T "v"] (v "md") [SIf None (ENe (v "v") ENil) [with_value_of (v "k") (EIndex (v "v") (ENum 0%Z)); with_value_of (ECall (pkg "http" "CanonicalHeaderKey") [v "k"]) (EIndex (v "v") (ENum 0%Z))]];
   SRet [v "ctx"]].
(** tmpl:306-323 *)
Definition to_metadata_fun : gfunc := mkFunc None (T "ContextValuesToGRPCMetadata") [(T "keys", [op "["; op "]"; kw "string"])] [kw "grpctransport"; op "."; kw "ClientRequestFunc"]
  [SRet [EFun [(T "ctx", ctx_ty); (T "md", [op "*"; kw "metadata"; op "."; kw "MD"])] ctx_ty
     [SVar (T "pairs") [op "["; op "]"; kw "string"];
      SRange [T "_"; T "k"] (v "keys") [SIf (Some string_of_ctx) (v "ok") [SSet [v "pairs"] (ECall (v "append") [v "pairs"; v "k"; v "v"])]];
      SIf None (ENe (v "pairs") ENil) [SSet [EDeref (v "md")] (ECall (pkg "metadata" "Join") [EDeref (v "md"); ECall (pkg "metadata" "Pairs") [ESpread (v "pairs")]])];
      SRet [v "ctx"]]]].

(** ** HTTP answers *)
Definition sel (p : string) (f : string) : list token := [kw p; op "."; kw f].
(** tmpl:361-380 *)
Definition error_encoder_fun : gfunc := mkFunc None (T "errorEncoder") [(T "_", ctx_ty); (T "err", [kw "error"]); (T "w", sel "http" "ResponseWriter")] []
  [SDef [T "body"; T "_"] (ECall (pkg "json" "Marshal") [ELine [kw "errorWrapper"] (T "Error") (ECall (pkg "err" "Error") [])]);
   SIf (Some (SDef [T "marshaler"; T "ok"] (EAssert (v "err") (sel "json" "Marshaler")))) (v "ok")
     [SIf (Some (SDef [T "jsonBody"; T "marshalErr"] (ECall (pkg "marshaler" "MarshalJSON") []))) (EEq (v "marshalErr") ENil) [SSet [v "body"] (v "jsonBody")]];
   SDo (ECall (ESel (ECall (pkg "w" "Header") []) (T "Set")) [EStr (T "Content-Type"); v "contentType"]);
   SIf (Some (SDef [T "headerer"; T "ok"] (EAssert (v "err") (sel "httptransport" "Headerer")))) (v "ok")
     [SRange [T "k"] (ECall (pkg "headerer" "Headers") [])
       [SDo (ECall (ESel (ECall (pkg "w" "Header") []) (T "Set")) [v "k"; ECall (ESel (ECall (pkg "headerer" "Headers") []) (T "Get")) [v "k"]])]];
   SDef [T "code"] (pkg "http" "StatusInternalServerError");
   SIf (Some (SDef [T "sc"; T "ok"] (EAssert (v "err") (sel "httptransport" "StatusCoder")))) (v "ok") [SSet [v "code"] (ECall (pkg "sc" "StatusCode") [])];
   SDo (ECall (pkg "w" "WriteHeader") [v "code"]);
   SDo (ECall (pkg "w" "Write") [v "body"])].
(** tmpl:382-393; "const size", and the text that is reported *)
Definition cut_buf : list gstm := [SConst (T "size") 8196; SIf None (EGt (ECall (v "len") [v "buf"]) (v "size")) [SSet [v "buf"] (EUpTo (v "buf") (v "size"))]].
Definition error_decoder_fun : gfunc := mkFunc None (T "errorDecoder") [(T "buf", [op "["; op "]"; kw "byte"])] [kw "error"]
  [SVar (T "w") [kw "errorWrapper"];
   SIf (Some (SDef [T "err"] (EInto (pkg "json" "Unmarshal") [v "buf"] (T "w")))) (ENe (v "err") ENil)
     (cut_buf ++ [SRet [ECall (pkg "fmt" "Errorf") [EStr (T "response body '%s': cannot parse non-json request body"); v "buf"]]]);
   SRet [ECall (pkg "errors" "New") [pkg "w" "Error"]]].
(** tmpl:409-415 *)
Definition status_fun : gfunc := mkFunc (Some (T "h", [kw "httpError"])) (T "StatusCode") [] [kw "int"] [SRet [pkg "h" "statusCode"]].
Definition error_headers_fun : gfunc := mkFunc (Some (T "h", [kw "httpError"])) (T "Headers") [] (sel "http" "Header") [SRet [pkg "h" "headers"]].
(** tmpl:467-482 *)
Definition encode_response_fun : gfunc := mkFunc None (T "EncodeHTTPGenericResponse") [(T "_", ctx_ty); (T "w", sel "http" "ResponseWriter"); (T "response", any_ty)] [kw "error"]
  [SDef [T "marshaller"] (ELit (sel "protojson" "MarshalOptions") [(T "AllowPartial", EBool true); (T "UseProtoNames", EBool true); (T "UseEnumNumbers", EBool true); (T "EmitUnpopulated", EBool true)]);
   SDef [T "buf"; T "err"] (ECall (pkg "marshaller" "Marshal") [EAssert (v "response") (sel "proto" "Message")]);
   SIf None (ENe (v "err") ENil) [SRet [v "err"]];
   SSet [v "_"; v "err"] (ECall (pkg "w" "Write") [v "buf"]);
   SRet [v "err"]].
(** tmpl:580-605, for the method [n] whose response type is [resp] *)
Definition decode_response_fun (n resp : str) : gfunc := mkFunc None (T "DecodeHTTP" ++ n ++ T "Response") [(T "_", ctx_ty); (T "r", [op "*"; kw "http"; op "."; kw "Response"])] (pair_ty any_ty [kw "error"])
  [SDefer (ECall (ESel (pkg "r" "Body") (T "Close")) []);
   SDef [T "buf"; T "err"] (ECall (pkg "ioutil" "ReadAll") [pkg "r" "Body"]);
   SIf None (EEq (v "err") (pkg "io" "EOF")) [SRet [ENil; ECall (pkg "errors" "New") [EStr (T "response http body empty")]]];
   SIf None (ENe (v "err") ENil) [SRet [ENil; ECall (pkg "errors" "Wrap") [v "err"; EStr (T "cannot read http body")]]];
   SIf None (ENe (pkg "r" "StatusCode") (pkg "http" "StatusOK")) [SRet [ENil; ECall (pkg "errors" "Wrapf") [ECall (v "errorDecoder") [v "buf"]; EStr (T "status code: '%d'"); pkg "r" "StatusCode"]]];
   SVar (T "resp") [Word resp];
   SDef [T "unmarshaller"] (ELit (sel "protojson" "UnmarshalOptions") [(T "AllowPartial", EBool true); (T "DiscardUnknown", EBool true)]);
   SIf (Some (SSet [v "err"] (EInto (pkg "unmarshaller" "Unmarshal") [v "buf"] (T "resp")))) (ENe (v "err") ENil) [SRet [ENil; ECall (v "errorDecoder") [v "buf"]]];
   SRet [EAddr (v "resp"); ENil]].
