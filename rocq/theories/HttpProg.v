(** The functions of baron/NAME.pb.baron.go.tmpl ("tmpl") that make the HTTP handler and the HTTP client, as programs of GoGlue.v.  That the generated text has these functions is proved (PropHttpWire.v). *)
From Coq Require Import String.
From Verif Require Import GoStr GoMap Strs GoLex GoDecls SvcTypes HttpTransport GoGlue GlueProg WireProg.

Definition no_bind : hbind := mkHBind [] [] [] [] [] [].
Section Methods.
  Variable m : hmeth.
  Definition http_field : str := hm_name m ++ T "Endpoint".
  (** index $method.Bindings 0 *)
  Definition main : hbind := hd no_bind (hm_binds m).
  Definition main_var : str := hb_label main ++ T "Endpoint".
  Definition http_dec (b : hbind) : str := T "DecodeHTTP" ++ hb_label b ++ T "Request".
  Definition http_enc (b : hbind) : str := T "EncodeHTTP" ++ hb_label b ++ T "Request".
  Definition http_resp : str := T "DecodeHTTP" ++ hm_name m ++ T "Response".
  (** tmpl:343-348 *)
  Definition http_route (b : hbind) : gstm :=
    SDo (ECall (ESel (ECall (ESel (ECall (pkg "m" "Methods") [EStr (to_upper (hb_verb b))]) (T "Path")) [EStr (hb_path b)]) (T "Handler"))
      [ECallC (pkg "httptransport" "NewServer") [ESel (v "endpoints") http_field; EVar (http_dec b); v "EncodeHTTPGenericResponse"; ESpread (v "serverOptions")]]).
  (** tmpl:526-535; a method of the helper has bindings *)
  Definition http_endpoint : list gstm :=
    [SVar main_var endpoint_ty;
     SBlock [SSet [EVar main_var] (ECall (ESel (ECallC (pkg "httptransport" "NewClient")
       [EStr (to_upper (hb_verb main)); ECall (v "copyURL") [v "u"; EStr (hb_base main)]; EVar (http_enc main); EVar http_resp; ESpread (v "options")]) (T "Endpoint")) [])]].
  (** tmpl:544 *)
  Definition http_endpoint_field : str * gexp := (http_field, EVar main_var).
End Methods.
(** tmpl:341-350 *)
Definition http_routes (ms : list hmeth) : list gstm := flat_map (fun m => flat_map (fun b => [http_route m b]) (hm_binds m)) ms.
(** tmpl:332-337 *)
Definition http_options : list gstm := with_options (sel "httptransport" "ServerOption")
  [ECall (pkg "httptransport" "ServerBefore") [v "HTTPHeadersToContext"]; ECall (pkg "httptransport" "ServerErrorEncoder") [v "errorEncoder"];
   ECall (pkg "httptransport" "ServerAfter") [ECall (pkg "httptransport" "SetContentType") [v "contentType"]]].
(** tmpl:330-352 *)
Definition make_http_fun (ms : list hmeth) : gfunc :=
  mkFunc None (T "MakeHTTPHandler") [(T "endpoints", [kw "Endpoints"]); (T "options", more_ty (sel "httptransport" "ServerOption"))] (sel "http" "Handler")
    ((match ms with [] => [] | _ => http_options end) ++ [SDef [T "m"] (ECall (pkg "mux" "NewRouter") [])] ++ http_routes ms ++ [SRet [v "m"]]).
(** tmpl:510-517 *)
Definition parse_instance : list gstm :=
  [SIf None (ENot (ECall (pkg "strings" "HasPrefix") [v "instance"; EStr (T "http")])) [SSet [v "instance"] (EPlus (EStr (T "http://")) (v "instance"))];
   SDef [T "u"; T "err"] (ECall (pkg "url" "Parse") [v "instance"]); if_err [ENil; v "err"]; SSet [v "_"] (v "u")].
(** tmpl:520 *)
Definition no_endpoints : gstm := SDo (ECall (v "panic") [EStr (T "No HTTP Endpoints, this client will not work, define bindings in your proto definition")]).
(** tmpl:509-549 *)
Definition new_http_fun (svc : str) (ms : list hmeth) : gfunc :=
  mkFunc None (T "NewHTTPClient") [(T "instance", [kw "string"]); (T "options", more_ty (sel "httptransport" "ClientOption"))] (pair_ty [Word (svc ++ T "Server")] [kw "error"])
    (parse_instance ++ (match ms with [] => [no_endpoints] | _ => [] end) ++ flat_map http_endpoint ms ++ [SRet [ELit [kw "Endpoints"] (map http_endpoint_field ms); ENil]]).
(** tmpl:551-555 *)
Definition copy_url_fun : gfunc :=
  mkFunc None (T "copyURL") [(T "base", op "*" :: sel "url" "URL"); (T "path", [kw "string"])] (op "*" :: sel "url" "URL")
    [SDef [T "next"] (EDeref (v "base")); SSet [ESel (v "next") (T "Path")] (v "path"); SRet [EAddr (v "next")]].
