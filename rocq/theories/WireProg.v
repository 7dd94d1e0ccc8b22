(** The functions of baron/NAME.pb.baron.go.tmpl ("tmpl") that make servers and clients for gRPC and NATS, as programs of GoGlue.v.  That the generated text has these functions is proved (PropWire.v). *)
From Coq Require Import String.
From Verif Require Import GoStr GoMap Strs GoLex GoDecls SvcTypes GoGlue GlueProg.

Definition slice_ty (t : list token) : list token := [op "["; op "]"] ++ t.
Definition more_ty (t : list token) : list token := op "..." :: t.
(** x := []ty{es}; x = append(x, options...) *)
Definition with_options (ty : list token) (es : list gexp) : list gstm :=
  [SDef [T "serverOptions"] (EList (slice_ty ty) es); SSet [v "serverOptions"] (ECall (v "append") [v "serverOptions"; ESpread (v "options")])].
Section Methods.
  Variable svc : str.
  Variable package : str.
  Variable m : smethod.
  Notation n := (sm_name m).
  Definition low : str := to_lower n.
  Definition low_var : str := low ++ T "Endpoint".
  Definition low_sub : str := low ++ T "Sub".
  Definition grpc_dec_req : str := T "DecodeGRPC" ++ n ++ T "Request".
  Definition grpc_enc_resp : str := T "EncodeGRPC" ++ n ++ T "Response".
  Definition grpc_dec_resp : str := T "DecodeGRPC" ++ n ++ T "Response".
  Definition grpc_enc_req : str := T "EncodeGRPC" ++ n ++ T "Request".
  Definition nats_dec_req : str := T "DecodeNATS" ++ n ++ T "Request".
  Definition nats_dec_resp : str := T "DecodeNATS" ++ n ++ T "Response".
  (** tmpl:190-195: a field of the grpcServer *)
  Definition grpc_handler : str * gexp :=
    (low, ECallC (pkg "grpctransport" "NewServer") [ESel (v "endpoints") (field m); EVar grpc_dec_req; EVar grpc_enc_resp; ESpread (v "serverOptions")]).
  (** tmpl:210-216 *)
  Definition grpc_method_fun : gfunc := mkFunc (Some (T "s", [op "*"; kw "grpcServer"])) (go_camel_case n) [(T "ctx", ctx_ty); (T "req", ptr (req_name m))] (pair_ty (ptr (resp_name m)) [kw "error"])
    [SDef [T "_"; T "rep"; T "err"] (ECall (ESel (ESel (v "s") low) (T "ServeGRPC")) [v "ctx"; v "req"]); if_err [ENil; v "err"]; SRet [EAssert (v "rep") (ptr (resp_name m)); ENil]].
  (** tmpl:223-226, 233-236, 290-293, 300-303: what takes a message and hands it on *)
  Definition pass_fun (name : str) (arg loc : string) (ty : str) : gfunc := mkFunc None name [(T "_", ctx_ty); (T arg, any_ty)] (pair_ty any_ty [kw "error"])
    [SDef [T loc] (EAssert (v arg) (ptr ty)); SRet [v loc; ENil]].
  Definition grpc_dec_req_fun : gfunc := pass_fun grpc_dec_req "grpcReq" "req" (req_name m).
  Definition grpc_enc_resp_fun : gfunc := pass_fun grpc_enc_resp "response" "resp" (resp_name m).
  Definition grpc_dec_resp_fun : gfunc := pass_fun grpc_dec_resp "grpcReply" "reply" (resp_name m).
  Definition grpc_enc_req_fun : gfunc := pass_fun grpc_enc_req "request" "req" (req_name m).
  (** tmpl:263-274: an endpoint of the gRPC client *)
  Definition grpc_endpoint : list gstm :=
    [SVar low_var endpoint_ty;
     SBlock [SSet [EVar low_var] (ECall (ESel (ECallC (pkg "grpctransport" "NewClient")
       [v "conn"; EStr (package ++ T "." ++ svc); EStr n; EVar grpc_enc_req; EVar grpc_dec_resp; ELit [Word (resp_name m)] []; ESpread (v "options")]) (T "Endpoint")) [])]].
  Definition endpoint_field : str * gexp := (field m, EVar low_var).
  (** tmpl:724-728 *)
  Definition nats_subscribe : list gstm :=
    [SDef [low_sub; T "err"] (ECall (pkg "conn" "QueueSubscribe") [EStr (svc ++ T "." ++ n); EStr svc; ECall (ESel (ESel (v "srv") n) (T "ServeMsg")) [v "conn"]]);
     if_err [v "err"]; SSet [v "_"] (EVar low_sub)].
  (** tmpl:743-748 *)
  Definition nats_handler : str * gexp :=
    (n, ECallC (pkg "natstransport" "NewSubscriber") [ESel (v "endpoints") (field m); EVar nats_dec_req; v "EncodeNATSGenericResponse"; ESpread (v "serverOptions")]).
  (** tmpl:763-769, 815-827 *)
  Definition nats_decode_fun (name : str) (x : string) (ty : str) : gfunc := mkFunc None name [(T "ctx", ctx_ty); (T "msg", op "*" :: sel "nats" "Msg")] (pair_ty any_ty [kw "error"])
    [SVar (T x) [Word ty];
     SIf (Some (SDef [T "err"] (EInto (pkg "json" "Unmarshal") [pkg "msg" "Data"] (T x)))) (ENe (v "err") ENil) [SRet [ENil; v "err"]];
     SRet [EAddr (v x); ENil]].
  Definition nats_dec_req_fun : gfunc := nats_decode_fun nats_dec_req "req" (req_name m).
  Definition nats_dec_resp_fun : gfunc := nats_decode_fun nats_dec_resp "resp" (resp_name m).
  (** tmpl:788-797 *)
  Definition nats_endpoint : list gstm :=
    [SVar low_var endpoint_ty;
     SBlock [SSet [EVar low_var] (ECall (ESel (ECallC (pkg "natstransport" "NewPublisher")
       [v "conn"; EStr (svc ++ T "." ++ n); v "EncodeNATSGenericRequest"; EVar nats_dec_resp; ESpread (v "options")]) (T "Endpoint")) [])]].
End Methods.
(** tmpl:182-198 *)
Definition make_grpc_fun (svc : str) (ms : list smethod) : gfunc :=
  mkFunc None (T "MakeGRPCServer") [(T "endpoints", [kw "Endpoints"]); (T "options", more_ty (sel "grpctransport" "ServerOption"))] [Word (svc ++ T "Server")]
    (with_options (sel "grpctransport" "ServerOption") [ECall (pkg "grpctransport" "ServerBefore") [v "GRPCMetadataToContext"]] ++ [SRet [EAddr (ELit [kw "grpcServer"] (map grpc_handler ms))]]).
(** tmpl:259-284 *)
Definition new_grpc_fun (svc package : str) (ms : list smethod) : gfunc :=
  mkFunc None (T "NewGRPCClient") [(T "conn", op "*" :: sel "grpc" "ClientConn"); (T "options", more_ty (sel "grpctransport" "ClientOption"))] (pair_ty [Word (svc ++ T "Server")] [kw "error"])
    (flat_map (grpc_endpoint svc package) ms ++ [SRet [ELit [kw "Endpoints"] (map endpoint_field ms); ENil]]).
(** tmpl:721-733 *)
Definition serve_nats_fun (svc : str) (ms : list smethod) : gfunc :=
  mkFunc None (T "ServeNATS") [(T "conn", op "*" :: sel "nats" "Conn"); (T "srv", [op "*"; kw "natsServer"])] [kw "error"]
    (flat_map (nats_subscribe svc) ms ++ [SRet [ENil]]).
(** tmpl:735-751 *)
Definition make_nats_fun (ms : list smethod) : gfunc :=
  mkFunc None (T "MakeNATSServer") [(T "endpoints", [kw "Endpoints"]); (T "options", more_ty (sel "natstransport" "SubscriberOption"))] [op "*"; kw "natsServer"]
    (with_options (sel "natstransport" "SubscriberOption") [] ++ [SRet [EAddr (ELit [kw "natsServer"] (map nats_handler ms))]]).
(** tmpl:777-779 *)
Definition nats_encode_fun : gfunc :=
  mkFunc None (T "EncodeNATSGenericResponse") [(T "ctx", ctx_ty); (T "reply", [kw "string"]); (T "nc", op "*" :: sel "nats" "Conn"); (T "response", any_ty)] [kw "error"]
    [SRet [ECall (pkg "natstransport" "EncodeJSONResponse") [v "ctx"; v "reply"; v "nc"; v "response"]]].
(** tmpl:785-806 *)
Definition new_nats_fun (svc : str) (ms : list smethod) : gfunc :=
  mkFunc None (T "NewNATSClient") [(T "conn", op "*" :: sel "nats" "Conn"); (T "options", more_ty (sel "natstransport" "PublisherOption"))] (pair_ty [Word (svc ++ T "Server")] [kw "error"])
    (flat_map (nats_endpoint svc) ms ++ [SRet [ELit [kw "Endpoints"] (map endpoint_field ms); ENil]]).
(** tmpl:831-833 *)
Definition nats_encode_request_fun : gfunc :=
  mkFunc None (T "EncodeNATSGenericRequest") [(T "ctx", ctx_ty); (T "msg", op "*" :: sel "nats" "Msg"); (T "request", any_ty)] [kw "error"]
    [SRet [ECall (pkg "natstransport" "EncodeJSONRequest") [v "ctx"; v "msg"; v "request"]]].
