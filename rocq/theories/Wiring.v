(** Model of the identifiers that gengokit/template/NAME-service/baron/NAME.pb.baron.go.tmpl ("tmpl") declares, scope by
    scope.  Not modelled: what the code in the scopes does (Middleware, GenHttp, ErrorHop, Context), and the scopes whose
    names do not depend on the service. *)
From Verif Require Import GoStr GoStrProofs SvcTypes Strs HttpTransport.

(** What the template is rendered with (gengokit/gengokit.go:73-86, NewData): names are those of the Go files. *)
Record input := mkInput { in_service : str; in_methods : list str; in_http : list hmeth; in_transport : str }.
(** tmpl:39-52, 178, 717: eq .Config.Transport "all" "grpc" (and "nats") *)
Definition with_grpc (i : input) : bool := str_eqb (in_transport i) (T "all") || str_eqb (in_transport i) (T "grpc").
Definition with_nats (i : input) : bool := str_eqb (in_transport i) (T "all") || str_eqb (in_transport i) (T "nats").
Definition when {A} (b : bool) (l : list A) : list A := if b then l else [].
Definition each (pre : str) (l : list str) (suf : str) : list str := map (fun n => pre ++ n ++ suf) l.
(** The labels of all bindings (types.go:15-36). *)
Definition labels (i : input) : list str := flat_map (fun m => map hb_label (hm_binds m)) (in_http i).

(** tmpl:13-53: the names of the imported packages. *)
Definition imports (i : input) : list str :=
  [T "bytes"; T "context"; T "json"; T "fmt"; T "io"; T "ioutil"; T "http"; T "url"; T "strconv"; T "strings"; T "endpoint";
   T "anypb"; T "durationpb"; T "emptypb"; T "fieldmaskpb"; T "structpb"; T "timestamppb"; T "wrapperspb"; T "mux"; T "errors";
   T "protojson"; T "proto"]
  ++ when (with_nats i) [T "nats"] ++ when (with_grpc i) [T "grpc"; T "metadata"; T "grpctransport"]
  ++ [T "httptransport"] ++ when (with_nats i) [T "natstransport"].

(** The functions and types of the package. *)
Definition package_names (i : input) : list str :=
  let ms := in_methods i in
  [T "Endpoints"]                                                                           (* 85 *)
  ++ each (T "Make") ms (T "Endpoint")                                                      (* 106 *)
  ++ [T "LabeledMiddleware"]                                                                (* 150 *)
  ++ when (with_grpc i)
       ([T "MakeGRPCServer"; T "grpcServer"]                                                (* 182, 201 *)
        ++ each (T "DecodeGRPC") ms (T "Request")                                           (* 223 *)
        ++ each (T "EncodeGRPC") ms (T "Response")                                          (* 233 *)
        ++ [T "GRPCMetadataToContext"; T "NewGRPCClient"]                                   (* 241, 259 *)
        ++ each (T "DecodeGRPC") ms (T "Response")                                          (* 290 *)
        ++ each (T "EncodeGRPC") ms (T "Request")                                           (* 300 *)
        ++ [T "ContextValuesToGRPCMetadata"])                                               (* 307 *)
  ++ [T "contentType"; T "MakeHTTPHandler"; T "errorEncoder"; T "errorDecoder"; T "errorWrapper"; T "httpError"]  (* 326-405 *)
  ++ each (T "DecodeHTTP") (labels i) (T "Request")                                         (* 421 *)
  ++ [T "EncodeHTTPGenericResponse"; T "HTTPHeadersToContext"; T "NewHTTPClient"; T "copyURL"; T "CtxValuesToSend"]  (* 469-561 *)
  ++ each (T "DecodeHTTP") (map hm_name (in_http i)) (T "Response")                         (* 580 *)
  ++ each (T "EncodeHTTP") (labels i) (T "Request")                                         (* 613 *)
  ++ when (with_nats i)
       ([T "ServeNATS"; T "MakeNATSServer"; T "natsServer"]                                 (* 721, 735, 755 *)
        ++ each (T "DecodeNATS") ms (T "Request")                                           (* 763 *)
        ++ [T "EncodeNATSGenericResponse"; T "NewNATSClient"]                               (* 777, 785 *)
        ++ each (T "DecodeNATS") ms (T "Response")                                          (* 812 *)
        ++ [T "EncodeNATSGenericRequest"]).                                                 (* 831 *)
Definition embedded (i : input) : str := T "Unimplemented" ++ in_service i ++ T "Server".
(** tmpl:85-101, 124, 156: fields and methods of Endpoints. *)
Definition endpoints_names (i : input) : list str :=
  [embedded i] ++ each [] (in_methods i) (T "Endpoint") ++ in_methods i ++ [T "WrapAllExcept"; T "WrapAllLabeledExcept"].
(** tmpl:201-217: fields and methods of grpcServer. *)
Definition grpc_server_names (i : input) : list str :=
  [embedded i] ++ map to_lower (in_methods i) ++ map go_camel_case (in_methods i).
(** tmpl:259-284: parameters and variables of NewGRPCClient; 785-805: of NewNATSClient. *)
Definition client_names (i : input) : list str := [T "conn"; T "options"] ++ each [] (map to_lower (in_methods i)) (T "Endpoint").
(** tmpl:509-549: NewHTTPClient. *)
Definition first_labels (i : input) : list str :=
  flat_map (fun m => match hm_binds m with b :: _ => [hb_label b] | [] => [] end) (in_http i).
Definition http_client_names (i : input) : list str :=
  [T "instance"; T "options"; T "u"; T "err"] ++ each [] (first_labels i) (T "Endpoint").
(** tmpl:721-732: ServeNATS ([x, err := ..] needs an x that is new). *)
Definition serve_nats_names (i : input) : list str :=
  [T "conn"; T "srv"; T "err"] ++ each [] (map to_lower (in_methods i)) (T "Sub").
(** tmpl:755-759: fields of natsServer; 125-129 and 157-161: the keys of the map literals. *)
Definition nats_server_names (i : input) : list str := in_methods i.
Definition wrap_keys (i : input) : list str := in_methods i.

(** Every scope, with what protoc-gen-go and protoc-gen-go-grpc declare in the same package. *)
Definition scopes (i : input) (pb : list str) : list (list str) :=
  [pb ++ imports i ++ package_names i; endpoints_names i; http_client_names i]
  ++ when (with_grpc i) [grpc_server_names i; client_names i]
  ++ when (with_nats i) [client_names i; serve_nats_names i; nats_server_names i].
(** tmpl:138-144 and 170-176: [for inc := range included] with one if per method: inc is used only if there is one. *)
Definition inc_used (i : input) : bool := match in_methods i with [] => false | _ => true end.

(** ** The variables of a request decoder, httptransport.go:287-354 (GenQueryUnmarshaler) at tmpl:421-463. *)
(** At the top level of the function: its parameters and variables, two names per path parameter, and for a oneof in the
    query a counter and three names per option. *)
Definition path_locals (f : hfield) : list str := if str_eqb (hf_loc f) (T "path") then [hf_local f ++ T "Str"; hf_local f] else [].
Definition option_locals (f : hfield) : list str := [hf_local f ++ T "Str"; hf_local f ++ T "StrArr"; hf_local f ++ T "OK"].
Definition oneof_locals (o : honeof) : list str :=
  if str_eqb (ho_loc o) (T "query") then (ho_name o ++ T "CountSet") :: flat_map option_locals (ho_options o) else [].
Definition decoder_locals (b : hbind) : list str :=
  [T "r"; T "req"; T "buf"; T "err"; T "pathParams"; T "queryParams"]
  ++ flat_map path_locals (hb_fields b) ++ flat_map oneof_locals (hb_oneofs b).
(** The block of a query parameter: the variables of the if statement, and of its block. *)
Definition query_locals (f : hfield) : list (list str) := [[hf_local f ++ T "StrArr"; T "ok"]; [hf_local f ++ T "Str"; hf_local f]].
(** The types the generated code of a decoder names: the type of a field that is no base type (httptransport.go:413-416, 505),
    and the wrapper of an option (httptransport.go:115-120). *)
Definition option_types (f : hfield) : list str := (if hf_base f then [] else [hf_gotype f]) ++ match hf_tconv f with TcWrap _ w _ _ => [w] | _ => [] end.
Definition decoder_types (b : hbind) : list str :=
  flat_map (fun f => if hf_base f || str_eqb (hf_loc f) (T "body") then [] else [hf_gotype f]) (hb_fields b)
  ++ flat_map (fun o => if str_eqb (ho_loc o) (T "query") then flat_map option_types (ho_options o) else []) (hb_oneofs b).
(** Every variable of a decoder, at the top level or in a block. *)
Definition all_locals (b : hbind) : list str :=
  decoder_locals b
  ++ flat_map (fun f => if str_eqb (hf_loc f) (T "body") then [] else concat (query_locals f)) (hb_fields b)
  ++ flat_map (fun o => map hf_local (ho_options o)) (hb_oneofs b).
