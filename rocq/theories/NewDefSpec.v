(** Vocabulary for C73: a service as it is written in a .proto file, and the Go files protoc makes of it. *)
From Coq Require Import Permutation.
From Verif Require Import GoStr Scanner ScannerSpec LexerSpec Strs SvcTypes Parser ParserSpec ConsolidateSpec Svcdef SvcdefSpec.

(** The .proto files: one of them has the service [sv], the others have none. *)
Definition proto_texts (U : unicode) (texts : list str) (sv : service_src) : Prop :=
  exists main others pre block post blocks,
    Permutation texts (main :: others) /\ Forall (serviceless_text U) others /\
    main = concat (pre ++ block ++ post) /\ well_separated U (pre ++ block ++ post) /\
    service_free pre /\ service_block block /\ proto_file post blocks /\ spells U block (write_service sv) /\ service_ok sv.

(** The method protoc-gen-go-grpc writes for an rpc, with these Go request and response types. *)
Definition go_method (m : method_src) (g : gmethod) (rq rs : gexpr) : Prop :=
  gm_names g = [go_camel_case (m_name m)] /\ exists c e, gm_type g = MFunc [c; GStar rq] [GStar rs; e].
(** The structs that are messages, in all files. *)
Definition message_structs (upper : N -> bool) (fs : list gofile) : list (str * list gfield) := flat_map (non_options upper) fs.
(** The http option of an rpc. *)
Definition http_bindings (m : method_src) : list hbinding := match m_options m with OHttp o _ _ => mean_option o | _ => [] end.
(** The Go files have the Server interface of the service; the request of an rpc with an http option is a message of them.  At most one
    of the files has oneofs, and the types have different names (or Go would not compile them). *)
Record compiled (upper : N -> bool) (sv : service_src) (fs : list gofile) : Prop := {
  co_files : Forall (protoc_file upper) fs;
  co_oneofs : one_with_options upper fs;
  co_server : exists gms, flat_map server_specs fs = [(go_camel_case (s_name sv) ++ T "Server", gms)] /\
    Forall2 (fun m g => exists rq rs, go_method m g rq rs /\
                          (http_bindings m <> [] -> exists n, rq = GIdent n /\ In n (map fst (message_structs upper fs)) /\ ~ In n (flat_map enum_names fs)))
            (s_methods sv) (filter (exported_method upper) gms);
  co_names : NoDup (map (fun m => go_camel_case (m_name m)) (s_methods sv));
  co_types : NoDup (map fst (flat_map (struct_specs upper) fs)) }.

(** Every binding of every rpc, in the order of the file. *)
Definition written_bindings (sv : service_src) : list (method_src * hbinding) :=
  flat_map (fun m => map (pair m) (http_bindings m)) (s_methods sv).
(** The parameters of a binding of an rpc whose request is the struct [s]: its visible fields, each in its place. *)
Definition params_of (upper : N -> bool) (b : hbinding) (s : str * list gfield) (ps : list hparam) : Prop :=
  Forall2 (fun g p => field_of g (pm_field p) /\ located b (fd_name (pm_field p)) (pm_loc p)) (filter (visible upper) (snd s)) ps.
(** The struct of the request of an rpc. *)
Definition request_struct (upper : N -> bool) (fs : list gofile) (m : method_src) (s : str * list gfield) : Prop :=
  exists f sp g rs, In f fs /\ In sp (server_specs f) /\ In g (snd sp) /\ go_method m g (GIdent (fst s)) rs /\ In s (message_structs upper fs).
