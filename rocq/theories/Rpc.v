(** Model of how the generated gRPC and NATS clients address methods, and of a call over NATS:
    gengokit/template/NAME-service/baron/NAME.pb.baron.go.tmpl ("tmpl"), NewGRPCClient (259-284), ServeNATS (721-733),
    MakeNATSServer (736-750), DecodeNATS..Request (763-769), EncodeNATSGenericResponse (777-779), NewNATSClient (785-806),
    DecodeNATS..Response (812-824) and EncodeNATSGenericRequest (831-833); with what they use of go-kit (transport/grpc
    and transport/nats), grpc-go, protoc-gen-go-grpc, NATS and encoding/json. *)
From Verif Require Import GoStr GoStrProofs GoMap Strs GenHttp Json.

(** ** gRPC *)
(** The method a client asks for.  tmpl:267-270, go-kit's NewClient: "/%s/%s" of serviceName and method; serviceName is
    "{{PackageName}}.{{Service.Name}}", where PackageName is the name of the Go package (svcdef/svcdef.go:221) and the names of
    service and method are those of the Go interface. *)
Definition grpc_path (go_pkg go_service go_method : str) : str :=
  T "/" ++ (go_pkg ++ T "." ++ go_service) ++ T "/" ++ go_method.
(** What protoc-gen-go-grpc registers: the full name of the service in the .proto file, and its methods by their names there. *)
Definition full_name (proto_pkg service : str) : str := match proto_pkg with [] => service | _ => proto_pkg ++ T "." ++ service end.
Record registered := mkReg { rg_service : str; rg_methods : list str }.
(** The text before and after the last slash. *)
Fixpoint cut_last (s : str) : option (str * str) :=
  match s with
  | [] => None
  | c :: s' => match cut_last s' with
               | Some (a, b) => Some (c :: a, b)
               | None => if N.eqb c c_slash then Some ([], s') else None
               end
  end.
(** grpc-go, server.go, handleStream: None is the status Unimplemented (or malformed name). *)
Definition grpc_dispatch (reg : list registered) (path : str) : option (str * str) :=
  let p := match path with c :: s => if N.eqb c c_slash then s else path | [] => [] end in
  match cut_last p with
  | None => None
  | Some (svc, m) =>
      match find (fun r => str_eqb (rg_service r) svc) reg with
      | None => None
      | Some r => if existsb (str_eqb m) (rg_methods r) then Some (svc, m) else None
      end
  end.
(** The client's view of a method of a service of a .proto file: Go names are CamelCase. *)
Definition grpc_call_path (go_pkg service method : str) : str := grpc_path go_pkg (go_camel_case service) (go_camel_case method).

(** ** NATS *)
(** tmpl:724 and 792: subject and queue group. *)
Definition nats_subject (go_service go_method : str) : str := go_service ++ T "." ++ go_method.
Record subscription := mkSub { sb_instance : nat; sb_subject : str; sb_group : str; sb_handler : str }.
(** tmpl:721-733, ServeNATS of one process. *)
Definition serve_nats (instance : nat) (go_service : str) (go_methods : list str) : list subscription :=
  map (fun m => mkSub instance (nats_subject go_service m) go_service m) go_methods.
(** NATS: a message on a subject goes to one subscription of every queue group that subscribed to it (here to [s]). *)
Definition delivered (subs : list subscription) (subject : str) (s : subscription) : Prop := In s subs /\ sb_subject s = subject.

(** ** encoding/json of structs *)
(** encode.go: a value without spaces. *)
Fixpoint jwrite (j : json) : str :=
  match j with
  | JNull => T "null"
  | JBool true => T "true"
  | JBool false => T "false"
  | JNum s => s
  | JStr s => json_quote s
  | JArr l => T "[" ++ join (T ",") (map jwrite l) ++ T "]"
  | JObj l => T "{" ++ join (T ",") (map (fun kv => json_quote (fst kv) ++ T ":" ++ jwrite (snd kv)) l) ++ T "}"
  end.
Section Struct.
  (** Values of the fields that are no oneofs. *)
  Variable P : Type.
  (** A field of a generated struct: protoc-gen-go writes the tag json:"name,omitempty" on fields with the name from the .proto
      file, and no json tag on a oneof, which is then named by its Go name.  [f_enc] and [f_dec] are encoding/json for the type of the
      field, [f_zero] its zero value, [f_empty] what omitempty leaves out. *)
  Record codec := mkCodec { f_zero : P; f_empty : P -> bool; f_enc : P -> option json; f_dec : json -> option P }.
  Inductive fkind := FPlain (c : codec) | FOneof (options : list (str * codec)).
  Record jfield := mkJF { jf_name : str; jf_kind : fkind }.
  (** The value of a field; a oneof holds nil or one of the wrappers with its value. *)
  Inductive fval := VPlain (p : P) | VOne (o : option (str * P)).
  Definition msg := str -> fval.
  Definition zero_val (k : fkind) : fval := match k with FPlain c => VPlain (f_zero c) | FOneof _ => VOne None end.
  Fixpoint find_field (fs : list jfield) (p : jfield -> bool) : option jfield :=
    match fs with [] => None | f :: fs' => if p f then Some f else find_field fs' p end.
  Definition zero_msg (fs : list jfield) : msg := fun n =>
    match find_field fs (fun f => str_eqb n (jf_name f)) with Some f => zero_val (jf_kind f) | None => VOne None end.
  (** encode.go, structEncoder: None: an error; Some None: left out.  A oneof is written as the object of its wrapper. *)
  Definition enc_field (f : jfield) (v : fval) : option (option json) :=
    match jf_kind f, v with
    | FPlain c, VPlain p => if f_empty c p then Some None else match f_enc c p with Some j => Some (Some j) | None => None end
    | FOneof _, VOne None => Some (Some JNull)
    | FOneof os, VOne (Some (n, p)) =>
        match find (fun o => str_eqb (fst o) n) os with
        | Some o => match f_enc (snd o) p with Some j => Some (Some (JObj [(n, j)])) | None => None end
        | None => None
        end
    | _, _ => None
    end.
  Fixpoint enc_fields (fs : list jfield) (m : msg) : option (list (str * json)) :=
    match fs with
    | [] => Some []
    | f :: fs' => match enc_field f (m (jf_name f)), enc_fields fs' m with
                  | Some (Some j), Some l => Some ((jf_name f, j) :: l)
                  | Some None, Some l => Some l
                  | _, _ => None
                  end
    end.
  Definition marshal (fs : list jfield) (m : msg) : option str :=
    match enc_fields fs m with Some l => Some (jwrite (JObj l)) | None => None end.
  (** decode.go: an interface with methods takes null only. *)
  Definition dec_field (f : jfield) (j : json) : option fval :=
    match jf_kind f with
    | FPlain c => match f_dec c j with Some p => Some (VPlain p) | None => None end
    | FOneof _ => match j with JNull => Some (VOne None) | _ => None end
    end.
  (** decode.go, object: the field of that name, or else the first of that name in another case; others are passed over. *)
  Definition field_of (fs : list jfield) (k : str) : option jfield :=
    match find_field fs (fun f => str_eqb k (jf_name f)) with
    | Some f => Some f
    | None => find_field fs (fun f => str_eqb (to_lower k) (to_lower (jf_name f)))
    end.
  Definition put (m : msg) (n : str) (v : fval) : msg := fun x => if str_eqb x n then v else m x.
  Fixpoint dec_members (fs : list jfield) (l : list (str * json)) (m : msg) (bad : bool) : option msg :=
    match l with
    | [] => if bad then None else Some m
    | (k, j) :: l' =>
        match field_of fs k with
        | None => dec_members fs l' m bad
        | Some f => match dec_field f j with Some v => dec_members fs l' (put m (jf_name f) v) bad | None => dec_members fs l' m true end
        end
    end.
  Definition unmarshal (fs : list jfield) (data : str) : option msg :=
    match parse_json data with
    | Some (JObj l) => dec_members fs l (zero_msg fs) false
    | Some JNull => Some (zero_msg fs)
    | _ => None
    end.

  (** ** A call over NATS.  go-kit, transport/nats: DefaultErrorEncoder writes struct{Error string json:"err"}. *)
  Definition err_reply (text : str) : str := jwrite (JObj [(T "err", JStr text)]).
  Variable dec_text enc_text : str.            (* what encoding/json says of bad requests and responses *)
  (** Subscriber.ServeMsg: the data of the reply.  The service returns a response and an error text. *)
  Definition nats_serve (qs rs : list jfield) (svc : msg -> msg * option str) (data : str) : str :=
    match unmarshal qs data with
    | None => err_reply dec_text
    | Some q => match svc q with
                | (_, Some e) => err_reply e
                | (r, None) => match marshal rs r with Some d => d | None => err_reply enc_text end
                end
    end.
  (** Publisher.Endpoint with DecodeNATS..Response: what the caller gets when the reply arrives. *)
  Inductive nats_result := NatsResponse (m : msg) | NatsEncodeError | NatsDecodeError.
  Definition nats_call (qs rs : list jfield) (svc : msg -> msg * option str) (q : msg) : nats_result :=
    match marshal qs q with
    | None => NatsEncodeError
    | Some d => match unmarshal rs (nats_serve qs rs svc d) with Some r => NatsResponse r | None => NatsDecodeError end
    end.
End Struct.
Arguments FPlain {P} c.
Arguments FOneof {P} options.
Arguments VPlain {P} p.
Arguments VOne {P} o.
Arguments mkCodec {P}.
Arguments mkJF {P}.
Arguments NatsResponse {P} m.
Arguments NatsEncodeError {P}.
Arguments NatsDecodeError {P}.
