(** Model of how the generated HTTP server answers and how the generated HTTP client reads the answer:
    gengokit/template/NAME-service/baron/NAME.pb.baron.go.tmpl ("tmpl"), errorEncoder (361-380),
    errorDecoder (382-393), httpError (402-415), EncodeHTTPGenericResponse (467-482) and
    DecodeHTTP..Response (580-605); go-kit's ServeHTTP around them. *)
From Coq Require Import Permutation.
From Verif Require Import GoStr GoStrProofs GoMap Decimals HttpTransport GenHttp Json Context.

(** An error value: its text, and which of the interfaces json.Marshaler, Headerer and StatusCoder it
    implements (None: it does not), with what the method returns ([e_json = Some None]: MarshalJSON
    fails). *)
Record goerror := mkErr {
  e_text : str;
  e_json : option (option str);
  e_headers : option header;
  e_code : option Z }.
(** What the client gets to see: status, headers and body. *)
Record http_response := mkResp { rs_status : Z; rs_headers : header; rs_body : str }.

(** tmpl:362-367 *)
Definition error_body (e : goerror) : str :=
  match e_json e with Some (Some j) => j | _ => marshal_error (e_text e) end.
(** tmpl:374-377 *)
Definition error_status (e : goerror) : Z := match e_code e with Some c => c | None => 500 end.
(** tmpl:368-373; [order] is the order of iteration over the error's headers. *)
Definition content_type : str := T "application/json; charset=utf-8".
Definition error_headers (order : list str) (e : goerror) (h0 : header) : header :=
  let h := h_set h0 (T "Content-Type") content_type in
  match e_headers e with
  | Some eh => fold_left (fun h k => h_set h k (h_get eh k)) order h
  | None => h
  end.
(** net/http: the status codes whose responses have no body. *)
Definition body_allowed (c : Z) : bool := negb (Z.leb 100 c && Z.leb c 199) && negb (Z.eqb c 204) && negb (Z.eqb c 304).
(** tmpl:361-380, errorEncoder on a response with headers [h0]; None: WriteHeader panics. *)
Definition error_encoder (order : list str) (e : goerror) (h0 : header) : option http_response :=
  let c := error_status e in
  if Z.leb 100 c && Z.leb c 999
  then Some (mkResp c (error_headers order e h0) (if body_allowed c then error_body e else []))
  else None.

(** tmpl:382-393, errorDecoder: the text of the error it returns (which is never nil).  (The limit of
    387 counts bytes; here it counts runes.) *)
Definition error_decoder (buf : str) : str :=
  match unmarshal_error buf with
  | Some m => m
  | None => T "response body '" ++ firstn (N.to_nat 8196) buf ++ T "': cannot parse non-json request body"
  end.

Section Hop.
  Variable Resp : Type.
  (** protojson.Marshal / Unmarshal for the response type. *)
  Variable pj_marshal : Resp -> option str.
  Variable pj_unmarshal : str -> option Resp.
  (** What protojson says when it fails. *)
  Variable pj_text : str.

  (** tmpl:580-605: the response (None: nil) and the text of the error (None: nil) that
      DecodeHTTP..Response returns.  Reading the body does not fail here. *)
  Definition decode_response (r : http_response) : option Resp * option str :=
    if negb (Z.eqb (rs_status r) 200)                                                    (* 590-592 *)
    then (None, Some (T "status code: '" ++ itoa (rs_status r) ++ T "': " ++ error_decoder (rs_body r)))
    else match pj_unmarshal (rs_body r) with
         | None => (None, Some (error_decoder (rs_body r)))                              (* 599-601 *)
         | Some resp => (Some resp, None)                                                (* 603 *)
         end.

  (** go-kit, transport/http/server.go, ServeHTTP: decode, call, (ServerAfter sets the content type),
      encode; an error at any step goes to the error encoder.  [dec] is what the request decoder
      returned, [svc] the endpoint. *)
  Definition plain_error (t : str) : goerror := mkErr t None None None.
  Definition answer {R : Type} (order : list str) (dec : R + goerror) (svc : R -> Resp * option goerror) : option http_response :=
    match dec with
    | inr e => error_encoder order e []
    | inl req =>
        match svc req with
        | (_, Some e) => error_encoder order e []
        | (resp, None) =>
            let h := h_set [] (T "Content-Type") content_type in
            match pj_marshal resp with
            | Some buf => Some (mkResp 200 h buf)                                        (* tmpl:467-482 *)
            | None => error_encoder order (plain_error pj_text) h
            end
        end
    end.
End Hop.

(** A whole call over HTTP, as seen by the caller of the generated client. *)
Section Call.
  Variable K : codecs.
  Variable Resp : Type.
  Variable pj_marshal : Resp -> option str.
  Variable pj_unmarshal : str -> option Resp.
  Variable pj_text : str.
  Variable zero : request.                 (* the zero value of the request type *)
  Variable decode_error : http_request -> goerror.   (* the error of a failing request decoder *)

  (** The request as the decoder returns it to go-kit: an error beats the request (tmpl:462). *)
  Definition decoded_request (b : hbind) (vars : gomap str) (h : http_request) : request + goerror :=
    match decode_request K zero b vars h with
    | DOk r false => inl r
    | _ => inr (decode_error h)
    end.
  (** gorilla/mux answers a request no route matches with 404. *)
  Definition not_found : http_response := mkResp 404 [] (T "404 page not found" ++ [10%N]).
  (** The server: [svc m] is the method m of the service. *)
  Definition http_server (order : list str) (routes : list (str * hbind)) (svc : str -> request -> Resp * option goerror) (h : http_request) : option http_response :=
    match serve routes h with
    | None => Some not_found
    | Some (m, b, vars) => answer Resp pj_marshal pj_text order (decoded_request b vars h) (svc m)
    end.
  (** The result of a call of the generated client's method with binding [b]. *)
  Inductive call_result :=
  | CallReturns (r : option Resp) (e : option str)       (* what the decoder of the response returned *)
  | CallEncodeError                                      (* the request could not be encoded *)
  | CallNoAnswer.                                        (* the handler panicked: the connection breaks *)
  Definition http_call (order : list str) (routes : list (str * hbind)) (svc : str -> request -> Resp * option goerror) (b : hbind) (req : request) : call_result :=
    match encode_request K b req with
    | None => CallEncodeError
    | Some h => match http_server order routes svc h with
                | None => CallNoAnswer
                | Some r => let (a, e) := decode_response Resp pj_unmarshal r in CallReturns a e
                end
    end.
End Call.
Arguments CallReturns {Resp} r e.
Arguments CallEncodeError {Resp}.
Arguments CallNoAnswer {Resp}.
