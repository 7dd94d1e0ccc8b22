(** What go-kit's transport/http does with the handlers of the generated server and the endpoints of the generated client (WireHttp.v): a specification.  The functions that these name are programs: request decoders
    (GoLang.v), request encoders (GoEncode.v), and the functions that write and read answers (GoGlue.v).
    Simplifications: contexts and the caller's own options are left out; the zero value of the request type is one value [zero]. *)
From Coq Require Import String.
From Verif Require Import GoStr GoMap Strs HttpTransport Url GenHttp GoGlue GlueProg HttpProg WireHttp.
From Verif Require Client Context ErrorHop PropGlue PropAnswer WireGrpc GoLang GoEncode.

Section Kit.
  Variable K : codecs.
  Variable Resp : Type.
  Variable marshal : list bool -> Resp -> option str.
  Variable unmarshal : list bool -> str -> option Resp.
  Variable pj_text : str.
  Variable order : list str -> list str.                       (* in which order a header is visited *)
  Variable zero : request.
  Variable decode_error : http_request -> ErrorHop.goerror.    (* the error of a request decoder *)
  Definition alib := PropAnswer.lib Resp marshal unmarshal pj_text order.
  (** The functions of the package: request decoders with the type of the request, request encoders, others *)
  Variable decoders : str -> option (str * GoLang.block).
  Variable encoders : str -> option GoLang.block.
  Variable funs : list gfunc.
  Definition endpoint : Type := request -> Resp * option ErrorHop.goerror.
  Notation handler := (handler endpoint).
  (** Of the options: the function for errors (the last wins), and the headers that are set before what is not an error is written *)
  Fixpoint error_function (os : list hopt) : option str := match os with [] => None | HErrors f :: os' => match error_function os' with Some g => Some g | None => Some f end | _ :: os' => error_function os' end.
  Fixpoint type_headers (os : list hopt) (h : Context.header) : Context.header := match os with [] => h | HType s :: os' => type_headers os' (Context.h_set h (T "Content-Type") s) | _ :: os' => type_headers os' h end.
  Definition report (os : list hopt) (e : ErrorHop.goerror) (w : PropAnswer.writer) : option ErrorHop.http_response :=
    match error_function os with
    | Some n => match WireGrpc.named funs n with
                | Some f => match PropGlue.after (run_func _ _ alib f [] [VObj (PropAnswer.OCtx _); VObj (PropAnswer.OError _ e); VObj (PropAnswer.OWriter _)] w) with Some w' => PropAnswer.response_of w' | None => None end
                | None => None
                end
    | None => None
    end.
  (** server.go, ServeHTTP.  None: a panic, or no answer *)
  Definition kit_serve (x : handler) (vars : gomap str) (h : http_request) : option ErrorHop.http_response :=
    match decoders (h_dec _ x) with
    | None => None
    | Some (ty, prog) =>
        match GoLang.call K zero ty vars (parse_query (rq_query h)) (Some (rq_body h)) prog with
        | Some (DOk req false) =>
            match h_ep _ x req with
            | (_, Some e) => report (h_options _ x) e (PropAnswer.fresh_writer [])
            | (resp, None) =>
                match WireGrpc.named funs (h_enc _ x) with
                | None => None
                | Some f =>
                    let call := run_func _ _ alib f [] [VObj (PropAnswer.OCtx _); VObj (PropAnswer.OWriter _); VObj (PropAnswer.OMsg _ resp)] (PropAnswer.fresh_writer (type_headers (h_options _ x) [])) in
                    match PropGlue.results call, PropGlue.after call with
                    | Some [VNil], Some w => PropAnswer.response_of w
                    | Some [VObj (PropAnswer.OError _ e)], Some w => report (h_options _ x) e w
                    | _, _ => None
                    end
                end
            end
        | Some (DOk _ true) | Some DErr => report (h_options _ x) (decode_error h) (PropAnswer.fresh_writer [])
        | _ => None
        end
    end.
  (** The router with these routes; gorilla/mux answers 404 if there is none. *)
  Definition router_serve (rs : list (mroute endpoint)) (h : http_request) : option ErrorHop.http_response :=
    match dispatch _ rs h with Some (x, vars) => kit_serve x vars h | None => Some ErrorHop.not_found end.
  (** client.go, Endpoint: encode the request, send it to the host of the URL, decode the answer.  [net]: what the host answers (None: the connection breaks); [S]: the request type.
      None: not described here (a URL with a query or without a host, a panic) *)
  Definition message_in (x : gval (PropAnswer.ob Resp)) : option (option Resp) := match x with VNil => Some None | VObj (PropAnswer.OMsg _ r) => Some (Some r) | _ => None end.
  Definition error_in (x : gval (PropAnswer.ob Resp)) : option (option str) := match x with VNil => Some None | VObj (PropAnswer.OError _ e) => Some (Some (ErrorHop.e_text e)) | _ => None end.
  Definition kit_call (S : GoEncode.struct) (net : str -> str -> http_request -> option ErrorHop.http_response) (c : remote_call) (req : request) : option (ErrorHop.call_result Resp) :=
    match encoders (rc_enc c), Client.u_query (rc_url c), Client.sent_to (rc_url c), WireGrpc.named funs (rc_dec c) with
    | Some prog, [], Some (scheme, host), Some f =>
        match GoEncode.call K S (Client.u_path (rc_url c)) req prog with
        | Some (GoEncode.Sends o) =>
            match net scheme host (mkReq (rc_verb c) (GoEncode.out_path o) (GoEncode.out_query o) (match GoEncode.out_body o with Some b => b | None => [] end)) with
            | None => Some ErrorHop.CallNoAnswer
            | Some a => match PropGlue.results (run_func _ _ alib f [] [VObj (PropAnswer.OCtx _); VObj (PropAnswer.OAnswer _ (ErrorHop.rs_status a) (inl (ErrorHop.rs_body a)))] (PropAnswer.fresh_writer [])) with
                        | Some [x; y] => match message_in x, error_in y with Some r, Some t => Some (ErrorHop.CallReturns r t) | _, _ => None end
                        | _ => None
                        end
            end
        | Some GoEncode.Fails => Some ErrorHop.CallEncodeError
        | _ => None
        end
    | _, _, _, _ => None
    end.

  (** ** Proofs *)
  Definition header_order (e : ErrorHop.goerror) : list str := match ErrorHop.e_headers e with Some eh => order (keys eh) | None => [] end.
  Hypothesis Herror : WireGrpc.named funs (T "errorEncoder") = Some error_encoder_fun.
  Hypothesis Hencode : WireGrpc.named funs (T "EncodeHTTPGenericResponse") = Some encode_response_fun.
  Lemma reports e h0 : report (at_http []) e (PropAnswer.fresh_writer h0) = ErrorHop.error_encoder (header_order e) e h0.
  Proof.
    unfold report. change (error_function (at_http [])) with (Some (T "errorEncoder")). cbv iota. rewrite Herror. pose proof (PropAnswer.encoder_run Resp marshal unmarshal pj_text order e h0) as R. fold (header_order e) in R. fold alib in R.
    destruct (ErrorHop.error_encoder (header_order e) e h0) as [r|].
    - cbv zeta in R. destruct R as [_ R]. destruct (PropGlue.after _) as [w|]; [|discriminate R]. cbn [option_map] in R. congruence.
    - rewrite R. reflexivity.
  Qed.
  Lemma kit_answers (svc : str -> endpoint) (m : str) b vars h ty prog : decoders (http_dec b) = Some (ty, prog) ->
    GoLang.call K zero ty vars (parse_query (rq_query h)) (Some (rq_body h)) prog = Some (decode_request K zero b vars h) -> decode_request K zero b vars h <> DBroken ->
    exists e, kit_serve (mkHandler _ (svc m) (http_dec b) (T "EncodeHTTPGenericResponse") (at_http [])) vars h =
      ErrorHop.answer Resp (marshal [true; true; true; true]) pj_text (header_order e) (ErrorHop.decoded_request K zero decode_error b vars h) (svc m).
  Proof.
    intros D R NB. unfold kit_serve, ErrorHop.decoded_request. cbn [h_dec h_ep h_enc h_options]. rewrite D, R. clear D R. destruct (decode_request K zero b vars h) as [req [|]| |]; [| | |contradiction].
    - exists (decode_error h). rewrite reports. reflexivity.
    - unfold ErrorHop.answer. destruct (svc m req) as [resp [e|]]; [exists e; apply reports|]. rewrite Hencode.
      change (type_headers (at_http []) []) with (Context.h_set [] (T "Content-Type") ErrorHop.content_type). set (h0 := Context.h_set _ _ _).
      pose proof (PropAnswer.response_run Resp marshal unmarshal pj_text order resp h0) as R. cbv zeta in R. fold alib in R. destruct (marshal [true; true; true; true] resp) as [buf|].
      + exists (ErrorHop.plain_error pj_text). destruct R as [R1 R2]. cbv zeta. rewrite R1. destruct (PropGlue.after _) as [w|]; [|discriminate R2]. cbn [option_map] in R2. congruence.
      + exists (ErrorHop.plain_error pj_text). destruct R as [R1 R2]. cbv zeta. rewrite R1, R2. unfold PropAnswer.err_of. apply reports.
    - exists (decode_error h). rewrite reports. reflexivity.
  Qed.
  Lemma encoded b req h : encode_request K b req = Some h -> h = mkReq (to_upper (hb_verb b)) (rq_path h) (rq_query h) (if str_eqb (hb_verb b) (T "get") then [] else rq_body h).
  Proof.
    unfold encode_request. destruct (url_parse_path _) as [p|]; [|discriminate]. destruct (query_fields _ _ _) as [q|]; [|discriminate]. destruct (query_oneofs _ _ _) as [q'|]; [|discriminate].
    destruct (str_eqb _ _); [intro E; injection E as <-; reflexivity|]. destruct (pj_enc K req); [|discriminate]. intro E. injection E as <-. reflexivity.
  Qed.
  Lemma kit_calls S net c b req scheme host prog n ty : encoders (rc_enc c) = Some prog -> Client.u_query (rc_url c) = [] -> Client.sent_to (rc_url c) = Some (scheme, host) ->
    WireGrpc.named funs (rc_dec c) = Some (decode_response_fun n ty) -> ty <> T "errorWrapper" -> rc_verb c = to_upper (hb_verb b) ->
    GoEncode.call K S (Client.u_path (rc_url c)) req prog = Some (match encode_request K b req with
          | Some h => GoEncode.Sends (GoEncode.mkOut (rq_path h) (rq_query h) (if str_eqb (hb_verb b) (T "get") then None else Some (rq_body h)) [(T "transport", T "HTTPJSON"); (T "request-url", Client.u_path (rc_url c))])
          | None => GoEncode.Fails end) ->
    kit_call S net c req = Some (match encode_request K b req with
      | None => ErrorHop.CallEncodeError
      | Some h => match net scheme host h with
                  | None => ErrorHop.CallNoAnswer
                  | Some r => let (a, e) := ErrorHop.decode_response Resp (unmarshal [true; true]) r in ErrorHop.CallReturns a e
                  end
      end).
  Proof.
    intros E1 E2 E3 E4 NW E5 R. unfold kit_call. rewrite E1, E2, E3, E4, R, E5. destruct (encode_request K b req) as [h|] eqn:Eh; [|reflexivity]. cbn [GoEncode.out_path GoEncode.out_query GoEncode.out_body].
    assert (E : mkReq (to_upper (hb_verb b)) (rq_path h) (rq_query h) (match (if str_eqb (hb_verb b) (T "get") then None else Some (rq_body h)) with Some x => x | None => [] end) = h).
    { rewrite (encoded b req h Eh) at 4. destruct (str_eqb (hb_verb b) (T "get")); reflexivity. }
    rewrite E. destruct (net scheme host h) as [a|]; [|reflexivity]. unfold alib. rewrite (PropAnswer.read_run Resp marshal unmarshal pj_text order n ty (ErrorHop.rs_status a) (inl (ErrorHop.rs_body a)) _ NW).
    assert (D : ErrorHop.decode_response Resp (unmarshal [true; true]) (ErrorHop.mkResp (ErrorHop.rs_status a) [] (ErrorHop.rs_body a)) = ErrorHop.decode_response Resp (unmarshal [true; true]) a) by reflexivity. rewrite D.
    destruct (ErrorHop.decode_response _ _ a) as [[r|] [t|]]; reflexivity.
  Qed.
End Kit.
