(** C88: the functions of the generated baron file that answer HTTP requests and read the answers do what the model of C34, C56 and C69 (ErrorHop.v) says: read as Go (GoLex.v, GoDecls.v) they are programs
    of GoGlue.v, and these compute what ErrorHop.v computes. *)
From Coq Require Import String Lia ZArith.
From Verif Require Import GoStr GoStrProofs GoMap Strs StrsSpec SvcTypes Decimals GoLex GoDecls GoGlue GlueProg PropGlue.
From Verif Require Json Context ErrorHop TextProofs Generator Render PropGoFile FileAll FileHttp TextFile DecoderTexts HttpTransport.

(** ** The library *)
(** fmt: each verb is replaced by the text of the next argument. *)
Fixpoint fill (f : str) (args : list str) : str :=
  match f with
  | [] => []
  | c :: f' => if N.eqb c 37 then match f', args with _ :: f'', a :: args' => a ++ fill f'' args' | _, _ => c :: f' end else c :: fill f' args
  end.
(** An http.ResponseWriter: its headers, the status and headers that were sent, and the body.  net/http: WriteHeader panics on a code that has not three digits, and does nothing the second time;
    Write sends the status 200 if none was sent, and fails if the status has no body. *)
Record writer := mkWriter { w_header : Context.header; w_sent : option (Z * Context.header); w_body : str }.
Definition fresh_writer (h : Context.header) : writer := mkWriter h None [].
Definition write_header (c : Z) (w : writer) : option writer :=
  match w_sent w with
  | Some _ => Some w
  | None => if Z.leb 100 c && Z.leb c 999 then Some (mkWriter (w_header w) (Some (c, w_header w)) (w_body w)) else None
  end.
Definition write (b : str) (w : writer) : bool * writer :=
  let w := match w_sent w with Some _ => w | None => mkWriter (w_header w) (Some (200%Z, w_header w)) (w_body w) end in
  match w_sent w with
  | Some (c, _) => if ErrorHop.body_allowed c then (true, mkWriter (w_header w) (w_sent w) (w_body w ++ b)) else (false, w)
  | None => (false, w)
  end.
(** What the client gets to see *)
Definition response_of (w : writer) : option ErrorHop.http_response := match w_sent w with Some (c, h) => Some (ErrorHop.mkResp c h (w_body w)) | None => None end.

Section Lib.
  Variable Resp : Type.
  (** protojson with these options (of MarshalOptions: AllowPartial, UseProtoNames, UseEnumNumbers, EmitUnpopulated; of UnmarshalOptions: AllowPartial, DiscardUnknown) *)
  Variable marshal : list bool -> Resp -> option str.
  Variable unmarshal : list bool -> str -> option Resp.
  Variable pj_text : str.
  Inductive ob :=
  | OCtx | OError (e : ErrorHop.goerror) | OEof | OWriter | OWHeader | OHeaders (h : Context.header)
  | OAnswer (status : Z) (body : str + str) | OBody (body : str + str)   (* a response and its body; inr: reading fails with this text *)
  | OZero | OMsg (r : Resp).
  Definition err_of (t : str) : gval ob := VObj (OError (ErrorHop.plain_error t)).
  Definition is_name (f : list str) (n : list string) : bool := if list_eq_dec (list_eq_dec N.eq_dec) f (map T n) then true else false.
  Definition flags (names : list str) (fs : list (str * gval ob)) : list bool := map (fun n => match lookup ob n fs with Some (VBool b) => b | _ => false end) names.
  Definition wrapper (t : str) : gval ob := VStruct [kw "errorWrapper"] [(T "Error", VStr t)].
  Definition zero_of (n : str) : gval ob := if str_eqb n (T "errorWrapper") then wrapper [] else VObj OZero.
  Variable order : list str -> list str.
  Definition lib : golib ob writer := mkLib _ _
    (fun f args w =>
       if is_name f ["json"; "Marshal"]%string then match args with [VStruct _ [(_, VStr t)]] => Some ([VStr (Json.marshal_error t); VNil], w) | _ => None end
       else if is_name f ["json"; "Unmarshal"]%string then match args with [VStr b; x] => match Json.unmarshal_error b with Some t => Some ([VNil; wrapper t], w) | None => Some ([err_of []; x], w) end | _ => None end
       else if is_name f ["len"]%string then match args with [VStr s] => Some ([VNum (Z.of_nat (length s))], w) | _ => None end
       else if is_name f ["fmt"; "Errorf"]%string then match args with [VStr t; VStr a] => Some ([err_of (fill t [a])], w) | _ => None end
       else if is_name f ["errors"; "New"]%string then match args with [VStr t] => Some ([err_of t], w) | _ => None end
       else if is_name f ["errors"; "Wrap"]%string then match args with [VObj (OError e); VStr t] => Some ([err_of (t ++ T ": " ++ ErrorHop.e_text e)], w) | _ => None end
       else if is_name f ["errors"; "Wrapf"]%string then match args with [VObj (OError e); VStr t; VNum z] => Some ([err_of (fill t [itoa z] ++ T ": " ++ ErrorHop.e_text e)], w) | _ => None end
       else if is_name f ["ioutil"; "ReadAll"]%string then match args with [VObj (OBody (inl s))] => Some ([VStr s; VNil], w) | [VObj (OBody (inr t))] => Some ([VStr []; err_of t], w) | _ => None end
       else if is_name f ["errorDecoder"]%string then match args with [VStr b] => Some ([err_of (ErrorHop.error_decoder b)], w) | _ => None end
       else None)
    (fun n x args w => match x, args with
       | VObj (OError e), [] =>
           if str_eqb n (T "Error") then Some ([VStr (ErrorHop.e_text e)], w)
           else if str_eqb n (T "MarshalJSON") then match ErrorHop.e_json e with Some (Some j) => Some ([VStr j; VNil], w) | Some None => Some ([VNil; err_of []], w) | None => None end
           else if str_eqb n (T "Headers") then match ErrorHop.e_headers e with Some h => Some ([VObj (OHeaders h)], w) | None => None end
           else if str_eqb n (T "StatusCode") then match ErrorHop.e_code e with Some c => Some ([VNum c], w) | None => None end
           else None
       | VObj OWriter, [] => if str_eqb n (T "Header") then Some ([VObj OWHeader], w) else None
       | VObj OWriter, [VNum c] => if str_eqb n (T "WriteHeader") then match write_header c w with Some w' => Some ([], w') | None => None end else None
       | VObj OWriter, [VStr b] => if str_eqb n (T "Write") then let (good, w') := write b w in Some ([VNum (Z.of_nat (length b)); if good then VNil else err_of []], w') else None
       | VObj OWHeader, [VStr k; VStr x] => if str_eqb n (T "Set") then Some ([], mkWriter (Context.h_set (w_header w) k x) (w_sent w) (w_body w)) else None
       | VObj (OHeaders h), [VStr k] => if str_eqb n (T "Get") then Some ([VStr (Context.h_get h k)], w) else None
       | VStruct _ fs, [VObj (OMsg r)] => if str_eqb n (T "Marshal") then
           match marshal (flags [T "AllowPartial"; T "UseProtoNames"; T "UseEnumNumbers"; T "EmitUnpopulated"] fs) r with Some b => Some ([VStr b; VNil], w) | None => Some ([VNil; err_of pj_text], w) end else None
       | VStruct _ fs, [VStr b; x] => if str_eqb n (T "Unmarshal") then
           match unmarshal (flags [T "AllowPartial"; T "DiscardUnknown"] fs) b with Some r => Some ([VNil; VObj (OMsg r)], w) | None => Some ([err_of pj_text; x], w) end else None
       | _, _ => None end)
    (fun f x _ => match x with
       | VObj (OAnswer c b) => if str_eqb f (T "Body") then Some (VObj (OBody b)) else if str_eqb f (T "StatusCode") then Some (VNum c) else None
       | _ => None end)
    (fun f => if is_name f ["contentType"]%string then Some (VStr (T "application/json; charset=utf-8")) else if is_name f ["http"; "StatusInternalServerError"]%string then Some (VNum 500) else if is_name f ["http"; "StatusOK"]%string then Some (VNum 200)
              else if is_name f ["io"; "EOF"]%string then Some (VObj OEof) else None)
    (fun x y => match x, y with OEof, OEof => true | _, _ => false end)
    (fun _ _ _ => None)
    (fun ty x => match ty, x with
       | [Word _; Op _; Word n], VObj (OError e) => if str_eqb n (T "Marshaler") then match ErrorHop.e_json e with Some _ => true | None => false end
           else if str_eqb n (T "Headerer") then match ErrorHop.e_headers e with Some _ => true | None => false end else if str_eqb n (T "StatusCoder") then match ErrorHop.e_code e with Some _ => true | None => false end else false
       | [Word _; Op _; Word n], VObj (OMsg _) => str_eqb n (T "Message")
       | _, _ => false end)
    (fun ty => match ty with [Word n] => zero_of n | _ => VNil end)
    (fun x _ => match x with VObj (OHeaders h) => Some (map (fun k => (VStr k, VNil)) (order (keys h))) | _ => None end)
    order.
  Notation run := (run_func _ _ lib).
  (** *** errorDecoder *)
  Lemma decoder_run b w : results (run error_decoder_fun [] [VStr b] w) = Some [err_of (ErrorHop.error_decoder b)].
  Proof.
    unfold run_func, run_body, ErrorHop.error_decoder. destruct (Json.unmarshal_error b) as [t|] eqn:E.
    - cbn -[Z.to_nat]. rewrite E. reflexivity.
    - cbn -[Z.to_nat Z.ltb Z.leb]. rewrite E. cbn -[Z.to_nat Z.ltb Z.leb]. destruct (Z.ltb 8196 (Z.of_nat (length b))) eqn:L; cbn -[Z.to_nat Z.ltb Z.leb].
      + assert (L2 : Z.leb 8196 (Z.of_nat (length b)) = true) by (apply Z.leb_le; apply Z.ltb_lt in L; lia). rewrite L2. cbn -[Z.to_nat Z.ltb Z.leb firstn]. reflexivity.
      + rewrite firstn_all2; [reflexivity|]. apply Z.ltb_ge in L. lia.
  Qed.
  (** *** errorEncoder *)
  Definition enc_env (b : str) (e : ErrorHop.goerror) : genv ob := [(T "body", VStr b); (T "w", VObj OWriter); (T "err", VObj (OError e))].
  Definition head_env (b : str) (e : ErrorHop.goerror) : genv ob := [(T "ok", VBool true); (T "headerer", VObj (OError e))] ++ enc_env b e.
  Definition header_body : list gstm := match nth 3 (f_body error_encoder_fun) (SRet []) with SIf _ _ [SRange _ _ b] => b | _ => [] end.
  Lemma header_loop b e eh : ErrorHop.e_headers e = Some eh -> forall ks w, loop_of _ _ (exec _ _ lib) [T "k"] header_body (map (fun k => (VStr k, VNil)) ks) (head_env b e) w =
    Next (head_env b e) (mkWriter (fold_left (fun h k => Context.h_set h k (Context.h_get eh k)) ks (w_header w)) (w_sent w) (w_body w)).
  Proof.
    intros He. induction ks as [|k ks IH]; intro w; [destruct w; reflexivity|]. cbn [map loop_of fold_left].
    match goal with |- match ?a with _ => _ end = _ => assert (A : a = Next (head_env b e) (mkWriter (Context.h_set (w_header w) k (Context.h_get eh k)) (w_sent w) (w_body w))) end.
    { cbn. rewrite He. reflexivity. }
    rewrite A. exact (IH (mkWriter (Context.h_set (w_header w) k (Context.h_get eh k)) (w_sent w) (w_body w))).
  Qed.
  Lemma encoder_run e h0 : match ErrorHop.error_encoder (match ErrorHop.e_headers e with Some eh => order (keys eh) | None => [] end) e h0 with
    | Some r => let after_call := run error_encoder_fun [] [VObj OCtx; VObj (OError e); VObj OWriter] (fresh_writer h0) in results after_call = Some [] /\ option_map response_of (after after_call) = Some (Some r)
    | None => run error_encoder_fun [] [VObj OCtx; VObj (OError e); VObj OWriter] (fresh_writer h0) = Panic
    end.
  Proof.
    unfold run_func, run_body. cbn [f_recv f_params error_encoder_fun app map fst f_body].
    change (binds ob _ _ []) with [(T "w", VObj OWriter); (T "err", VObj (OError e))].
    rewrite (block_step _ _ lib _ _ _ _ (enc_env (Json.marshal_error (ErrorHop.e_text e)) e) (fresh_writer h0)) by reflexivity.
    rewrite (block_step _ _ lib _ _ _ _ (enc_env (ErrorHop.error_body e) e) (fresh_writer h0)).
    2: { unfold ErrorHop.error_body. cbn. destruct (ErrorHop.e_json e) as [[j|]|] eqn:Ej; cbn; rewrite ?Ej; cbn; rewrite ?Ej; reflexivity. }
    set (h1 := Context.h_set h0 (T "Content-Type") ErrorHop.content_type).
    rewrite (block_step _ _ lib _ _ _ _ (enc_env (ErrorHop.error_body e) e) (fresh_writer h1)) by reflexivity.
    set (h2 := ErrorHop.error_headers (match ErrorHop.e_headers e with Some eh => order (keys eh) | None => [] end) e h0).
    rewrite (block_step _ _ lib _ _ _ _ (enc_env (ErrorHop.error_body e) e) (fresh_writer h2)).
    2: { unfold h2, ErrorHop.error_headers. rewrite exec_if. fold h1. destruct (ErrorHop.e_headers e) as [eh|] eqn:Eh.
      - assert (A : exec _ _ lib (SDef [T "headerer"; T "ok"] (EAssert (v "err") (sel "httptransport" "Headerer"))) (enc_env (ErrorHop.error_body e) e) (fresh_writer h1) = Next (head_env (ErrorHop.error_body e) e) (fresh_writer h1)).
        { cbn. unfold is_type. cbn. rewrite Eh. reflexivity. }
        rewrite A. clear A. pose proof (header_loop (ErrorHop.error_body e) e eh Eh (order (keys eh)) (fresh_writer h1)) as X.
        rewrite <- (range_runs _ _ _ _ (ECall (pkg "headerer" "Headers") []) _ _ (fresh_writer h1) (VObj (OHeaders eh))) in X; [|cbn; rewrite Eh; reflexivity|reflexivity].
        match goal with |- leave _ _ _ (match ?c with _ => _ end) = _ => assert (B : c = Some ([VBool true], fresh_writer h1)) by reflexivity end. unfold header_body in X. cbn [nth f_body error_encoder_fun] in X. rewrite B. cbv iota beta. rewrite (block_step _ _ _ _ _ _ _ _ _ X). reflexivity.
      - cbn. unfold is_type. cbn. rewrite Eh. reflexivity. }
    rewrite (block_step _ _ lib _ _ _ _ ((T "code", VNum 500) :: enc_env (ErrorHop.error_body e) e) (fresh_writer h2)) by reflexivity.
    rewrite (block_step _ _ lib _ _ _ _ ((T "code", VNum (ErrorHop.error_status e)) :: enc_env (ErrorHop.error_body e) e) (fresh_writer h2)).
    2: { unfold ErrorHop.error_status. cbn. destruct (ErrorHop.e_code e) as [c|] eqn:Ec; cbn; rewrite ?Ec; cbn; rewrite ?Ec; reflexivity. }
    unfold ErrorHop.error_encoder. fold h2. set (c := ErrorHop.error_status e).
    assert (W : exec _ _ lib (SDo (ECall (pkg "w" "WriteHeader") [v "code"])) ((T "code", VNum c) :: enc_env (ErrorHop.error_body e) e) (fresh_writer h2) =
      if Z.leb 100 c && Z.leb c 999 then Next ((T "code", VNum c) :: enc_env (ErrorHop.error_body e) e) (mkWriter h2 (Some (c, h2)) []) else Panic).
    { cbn -[Z.leb]. unfold write_header. cbn -[Z.leb]. destruct (Z.leb 100 c && Z.leb c 999); reflexivity. }
    destruct (Z.leb 100 c && Z.leb c 999); [|rewrite (block_panic _ _ _ _ _ _ _ W); reflexivity]. rewrite (block_step _ _ _ _ _ _ _ _ _ W). clear W.
    cbn -[ErrorHop.body_allowed]. unfold write. cbn -[ErrorHop.body_allowed]. destruct (ErrorHop.body_allowed c); split; reflexivity.
  Qed.
  (** *** httpError *)
  Lemma http_error_runs (inner : gval ob) c h w : let x := VStruct [kw "httpError"] [(T "error", inner); (T "statusCode", VNum c); (T "headers", h)] in
    results (run status_fun [x] [] w) = Some [VNum c] /\ results (run error_headers_fun [x] [] w) = Some [h].
  Proof. split; reflexivity. Qed.
  (** *** EncodeHTTPGenericResponse *)
  Lemma response_run r h0 : let answer := run encode_response_fun [] [VObj OCtx; VObj OWriter; VObj (OMsg r)] (fresh_writer h0) in
    match marshal [true; true; true; true] r with
    | Some b => results answer = Some [VNil] /\ option_map response_of (after answer) = Some (Some (ErrorHop.mkResp 200 h0 b))
    | None => results answer = Some [err_of pj_text] /\ after answer = Some (fresh_writer h0)
    end.
  Proof.
    cbv zeta. unfold run_func, run_body. cbn. unfold is_type. cbn. destruct (marshal [true; true; true; true] r) as [b|]; cbn; split; reflexivity.
  Qed.
  (** *** DecodeHTTP...Response *)
  Definition msg_of (r : option Resp) : gval ob := match r with Some r => VObj (OMsg r) | None => VNil end.
  Definition text_of (t : option str) : gval ob := match t with Some t => err_of t | None => VNil end.
  Lemma read_run n ty status body w : ty <> T "errorWrapper" -> results (run (decode_response_fun n ty) [] [VObj OCtx; VObj (OAnswer status body)] w) =
    match body with
    | inr t => Some [VNil; err_of (T "cannot read http body: " ++ t)]
    | inl b => let (r, e) := ErrorHop.decode_response Resp (unmarshal [true; true]) (ErrorHop.mkResp status [] b) in Some [msg_of r; text_of e]
    end.
  Proof.
    intro N. assert (Z0 : zero_of ty = VObj OZero) by (unfold zero_of; apply str_eqb_neq in N; rewrite N; reflexivity). destruct body as [b|t]; [|reflexivity]. unfold run_func, run_body, ErrorHop.decode_response. cbn [ErrorHop.rs_status ErrorHop.rs_body].
    cbn -[ErrorHop.error_decoder Z.eqb itoa zero_of]. destruct (Z.eqb status 200); cbn -[ErrorHop.error_decoder Z.eqb itoa zero_of]; unfold eval1; cbn -[ErrorHop.error_decoder Z.eqb itoa zero_of]; [|cbn; rewrite <- ?app_assoc; reflexivity].
    rewrite ?Z0. destruct (unmarshal [true; true] b) as [r|]; cbn -[ErrorHop.error_decoder]; reflexivity.
  Qed.
End Lib.

(** ** What the generated file has *)
Section C88.
  Variable format_source : str -> option str.
  Variables (d : Render.tdata) (s : str) (ms : list message).
  Hypothesis rendered_file : Render.render_asset format_source Generator.BaronPath d = Some s.
  Notation methods := (sv_methods (Render.td_service d)).
  Hypothesis made : HttpTransport.new_helper ms methods = GoStr.Ret (Render.td_helper d).
  Hypothesis ok : PropGoFile.file_ok ms d.
  Hypothesis lays_f : forall hm b f t, In hm (Render.td_helper d) -> In b (HttpTransport.hm_binds hm) -> In f (HttpTransport.hb_fields b) -> DecoderTexts.field_text f = Some t -> lays_out format_source t.
  Hypothesis lays_o : forall hm b o t, In hm (Render.td_helper d) -> In b (HttpTransport.hm_binds hm) -> In o (HttpTransport.hb_oneofs b) -> DecoderTexts.oneof_text o = Some t -> lays_out format_source t.
  Notation has := (PropGlue.has format_source d s ms rendered_file made ok lays_f lays_o).
  Lemma has_error f : In f [error_encoder_fun; error_decoder_fun; status_fun; error_headers_fun] -> has_function s f.
  Proof. intro H. apply has. unfold FileAll.glue, FileHttp.error_funs. rewrite !in_app_iff. right. right. right. right. left. right. exact (in_map (fun f => plain (func_toks f)) _ f H). Qed.
  (** C34.  errorEncoder writes what ErrorHop.error_encoder says, on a response with any headers, and panics exactly if the status has not three digits; the methods of httpError give its status and headers.
      (contentType, a constant of the library above, is one of the text.) *)
  Theorem c88_errors : ((exists ds, declarations s = Some ds /\ In [kw "const"; kw "contentType"; op "="; Str (T "application/json; charset=utf-8")] ds) /\
      has_function s error_encoder_fun /\ has_function s status_fun /\ has_function s error_headers_fun) /\
    forall Resp marshal unmarshal pj_text order, let run := run_func _ _ (lib Resp marshal unmarshal pj_text order) in
    (forall e h0, let call := run error_encoder_fun [] [VObj (OCtx _); VObj (OError _ e); VObj (OWriter _)] (fresh_writer h0) in
      match ErrorHop.error_encoder (match ErrorHop.e_headers e with Some eh => order (keys eh) | None => [] end) e h0 with
      | Some r => results call = Some [] /\ option_map response_of (after call) = Some (Some r)
      | None => call = Panic
      end) /\
    (forall inner c h w, let x := VStruct [kw "httpError"] [(T "error", inner); (T "statusCode", VNum c); (T "headers", h)] in
      results (run status_fun [x] [] w) = Some [VNum c] /\ results (run error_headers_fun [x] [] w) = Some [h]).
  Proof.
    split; [split; [|split; [|split]]|].
    - destruct (PropGoFile.file_is format_source d s ms rendered_file made ok lays_f lays_o) as (ds & D & _ & I). exists ds. split; [exact D|]. apply I. apply in_or_app. right. apply in_or_app. right.
      unfold FileAll.glue, FileHttp.error_funs. rewrite !in_app_iff. right. right. right. right. left. left. reflexivity.
    - apply has_error. left. reflexivity.
    - apply has_error. right. right. left. reflexivity.
    - apply has_error. right. right. right. left. reflexivity.
    - intros Resp marshal unmarshal pj_text order run. split.
      + intros e h0. exact (encoder_run Resp marshal unmarshal pj_text order e h0).
      + intros inner c h w. exact (http_error_runs Resp marshal unmarshal pj_text order inner c h w).
  Qed.
  (** C56.  EncodeHTTPGenericResponse answers 200 with the message as protojson writes it with these options, or writes nothing and returns the error of protojson. *)
  Theorem c88_response : has_function s encode_response_fun /\
    forall Resp marshal unmarshal pj_text order r h0, let call := run_func _ _ (lib Resp marshal unmarshal pj_text order) encode_response_fun [] [VObj (OCtx _); VObj (OWriter _); VObj (OMsg _ r)] (fresh_writer h0) in
    match marshal [true; true; true; true] r with
    | Some b => results call = Some [VNil] /\ option_map response_of (after call) = Some (Some (ErrorHop.mkResp 200 h0 b))
    | None => results call = Some [err_of _ pj_text] /\ after call = Some (fresh_writer h0)
    end.
  Proof.
    split; [apply has; unfold FileAll.glue, FileHttp.client_funs; rewrite !in_app_iff; right; right; right; left; left; reflexivity|].
    intros Resp marshal unmarshal pj_text order r h0. exact (response_run Resp marshal unmarshal pj_text order r h0).
  Qed.
  (** C34, C69.  The client: errorDecoder, and the decoder of the responses of a method, which unmarshals with these options *)
  Theorem c88_client : has_function s error_decoder_fun /\
    forall Resp marshal unmarshal pj_text order, let run := run_func _ _ (lib Resp marshal unmarshal pj_text order) in
    (forall b w, results (run error_decoder_fun [] [VStr b] w) = Some [err_of _ (ErrorHop.error_decoder b)]) /\
    forall hm, In hm (Render.td_helper d) -> let f := decode_response_fun (HttpTransport.hm_name hm) (go_camel_case (HttpTransport.hm_resp hm)) in
      has_function s f /\ forall status body w, results (run f [] [VObj (OCtx _); VObj (OAnswer _ status body)] w) =
        match body with
        | inr t => Some [VNil; err_of _ (T "cannot read http body: " ++ t)]
        | inl b => Some (match ErrorHop.decode_response Resp (unmarshal [true; true]) (ErrorHop.mkResp status [] b) with
                         | (Some r, None) => [VObj (OMsg _ r); VNil] | (Some r, Some t) => [VObj (OMsg _ r); err_of _ t] | (None, Some t) => [VNil; err_of _ t] | (None, None) => [VNil; VNil] end)
        end.
  Proof.
    split; [apply has_error; right; left; reflexivity|]. intros Resp marshal unmarshal pj_text order run. split; [intros b w; exact (decoder_run Resp marshal unmarshal pj_text order b w)|].
    intros hm Hm f. split.
    - apply has. unfold FileAll.glue, FileHttp.answer_funs. rewrite !in_app_iff. right. right. right. right. right. left. apply in_flat_map. exists hm. split; [exact Hm|left; reflexivity].
    - intros status body w. assert (N : go_camel_case (HttpTransport.hm_resp hm) <> T "errorWrapper").
      { destruct (PropGoFile.made_in _ _ _ hm made Hm) as (m & I & E & _). destruct (PropGoFile.method_made ms m hm E) as (_ & _ & E2 & _). rewrite E2. destruct (PropGoFile.ok_method ms d ok m I) as (_ & _ & X).
        intro K. rewrite K in X. destruct X as [X _]. discriminate X. }
      unfold f, run. rewrite (read_run Resp marshal unmarshal pj_text order _ _ status body w N). destruct body as [b|t]; [|reflexivity].
      destruct (ErrorHop.decode_response _ _ _) as [[r|] [t|]]; reflexivity.
  Qed.
End C88.
Print Assumptions c88_errors.
Print Assumptions c88_response.
Print Assumptions c88_client.
(** ** A case: PropGoFile.shop; an error with the status 404 and a header, as the server sends it and the client reads it *)
Example c88_case : exists s, Render.render_asset (fun _ => None) Generator.BaronPath PropGoFile.shop = Some s /\
  (has_function s error_encoder_fun /\ exists hm, In hm (Render.td_helper PropGoFile.shop) /\ has_function s (decode_response_fun (HttpTransport.hm_name hm) (go_camel_case (HttpTransport.hm_resp hm)))) /\
  let e := ErrorHop.mkErr (T "no item") None (Some [(T "X-Id", [T "9"])]) (Some 404%Z) in
  let L := lib nat (fun _ _ => None) (fun _ _ => None) [] (fun l => l) in
  exists r, option_map response_of (after (run_func _ _ L error_encoder_fun [] [VObj (OCtx _); VObj (OError _ e); VObj (OWriter _)] (fresh_writer []))) = Some (Some r) /\
    r = ErrorHop.mkResp 404 [(T "Content-Type", [T "application/json; charset=utf-8"]); (T "X-Id", [T "9"])] (T "{""error"":""no item""}") /\
    results (run_func _ _ L (decode_response_fun (T "GetItem") (T "Item")) [] [VObj (OCtx _); VObj (OAnswer _ (ErrorHop.rs_status r) (inl (ErrorHop.rs_body r)))] (fresh_writer [])) =
      Some [VNil; err_of _ (T "status code: '404': no item")].
Proof.
  pose proof (TextProofs.baron_is (fun _ => None) PropGoFile.shop) as R. remember (concat (TextFile.baron_pieces (fun _ => None) PropGoFile.shop)) as s eqn:Es. clear Es.
  assert (M : HttpTransport.new_helper [] (sv_methods (Render.td_service PropGoFile.shop)) = GoStr.Ret (Render.td_helper PropGoFile.shop)) by (vm_compute; reflexivity).
  assert (LF : forall hm b f t, In hm (Render.td_helper PropGoFile.shop) -> In b (HttpTransport.hm_binds hm) -> In f (HttpTransport.hb_fields b) -> DecoderTexts.field_text f = Some t -> lays_out (fun _ => None) t) by (intros; intros ? K; discriminate K).
  assert (LO : forall hm b o t, In hm (Render.td_helper PropGoFile.shop) -> In b (HttpTransport.hm_binds hm) -> In o (HttpTransport.hb_oneofs b) -> DecoderTexts.oneof_text o = Some t -> lays_out (fun _ => None) t) by (intros; intros ? K; discriminate K).
  exists s. split; [exact R|]. split.
  - split; [exact (proj1 (proj2 (proj1 (c88_errors (fun _ => None) PropGoFile.shop s [] R M PropGoFile.shop_ok LF LO))))|].
    assert (I : exists hm, In hm (Render.td_helper PropGoFile.shop)) by (eexists; vm_compute; left; reflexivity). destruct I as [hm I]. exists hm. split; [exact I|].
    exact (proj1 (proj2 (proj2 (c88_client (fun _ => None) PropGoFile.shop s [] R M PropGoFile.shop_ok LF LO) nat (fun _ _ => None) (fun _ _ => None) [] (fun l => l)) hm I)).
  - eexists. split; [vm_compute; reflexivity|]. split; vm_compute; reflexivity.
Qed.
