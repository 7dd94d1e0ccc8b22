(** The declarations of the text of baron/NAME.pb.baron.go: all parts together (the statements are in PropGoFile.v). *)
From Coq Require Import String Lia.
From Verif Require Import GoStr GoStrProofs GoMap Strs StrsSpec SvcTypes HttpTransport Handler Generator Template Render TextSpec TextFile GoLex GoLexProofs GoDecls GoDeclsProofs WiringSpec GoLang GoEncode DecoderProg EncoderProg EncoderProto DecoderText FileText FileHead FileHttp.
From Verif Require Wiring FileGrpc FileNats DecoderTexts.

Section File.
  Variable format_source : str -> option str.
  Variable package_name : str -> str.
  Variable d : tdata.
  Notation methods := (sv_methods (td_service d)).
  Notation helper := (td_helper d).
  Notation svc := (sv_name (td_service d)).
  Notation sec := (sec package_name).
  Hypothesis Hmeth : forall i, In i methods -> Forall ident [sm_name i; go_camel_case (ft_name (sm_req i)); go_camel_case (ft_name (sm_resp i)); svc].
  Hypothesis Hfile : Forall ident [svc; td_package d].
  Hypothesis Hdata : Forall inner [td_version d; td_date d].
  Hypothesis Hgrpc : with_grpc d = true -> forall i, In i methods -> Forall ident (FileGrpc.grpc_names d i).
  Hypothesis Hnats : with_nats d = true -> forall i, In i methods -> Forall ident (FileNats.nats_names d i).
  Hypothesis Hcase : Forall inner [to_lower svc; go_camel_case svc].
  Hypothesis Hsvc : Forall ident [svc].
  Hypothesis Hhelp : forall m, In m helper -> Forall ident [hm_name m; go_camel_case (hm_req m); go_camel_case (hm_resp m); svc] /\ hm_binds m <> [] /\ inner (to_lower (hm_name m)).
  Hypothesis Hbind : forall m b, In m helper -> In b (hm_binds m) -> ident (hb_label b) /\ inner (to_upper (hb_verb b)) /\ inner (hb_path b) /\ inner (hb_base b).
  Hypothesis Hdec : forall m b, In m helper -> In b (hm_binds m) ->
    tokens (decoder_func (hb_label b) (go_camel_case (hm_req m)) (slots format_source b) (oneof_slots format_source b)) = plain (decoder_toks (decoder_name b) (decoder_prog (go_camel_case (hm_req m)) b)).
  Hypothesis Henc : forall m b, In m helper -> In b (hm_binds m) ->
    tokens (text_of b (go_camel_case (hm_req m))) = plain (encoder_toks (encoder_name b) (encoder_prog (go_camel_case (hm_req m)) b)).

  Definition vg : query -> list str := (fun q => match q with
      | Names => [T "MakeGRPCServer"; T "grpcServer"] ++ Wiring.each (T "DecodeGRPC") (map sm_name methods) (T "Request") ++ Wiring.each (T "EncodeGRPC") (map sm_name methods) (T "Response")
                 ++ [T "GRPCMetadataToContext"; T "NewGRPCClient"] ++ Wiring.each (T "DecodeGRPC") (map sm_name methods) (T "Response") ++ Wiring.each (T "EncodeGRPC") (map sm_name methods) (T "Request") ++ [T "ContextValuesToGRPCMetadata"]
      | GField => FileGrpc.embed d :: map to_lower (map sm_name methods)
      | GMethod => map (fun x => go_camel_case (sm_name x)) methods
      | _ => [] end).
  Definition vn : query -> list str := (fun q => match q with
      | Names => [T "ServeNATS"; T "MakeNATSServer"; T "natsServer"] ++ Wiring.each (T "DecodeNATS") (map sm_name methods) (T "Request") ++ [T "EncodeNATSGenericResponse"; T "NewNATSClient"]
                 ++ Wiring.each (T "DecodeNATS") (map sm_name methods) (T "Response") ++ [T "EncodeNATSGenericRequest"]
      | NField => map sm_name methods
      | _ => [] end).
  Lemma s30 : sec (p30 format_source d) (fun q => if with_grpc d then vg q else []) (if with_grpc d then FileGrpc.grpc_funs d else []).
  Proof. rewrite FileGrpc.p30_ps. apply sec_if. intro E. exact (FileGrpc.s30 package_name d (Hgrpc E) Hfile Hcase). Qed.
  Lemma s50 : sec (p50 format_source d) (fun q => if with_nats d then vn q else []) (if with_nats d then FileNats.nats_funs d else []).
  Proof. rewrite FileNats.p50_ps. apply sec_if. intro E. exact (FileNats.s50 package_name d (Hnats E) Hfile Hcase). Qed.
  Definition decs : list (list token) := flat_map (fun m => flat_map (fun b => [dec m b]) (hm_binds m)) helper.
  Definition encs : list (list token) := flat_map (fun m => flat_map (fun b => [enc m b]) (hm_binds m)) helper.
  (** functions around the endpoints and the context *)
  Definition glue : list (list token) := calls d ++ makes d ++ wraps d ++ client_funs ++ error_funs ++ answer_funs d ++ (if with_grpc d then FileGrpc.grpc_funs d else []) ++ (if with_nats d then FileNats.nats_funs d else []) ++ http_client_funs d (td_helper d) ++ handler_funs d.
  (** what the file says *)
  Notation each := Wiring.each (only parsing).
  Definition view (q : query) : list str := match q with
    | Names => [T "Endpoints"] ++ Wiring.each (T "Make") (map sm_name methods) (T "Endpoint") ++ [T "LabeledMiddleware"] ++ (if with_grpc d then vg Names else [])
        ++ [T "contentType"; T "MakeHTTPHandler"; T "errorEncoder"; T "errorDecoder"; T "errorWrapper"; T "httpError"] ++ Wiring.each (T "DecodeHTTP") (labels d) (T "Request") ++ client_names
        ++ Wiring.each (T "DecodeHTTP") (map hm_name helper) (T "Response") ++ Wiring.each (T "EncodeHTTP") (labels d) (T "Request") ++ (if with_nats d then vn Names else [])
    | Imports => v17 package_name d Imports
    | EField => v17 package_name d EField
    | EMethod => map sm_name methods ++ [T "WrapAllExcept"; T "WrapAllLabeledExcept"]
    | GField => if with_grpc d then vg GField else []
    | GMethod => if with_grpc d then vg GMethod else []
    | NField => if with_nats d then vn NField else []
    end.
  Lemma s_all : sec (10%N :: concat (baron_pieces format_source d)) view (decs ++ encs ++ glue).
  Proof.
    apply (sec_text package_name (concat ((10%N :: p0 format_source d) :: skipn 1 (baron_pieces format_source d)))); [|reflexivity].
    eapply sec_say.
    - eapply (sec_split package_name 18); [exact (s17 format_source package_name d Hmeth Hfile Hdata)|]. unfold baron_pieces. cbn [skipn].
      eapply sec_concat_cons; [exact (s18 format_source package_name d Hmeth)|]. eapply sec_concat_cons; [exact (s19 format_source package_name d Hfile)|]. eapply sec_concat_cons; [exact (s20 format_source package_name d Hmeth Hfile)|].
      eapply (sec_split package_name 9); [exact (s29 format_source package_name d Hmeth Hfile)|]. cbn [skipn].
      eapply sec_concat_cons; [exact s30|].
      eapply (sec_split package_name 5); [exact (h35 format_source package_name d Hsvc Hhelp Hbind)|]. cbn [skipn].
      eapply sec_concat_cons; [exact (h36 format_source package_name d Hhelp Hbind Hdec)|].
      eapply (sec_split package_name 9); [exact (h45 format_source package_name d Hsvc Hhelp Hbind)|]. cbn [skipn].
      eapply sec_concat_cons; [exact (h46 format_source package_name d Hhelp Hbind)|]. eapply sec_concat_cons; [exact (h47 format_source package_name d Hsvc)|]. eapply sec_concat_cons; [exact (h48 format_source package_name d Hhelp Hbind Henc)|].
      eapply sec_concat_cons; [exact (newline_sec package_name)|]. eapply sec_concat_cons; [exact s50|]. eapply sec_concat_cons; [exact (newline_sec package_name)|]. exact (sec_nil package_name).
    - intro q. destruct q; unfold and, just, no, v18, view; cbn [app]; rewrite ?app_nil_r; try reflexivity.
      all: assert (G0 : forall x, vg x = [] -> (if with_grpc d then vg x else []) = []) by (intros x E; rewrite E; destruct (with_grpc d); reflexivity).
      all: assert (N0 : forall x, vn x = [] -> (if with_nats d then vn x else []) = []) by (intros x E; rewrite E; destruct (with_nats d); reflexivity).
      all: rewrite ?(N0 Imports), ?(N0 EField), ?(N0 EMethod), ?(N0 GField), ?(N0 GMethod), ?(G0 Imports), ?(G0 EField), ?(G0 EMethod), ?(G0 NField) by reflexivity; rewrite ?app_nil_r; reflexivity.
    - intros x Hx. unfold decs, encs, glue in Hx. repeat first [rewrite app_nil_r | rewrite app_nil_l]. rewrite !in_app_iff in *. tauto.
  Qed.
  Lemma whole : exists ds, declarations (concat (baron_pieces format_source d)) = Some ds /\ (forall q, flat_map (ask package_name q) ds = view q) /\ incl (decs ++ encs ++ glue) ds.
  Proof.
    destruct s_all as (L & ds & A & P & V & I). exists (map plain ds). split; [|split; [exact V|exact I]]. unfold declarations, tokens. specialize (A []). cbn [app] in A.
    assert (E : lex (concat (baron_pieces format_source d)) = L) by (rewrite <- DecoderTexts.lex_newline; exact A). rewrite E. apply parts_iff in P. destruct P as [-> F].
    destruct (plain_ended ds F) as [-> _]. apply parts_iff. split; [reflexivity|]. apply Forall_map. eapply Forall_impl; [|exact F]. intros x Hx. apply decl_plain. exact Hx.
  Qed.
End File.
