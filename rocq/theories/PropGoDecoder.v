(** C80: the text of a generated request decoder, read as Go, does what the model of request decoders says.
    The specification of Go is GoLex.v (tokens) and GoLang.v (syntax, scopes, values); what a method and its parameters are asked for is at the top of DecoderProto.v. *)
From Coq Require Import String.
From Verif Require Import GoStr GoStrProofs GoMap Strs StrsSpec SvcTypes Generator HttpTransport Url GenHttp Render TextSpec PropText GoLex GoLang DecoderProg DecoderTexts DecoderRun DecoderProto.
From Verif Require TextFile RenderProofs WiringProofs PropGenHttp PropRender TextProofs.
From Verif Require Import Wiring WiringSpec PropWiring.

Section C80.
  Variable format_source : str -> option str.
  Variables (d : tdata) (s : str).
  Hypothesis rendered : render_asset format_source BaronPath d = Some s.
  (** A method with these bindings in the file ... *)
  Variables (hm : hmeth) (b : hbind).
  Hypothesis Hm : In hm (td_helper d).
  Hypothesis Hb : In b (hm_binds hm).
  (** ... the i-th of which was made from this definition *)
  Variables (ms : list message) (i : nat) (m : smethod) (sb : sbinding).
  Hypothesis Hsb : nth_error (sm_bindings m) i = Some sb.
  Hypothesis made : new_binding ms i m = Ret b.
  Hypothesis HM : exported_ident (go_camel_case (sm_name m)).
  Hypothesis HQ : quiet (go_camel_case (sm_name m)).
  Hypothesis HP : Forall (param_ok ms (sm_name m)) (sb_params sb).
  Hypothesis N1 : NoDup (path_names (sb_params sb) ++ query_options (sb_params sb)).
  Hypothesis N2 : NoDup (oneof_names (sb_params sb)).
  Hypothesis HL : exported_ident (hb_label b).
  Hypothesis HR : exported_ident (go_camel_case (hm_req hm)).
  (** go/format changes the layout of the code of parameters only. *)
  Hypothesis lays_f : forall f t, In f (hb_fields b) -> field_text f = Some t -> lays_out format_source t.
  Hypothesis lays_o : forall o t, In o (hb_oneofs b) -> oneof_text o = Some t -> lays_out format_source t.

  (** The file has a function DecodeHTTP..Request; its tokens are those of a Go function, and called with any request whose body can be read, it gives the request
      message and the error that [decode_request] says (and the compiler rejects it if that is [DBroken]); if the body cannot be read, it gives an error. *)
  Theorem c80_decoder : exists text prog,
    holds s text /\ tokens text = plain (decoder_toks (T "DecodeHTTP" ++ hb_label b ++ T "Request") prog) /\
    forall K zero vars h,
      call K zero (go_camel_case (hm_req hm)) vars (parse_query (rq_query h)) (Some (rq_body h)) prog = Some (decode_request K zero b vars h) /\
      call K zero (go_camel_case (hm_req hm)) vars (parse_query (rq_query h)) None prog = Some DErr.
  Proof.
    eexists. exists (decoder_prog (go_camel_case (hm_req hm)) b). split; [|split].
    - eapply (c78_decoder format_source d s rendered hm b (TextFile.field_code format_source) (TextFile.oneof_code format_source) Hm Hb).
      + intro f. unfold TextFile.field_code. destruct (RenderProofs.field_unmarshaler_made format_source f) as [x E]. rewrite E. reflexivity.
      + intro o. unfold TextFile.oneof_code. destruct (RenderProofs.oneof_unmarshaler_made format_source o) as [x E]. rewrite E. reflexivity.
    - rewrite (binding_text ms i m sb b Hsb made HM HP format_source lays_f lays_o (go_camel_case (hm_req hm))); [|apply WiringProofs.exported_is_ident; exact HL|apply WiringProofs.exported_is_ident; exact HR].
      cbn [concat]. rewrite app_nil_r. reflexivity.
    - intros K zero vars h. assert (Hs : str_eqb (go_camel_case (hm_req hm)) (T "string") = false) by (apply cap_neq; [apply exported_cap; exact HR|reflexivity]).
      pose proof (fun body => run_binding ms i m sb b Hsb made HM HQ HP N1 N2 K zero (go_camel_case (hm_req hm)) vars (parse_query (rq_query h)) body (query_some (rq_query h)) Hs) as R.
      split; [|rewrite (R None); reflexivity]. rewrite (R (Some (rq_body h))). unfold decode_request. destruct (rq_body h) as [|c bs]; [reflexivity|]. destruct (pj_dec K (c :: bs)); reflexivity.
  Qed.
End C80.
Print Assumptions c80_decoder.

(** ** A case: GET /v1/{id}/{kind} with an int64 and an enum in the path, a repeated string, and a oneof of a string and an enum in the query. *)
Definition case_enum_of (n : str) : ftype := mkFT n (Some 0%nat) None None None false false.
Definition case_ps : list hparam :=
    [mkParam (mkFld (T "Id") (T "id") (sc (T "int64"))) (T "path"); mkParam (mkFld (T "Kind") (T "kind") (case_enum_of (T "Kind"))) (T "path");
     mkParam (mkFld (T "Tags") (T "tags") (mkFT (T "string") None None None None false true)) (T "query");
     oneof_of (T "Choice") (T "choice") [mkFld (T "A") (T "a") (mkFT (T "string") None None (Some (MSynth (T "Req_A"))) None false false);
                                         mkFld (T "B") (T "b") (mkFT (T "Kind") (Some 0%nat) None (Some (MSynth (T "Req_B"))) None false false)]].
Definition case_sb : sbinding := mkSBind (T "get") (T "/v1/{id}/{kind}") case_ps.
Definition case_m : smethod := rpc (T "GetItem") (T "get") (T "/v1/{id}/{kind}") case_ps.
Definition case_b : hbind := match new_binding [] 0 case_m with Ret b => b | _ => mkHBind [] [] [] [] [] [] end.
Definition case_hm : hmeth := mkHMeth (T "GetItem") (T "Req") (T "Resp") [case_b].
Definition case_vars : list (str * str) := [(T "id", T "7"); (T "kind", T "2")].
Definition case_h : http_request := mkReq (T "GET") (T "/v1/7/2") (T "tags=x&tags=y&b=3") [].
Definition case_zero : request := fun _ => VNone.
Lemma case_decoder : exists s text prog,
  render_asset (fun _ => None) BaronPath (PropRender.ex_td [case_hm]) = Some s /\
  holds s text /\ tokens text = plain (decoder_toks (T "DecodeHTTPGetItemZeroRequest") prog) /\
  forall K zero vars h,
    call K zero (T "Req") vars (parse_query (rq_query h)) (Some (rq_body h)) prog = Some (decode_request K zero case_b vars h) /\
    call K zero (T "Req") vars (parse_query (rq_query h)) None prog = Some DErr.
Proof.
  assert (X : forall s, match s with c :: s' => is_upper c && forallb (fun d => is_alnum d || N.eqb d c_underscore) s' | [] => false end = true -> exported_ident s).
  { intros [|c s] H; [discriminate|]. apply andb_prop in H. destruct H as [H1 H2]. split; [exact H1|]. rewrite forallb_forall in H2. apply Forall_forall. intros d Hd. specialize (H2 d Hd).
    apply Bool.orb_true_iff in H2. rewrite N.eqb_eq in H2. exact H2. }
  assert (Q : quiet (go_camel_case (T "GetItem"))).
  { intros s Hs (x & E). assert (C : WiringProofs.compat (rev (T "GetItem")) (rev s) = true).
    { destruct E as [E|E]; [apply (WiringProofs.same_suffix _ _ [] x)|apply (WiringProofs.same_suffix _ _ x [])]; [exact E|symmetry; exact E]. }
    cbn [In] in Hs. repeat (destruct Hs as [<-|Hs]; [discriminate|]). destruct Hs. }
  assert (S : forall s, forallb (fun c => negb (N.eqb c 10) && negb (N.eqb c c_dquote) && negb (N.eqb c c_backslash)) s = true -> GoLexProofs.safe s).
  { intros s H c Hc. rewrite forallb_forall in H. specialize (H c Hc). apply andb_prop in H. destruct H as [H H3]. apply andb_prop in H. destruct H as [H1 H2].
    apply Bool.negb_true_iff, N.eqb_neq in H1. apply Bool.negb_true_iff, N.eqb_neq in H2. apply Bool.negb_true_iff, N.eqb_neq in H3. auto. }
  assert (G : forall n, match n with c :: s' => is_upper c && forallb (fun d => is_alnum d || N.eqb d c_underscore) s' | [] => false end = true -> go_camel_case n = n -> go_name n) by (intros n H1 H2; split; [apply X; exact H1|exact H2]).
  assert (V : visible_type (T "GetItem") (T "Kind")).
  { split; [apply X; reflexivity|]. intros y s Hs K. assert (C : WiringProofs.compat (rev (T "Kind")) (rev s) = true) by (apply (WiringProofs.same_suffix _ _ [] y); exact K).
    change (go_camel_case (T "GetItem")) with (T "GetItem") in Hs. cbn [In] in Hs. repeat (destruct Hs as [<-|Hs]; [discriminate|]). destruct Hs. }
  assert (Base : forall g, existsb (str_eqb g) go_base_types = true -> In g go_base_types).
  { intros g H. apply existsb_exists in H. destruct H as (w & I & E). apply str_eqb_eq in E. subst w. exact I. }
  assert (P : Forall (param_ok [] (T "GetItem")) case_ps).
  { repeat apply Forall_cons; try apply Forall_nil.
    - split; [apply G; reflexivity|]. split; [apply S; reflexivity|]. split; [left; reflexivity|]. intros _. split; [apply Base; reflexivity|discriminate].
    - split; [apply G; reflexivity|]. split; [apply S; reflexivity|]. split; [left; reflexivity|]. intros _. exact V.
    - split; [apply G; reflexivity|]. split; [apply S; reflexivity|]. split; [right; left; reflexivity|]. intros _. split; [apply Base; reflexivity|reflexivity].
    - split; [apply G; reflexivity|]. repeat apply Forall_cons; try apply Forall_nil.
      + split; [apply G; reflexivity|]. split; [apply S; reflexivity|]. split; [reflexivity|]. split; [reflexivity|]. split; [exists (MSynth (T "Req_A")); split; [reflexivity|apply X; reflexivity]|]. left. split; [apply Base; reflexivity|reflexivity].
      + split; [apply G; reflexivity|]. split; [apply S; reflexivity|]. split; [reflexivity|]. split; [reflexivity|]. split; [exists (MSynth (T "Req_B")); split; [reflexivity|apply X; reflexivity]|]. split; [exact V|reflexivity]. }
  assert (E : new_binding [] 0 case_m = Ret case_b) by (vm_compute; reflexivity).
  eexists. 
  destruct (c80_decoder (fun _ => None) (PropRender.ex_td [case_hm]) _ (TextProofs.baron_is _ _) case_hm case_b (or_introl eq_refl) (or_introl eq_refl) [] 0 case_m case_sb eq_refl E (X (T "GetItem") eq_refl) Q P)
    as (text & prog & H1 & H2 & H3); try (apply nodup_dec; reflexivity); try (apply X; reflexivity); try (intros; discriminate).
  exists text, prog. split; [apply TextProofs.baron_is|]. split; [exact H1|]. split; [exact H2|exact H3].
Qed.
(** The request GET /v1/7/2?tags=x&tags=y&b=3: every parameter is filled in, without an error. *)
Example case_result : match decode_request PropGenHttp.K0 case_zero case_b case_vars case_h with
  | DOk r false => r (T "Id") = GenHttp.VZ 7 /\ r (T "Kind") = GenHttp.VZ 2 /\ r (T "Tags") = GenHttp.VList [GenHttp.VS (T "x"); GenHttp.VS (T "y")] /\ r (T "Choice") = GenHttp.VOneof (Some (T "B", GenHttp.VZ 3))
  | _ => False
  end.
Proof. vm_compute. repeat split. Qed.
