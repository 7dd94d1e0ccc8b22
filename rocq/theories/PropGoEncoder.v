(** C81: the text of a generated request encoder, read as Go, does what the model of request encoders says.
    The specification of Go is GoLex.v (tokens), GoLang.v (syntax) and GoEncode.v (what the statements do); what a method, its parameters and the path are asked for is at the top of
    DecoderProto.v and EncoderProto.v. *)
From Coq Require Import String.
From Verif Require Import GoStr GoStrProofs GoMap Strs StrsSpec SvcTypes Generator HttpTransport Url GenHttp Render TextSpec PropText GoLex GoLang GoEncode DecoderProg EncoderProg EncoderRun DecoderProto EncoderProto.
From Verif Require WiringProofs PropGenHttp PropRender TextProofs GoLexProofs.
From Verif Require Import Wiring WiringSpec PropWiring PropGoDecoder.

Section C81.
  Variable format_source : str -> option str.
  Variables (d : tdata) (s : str).
  Hypothesis rendered : render_asset format_source BaronPath d = Some s.
  (** A method with these bindings in the file ... *)
  Variables (hm : hmeth) (b : hbind).
  Hypothesis Hm : In hm (td_helper d).
  Hypothesis Hb : In b (hm_binds hm).
  (** ... the i-th of which was made from this definition *)
  Variables (ms : list message) (i : nat) (m : smethod) (sb : sbinding).
  Hypothesis Hsb : nth_error (sm_bindings m) i = Some sb.
  Hypothesis made : new_binding ms i m = Ret b.
  Hypothesis HP : Forall (param_ok ms (sm_name m)) (sb_params sb).
  Hypothesis Hpath : Forall (part_ok (sb_params sb)) (split1 c_slash (sb_path sb)).
  Hypothesis HL : exported_ident (hb_label b).
  Hypothesis HR : exported_ident (go_camel_case (hm_req hm)).
  Definition encoder_name : str := T "EncodeHTTP" ++ hb_label b ++ T "Request".
  Lemma the_text : holds s (text_of b (go_camel_case (hm_req hm))) /\ tokens (text_of b (go_camel_case (hm_req hm))) = plain (encoder_toks encoder_name (encoder_prog (go_camel_case (hm_req hm)) b)).
  Proof.
    split; [exact (c78_encoder format_source d s rendered hm b Hm Hb)|].
    rewrite (encoder_tokens ms i m sb b Hsb made HP Hpath (go_camel_case (hm_req hm))); [|apply WiringProofs.exported_is_ident; exact HL|apply WiringProofs.exported_is_ident; exact HR].
    cbn [concat]. rewrite app_nil_r. reflexivity.
  Qed.

  (** If every option of a oneof in the query is a scalar: the file has a function EncodeHTTP..Request; its tokens are those of a Go function, and called with a request for any path [base] and
      any message of this type, it makes the path, the query and the body that [encode_request] says and sets two headers, and fails exactly if [encode_request] does.
      (Without a body if the verb is get.  [pj_enc]: protojson.Marshal sees only the fields of the message.) *)
  Theorem c81_encoder : (forall o p, In (o, p) (oneof_params sb) -> scalar_option (fd_type o)) -> exists text prog,
    holds s text /\ tokens text = plain (encoder_toks encoder_name prog) /\
    forall K S base r, st_name S = go_camel_case (hm_req hm) -> struct_of (sb_params sb) S -> typed (sb_params sb) r -> (forall r1 r2 : request, (forall x, r1 x = r2 x) -> pj_enc K r1 = pj_enc K r2) ->
      call K S base r prog = Some (match encode_request K b r with
        | Some h => Sends (mkOut (rq_path h) (rq_query h) (if str_eqb (hb_verb b) (T "get") then None else Some (rq_body h)) [(T "transport", T "HTTPJSON"); (T "request-url", base)])
        | None => Fails
        end).
  Proof.
    intro Hscalar. exists (text_of b (go_camel_case (hm_req hm))), (encoder_prog (go_camel_case (hm_req hm)) b). destruct the_text as [T1 T2]. split; [exact T1|]. split; [exact T2|].
    intros K S base r HN HS Ht Hpj. rewrite <- HN. exact (encoder_runs ms i m sb b Hsb made HP Hpath K S base r Hpj HS Ht Hscalar).
  Qed.
  (** But if an option in the query is an enum or a message, the function compares it with nil or 0, which Go rejects: no call of it sends a request. *)
  Theorem c81_other_option : (forall o p, In (o, p) (oneof_params sb) -> scalar_option (fd_type o) \/ other_option (fd_type o)) ->
    (exists o p, In (o, p) (oneof_params sb) /\ other_option (fd_type o)) -> exists text prog,
    holds s text /\ tokens text = plain (encoder_toks encoder_name prog) /\
    forall K S base r, st_name S = go_camel_case (hm_req hm) -> struct_of (sb_params sb) S -> typed (sb_params sb) r ->
      call K S base r prog = None \/ call K S base r prog = Some Fails.
  Proof.
    intros Hall Hex. exists (text_of b (go_camel_case (hm_req hm))), (encoder_prog (go_camel_case (hm_req hm)) b). destruct the_text as [T1 T2]. split; [exact T1|]. split; [exact T2|].
    intros K S base r HN HS Ht. rewrite <- HN. exact (encoder_stuck ms i m sb b Hsb made HP Hpath K S base r HS Ht Hall Hex).
  Qed.
End C81.
Print Assumptions c81_encoder.
Print Assumptions c81_other_option.

(** ** A case: POST /v1/{id}/{kind} with an int64 and an enum in the path, a repeated string and a oneof of a string and an int64 in the query, and a string in the body. *)
Definition post_ps : list hparam :=
    [mkParam (mkFld (T "Id") (T "id") (sc (T "int64"))) (T "path"); mkParam (mkFld (T "Kind") (T "kind") (case_enum_of (T "Kind"))) (T "path");
     mkParam (mkFld (T "Tags") (T "tags") (mkFT (T "string") None None None None false true)) (T "query");
     oneof_of (T "Choice") (T "choice") [mkFld (T "A") (T "a") (mkFT (T "string") None None (Some (MSynth (T "Req_A"))) None false false);
                                         mkFld (T "N") (T "n") (mkFT (T "int64") None None (Some (MSynth (T "Req_N"))) None false false)];
     mkParam (mkFld (T "Note") (T "note") (sc (T "string"))) (T "body")].
Definition post_sb : sbinding := mkSBind (T "post") (T "/v1/{id}/{kind}") post_ps.
Definition post_m : smethod := rpc (T "PutItem") (T "post") (T "/v1/{id}/{kind}") post_ps.
Definition post_b : hbind := match new_binding [] 0 post_m with Ret b => b | _ => mkHBind [] [] [] [] [] [] end.
Definition post_hm : hmeth := mkHMeth (T "PutItem") (T "Req") (T "Resp") [post_b].
Definition post_struct : struct := mkStruct (T "Req")
  (fun x => if str_eqb x (T "Id") then Some (TyName (T "int64")) else if str_eqb x (T "Kind") then Some (TyName (T "Kind")) else if str_eqb x (T "Tags") then Some (TySlice (TyName (T "string"))) else if str_eqb x (T "Note") then Some (TyName (T "string")) else None)
  (fun x => if str_eqb x (T "A") then Some (T "Choice", TyName (T "string")) else if str_eqb x (T "N") then Some (T "Choice", TyName (T "int64")) else if str_eqb x (T "B") then Some (T "Choice", TyName (T "Kind")) else None).
Definition post_msg : request := fun x => if str_eqb x (T "Id") then VZ 7 else if str_eqb x (T "Kind") then VZ 2 else if str_eqb x (T "Tags") then GenHttp.VList [VS (T "x"); VS (T "y z")] else if str_eqb x (T "Choice") then VOneof (Some (T "N", VZ (-3))) else VS (T "note").
Section Tools.
  Lemma upper_name s : match s with c :: s' => is_upper c && forallb (fun d => is_alnum d || N.eqb d c_underscore) s' | [] => false end = true -> exported_ident s.
  Proof.
    destruct s as [|c s]; intro H; [discriminate|]. apply andb_prop in H. destruct H as [H1 H2]. split; [exact H1|]. rewrite forallb_forall in H2. apply Forall_forall. intros d Hd. specialize (H2 d Hd).
    apply Bool.orb_true_iff in H2. rewrite N.eqb_eq in H2. exact H2.
  Qed.
  Lemma safe_dec s : forallb (fun c => negb (N.eqb c 10) && negb (N.eqb c c_dquote) && negb (N.eqb c c_backslash)) s = true -> GoLexProofs.safe s.
  Proof.
    intros H c Hc. rewrite forallb_forall in H. specialize (H c Hc). apply andb_prop in H. destruct H as [H H3]. apply andb_prop in H. destruct H as [H1 H2].
    apply Bool.negb_true_iff, N.eqb_neq in H1. apply Bool.negb_true_iff, N.eqb_neq in H2. apply Bool.negb_true_iff, N.eqb_neq in H3. auto.
  Qed.
  Lemma base_dec g : existsb (str_eqb g) go_base_types = true -> In g go_base_types.
  Proof. intro H. apply existsb_exists in H. destruct H as (w & I & E). apply str_eqb_eq in E. subst w. exact I. Qed.
  Lemma name_dec n : match n with c :: s' => is_upper c && forallb (fun d => is_alnum d || N.eqb d c_underscore) s' | [] => false end = true -> go_camel_case n = n -> go_name n.
  Proof. intros H1 H2. split; [apply upper_name; exact H1|exact H2]. Qed.
  Lemma visible_dec meth n : match n with c :: s' => is_upper c && forallb (fun d => is_alnum d || N.eqb d c_underscore) s' | [] => false end = true ->
    forallb (fun s => negb (WiringProofs.compat (rev n) (rev s))) [go_camel_case meth; T "Str"; T "StrArr"; T "OK"; T "CountSet"] = true -> visible_type meth n.
  Proof.
    intros H1 H2. split; [apply upper_name; exact H1|]. intros y s Hs K. rewrite forallb_forall in H2. specialize (H2 s Hs). apply Bool.negb_true_iff in H2.
    assert (C : WiringProofs.compat (rev n) (rev s) = true) by (apply (WiringProofs.same_suffix _ _ [] y); exact K). congruence.
  Qed.
End Tools.
Ltac part := solve [apply name_dec; reflexivity | apply safe_dec; reflexivity | apply base_dec; reflexivity | apply upper_name; reflexivity].
Lemma post_params : Forall (param_ok [] (T "PutItem")) post_ps.
Proof.
  repeat apply Forall_cons; try apply Forall_nil.
  - split; [part|]. split; [part|]. split; [left; reflexivity|]. intros _. split; [part|discriminate].
  - split; [part|]. split; [part|]. split; [left; reflexivity|]. intros _. apply visible_dec; reflexivity.
  - split; [part|]. split; [part|]. split; [right; left; reflexivity|]. intros _. split; [part|reflexivity].
  - split; [part|]. repeat apply Forall_cons; try apply Forall_nil.
    + split; [part|]. split; [part|]. split; [reflexivity|]. split; [reflexivity|]. split; [exists (MSynth (T "Req_A")); split; [reflexivity|part]|]. left. split; [part|reflexivity].
    + split; [part|]. split; [part|]. split; [reflexivity|]. split; [reflexivity|]. split; [exists (MSynth (T "Req_N")); split; [reflexivity|part]|]. left. split; [part|reflexivity].
  - split; [part|]. split; [part|]. split; [right; right; left; reflexivity|]. intros _. split; [part|discriminate].
Qed.
Lemma post_path ps : In (nth 0 post_ps (mkParam (mkFld [] [] (sc [])) [])) ps -> In (nth 1 post_ps (mkParam (mkFld [] [] (sc [])) [])) ps -> Forall (part_ok ps) (split1 c_slash (T "/v1/{id}/{kind}")).
Proof.
  intros H1 H2. change (split1 c_slash (T "/v1/{id}/{kind}")) with [[]; T "v1"; T "{id}"; T "{kind}"]. repeat apply Forall_cons; try apply Forall_nil.
  - apply safe_dec. reflexivity.
  - apply safe_dec. reflexivity.
  - exists (nth 0 post_ps (mkParam (mkFld [] [] (sc [])) [])). split; [exact H1|]. split; [reflexivity|]. split; [discriminate|reflexivity].
  - exists (nth 1 post_ps (mkParam (mkFld [] [] (sc [])) [])). split; [exact H2|]. split; [reflexivity|]. split; [discriminate|reflexivity].
Qed.
Lemma case_encoder : exists s text prog,
  render_asset (fun _ => None) BaronPath (PropRender.ex_td [post_hm]) = Some s /\
  holds s text /\ tokens text = plain (encoder_toks (T "EncodeHTTPPutItemZeroRequest") prog) /\
  call PropGenHttp.K0 post_struct (T "/base") post_msg prog =
    Some (Sends (mkOut (T "/v1/7/2") (T "n=-3&tags=x&tags=y+z") (pj_enc PropGenHttp.K0 post_msg) [(T "transport", T "HTTPJSON"); (T "request-url", T "/base")])).
Proof.
  assert (E : new_binding [] 0 post_m = Ret post_b) by (vm_compute; reflexivity). eexists.
  destruct (c81_encoder (fun _ => None) (PropRender.ex_td [post_hm]) _ (TextProofs.baron_is _ _) post_hm post_b (or_introl eq_refl) (or_introl eq_refl) [] 0 post_m post_sb eq_refl E post_params)
    as (text & prog & H1 & H2 & H3); try (apply upper_name; reflexivity).
  - apply post_path; cbn; auto.
  - intros o p H. cbn in H. repeat destruct H as [H|H]; try contradiction; (injection H as <- <-; split; [reflexivity|apply base_dec; reflexivity]).
  - exists text, prog. split; [apply TextProofs.baron_is|]. split; [exact H1|]. split; [exact H2|]. rewrite H3; [vm_compute; reflexivity|reflexivity| | |].
    + repeat apply Forall_cons; try apply Forall_nil; try (intros _); reflexivity.
    + intros p os o g H1' _ H2' H3' H4'. cbn in H1'. repeat destruct H1' as [<-|H1']; try contradiction; cbn in H2'; try discriminate. injection H2' as <-. cbn in H3'. repeat destruct H3' as [<-|H3']; try contradiction.
      * vm_compute in H4'. discriminate.
      * vm_compute in H4'. injection H4' as <-. exists (-3)%Z. reflexivity.
    + intros r1 r2 H. reflexivity.
Qed.
(** With the enum option of PropGoDecoder.case_ps, the text is no Go. *)
Lemma case_enum_option : exists s text prog,
  render_asset (fun _ => None) BaronPath (PropRender.ex_td [case_hm]) = Some s /\ holds s text /\ tokens text = plain (encoder_toks (T "EncodeHTTPGetItemZeroRequest") prog) /\
  call PropGenHttp.K0 post_struct (T "/base") post_msg prog = None.
Proof.
  assert (E : new_binding [] 0 case_m = Ret case_b) by (vm_compute; reflexivity). eexists. exists (text_of case_b (T "Req")), (encoder_prog (T "Req") case_b).
  split; [apply TextProofs.baron_is|]. destruct (the_text (fun _ => None) (PropRender.ex_td [case_hm]) _ (TextProofs.baron_is _ _) case_hm case_b (or_introl eq_refl) (or_introl eq_refl) [] 0 case_m case_sb eq_refl E) as [T1 T2]; try (apply upper_name; reflexivity).
  - repeat apply Forall_cons; try apply Forall_nil.
    + split; [part|]. split; [part|]. split; [left; reflexivity|]. intros _. split; [part|discriminate].
    + split; [part|]. split; [part|]. split; [left; reflexivity|]. intros _. apply visible_dec; reflexivity.
    + split; [part|]. split; [part|]. split; [right; left; reflexivity|]. intros _. split; [part|reflexivity].
    + split; [part|]. repeat apply Forall_cons; try apply Forall_nil.
      * split; [part|]. split; [part|]. split; [reflexivity|]. split; [reflexivity|]. split; [exists (MSynth (T "Req_A")); split; [reflexivity|part]|]. left. split; [part|reflexivity].
      * split; [part|]. split; [part|]. split; [reflexivity|]. split; [reflexivity|]. split; [exists (MSynth (T "Req_B")); split; [reflexivity|part]|]. split; [apply visible_dec; reflexivity|reflexivity].
  - apply post_path; cbn; auto.
  - split; [exact T1|]. split; [exact T2|]. vm_compute. reflexivity.
Qed.
