(** C82: the texts of a generated encoder and decoder, read as Go, carry a request (C80, C81 with C29, C30). *)
From Coq Require Import String.
From Verif Require Import GoStr GoStrProofs GoMap Strs StrsSpec SvcTypes Generator HttpSpec HttpTypes HttpTransport Url GenHttp GenHttpSpec PropGenHttp Render TextSpec PropText GoLex GoLang GoEncode DecoderProg EncoderProg EncoderRun DecoderProto EncoderProto.
From Verif Require UrlProofs WiringProofs PropRender TextProofs GoLexProofs.
From Verif Require Import DecoderTexts Wiring WiringSpec PropWiring PropGoDecoder PropGoEncoder.

(** What is carried is typed, and its options are scalars. *)
Lemma scalar_typed K n g : scalar_val K n g -> has_type (TyName n) g.
Proof. intro H. destruct H; cbn [has_type]; eexists; reflexivity. Qed.
Section Carried.
  Variables (K : codecs) (ts : list tpart) (req : request) (ms : list message) (meth : str) (sb : sbinding).
  Hypothesis HP : Forall (param_ok ms meth) (sb_params sb).
  Hypothesis HC : Forall (fun p => carried K ts req p \/ pm_loc p = T "body") (sb_params sb).
  Lemma carried_oneof p os : In p (sb_params sb) -> pm_loc p = T "query" -> ft_oneof (fd_type (pm_field p)) = Some os ->
    NoDup (map fd_name os) /\ Forall (fun o => GenHttpSpec.scalar_option o /\ UrlProofs.bytes (fd_pbname o)) os /\ oneof_value K os (req (fd_name (pm_field p))).
  Proof.
    intros I L E. rewrite Forall_forall in HC, HP. destruct (HC p I) as [C|C]; [|rewrite C in L; discriminate]. destruct (HP p I) as [[_ N] _]. unfold camel_of in *.
    destruct C as [_ V|_ V|os' _ E' D S V].
    - inversion V as [n v _ _ Ef|n j z _ Ef]; rewrite <- Ef in E; discriminate.
    - inversion V as [n v _ Ef|n _ Ef|n v _ _ Ef|n j z _ Ef|n l _ _ _ Ef|n j v _ _ Ef|n r v _ _ Ef|n r l _ _ Ef|n v _ _ Ef]; rewrite <- Ef in E; discriminate.
    - rewrite E in E'. injection E' as <-. unfold camel_of in V. rewrite N in V. auto.
  Qed.
  Lemma carried_scalar o p : In (o, p) (oneof_params sb) -> EncoderProto.scalar_option (fd_type o).
  Proof.
    intro H. unfold oneof_params in H. apply in_flat_map in H. destruct H as (p' & I & H). apply filter_In in I. destruct I as [I L]. apply str_eqb_eq in L. destruct (ft_oneof (fd_type (pm_field p'))) as [os|] eqn:E; [|destruct H].
    apply in_map_iff in H. destruct H as (o' & Eo & J). injection Eo as -> ->. destruct (carried_oneof p os I L E) as (_ & S & _). rewrite Forall_forall in S. destruct (S o J) as [(n & r & st & Ef & Sn) _]. rewrite Ef. split; [reflexivity|exact Sn].
  Qed.
  Lemma unique_name {A} (f : A -> str) l x y : NoDup (map f l) -> In x l -> In y l -> f x = f y -> x = y.
  Proof.
    induction l as [|a l IH]; [intros _ []|]. cbn [map]. intros D [->|I] [->|J] E; try reflexivity; inversion D as [|? ? Na D']; subst.
    - exfalso. apply Na. rewrite E. apply in_map. exact J.
    - exfalso. apply Na. rewrite <- E. apply in_map. exact I.
    - exact (IH D' I J E).
  Qed.
  Lemma carried_typed : typed (sb_params sb) req.
  Proof.
    intros p os o g I L E J V. destruct (carried_oneof p os I L E) as (D & S & OV). rewrite V in OV. inversion OV as [|o' v J' Sv _ En]. subst v. assert (o' = o) by (apply (unique_name fd_name os); assumption). subst o'.
    rewrite Forall_forall in S. destruct (S o J) as [(n & r & st & Ef & Sn) _]. rewrite Forall_forall in HP. destruct (HP p I) as [_ P]. rewrite E, Forall_forall in P. destruct (P o J) as (_ & _ & O). destruct O as (_ & _ & _ & O). rewrite Ef in *. cbn [ft_enum ft_name ft_star] in *.
    unfold go_ty. cbn [ft_star ft_name ft_array]. destruct O as [[_ ->]|[O _]]; [exact (scalar_typed K n g Sv)|]. exfalso. apply exported_cap, cap_not_base in O. destruct O as [O _]. exact (O Sn).
  Qed.
End Carried.

Section C82.
  Variable format_source : str -> option str.
  Variables (d : tdata) (s : str).
  Hypothesis rendered : render_asset format_source BaronPath d = Some s.
  Variables (hm : hmeth) (b : hbind).
  Hypothesis Hm : In hm (td_helper d).
  Hypothesis Hb : In b (hm_binds hm).
  Variables (ms : list message) (i : nat) (m : smethod) (sb : sbinding).
  Hypothesis Hsb : nth_error (sm_bindings m) i = Some sb.
  Hypothesis made : new_binding ms i m = Ret b.
  (** The hypotheses of C80 and C81 ... *)
  Hypothesis HM : exported_ident (go_camel_case (sm_name m)).
  Hypothesis HQ : quiet (go_camel_case (sm_name m)).
  Hypothesis HP : Forall (param_ok ms (sm_name m)) (sb_params sb).
  Hypothesis N1 : NoDup (path_names (sb_params sb) ++ PropWiring.query_options (sb_params sb)).
  Hypothesis N2 : NoDup (oneof_names (sb_params sb)).
  Hypothesis Hpath : Forall (part_ok (sb_params sb)) (split1 c_slash (sb_path sb)).
  Hypothesis HL : exported_ident (hb_label b).
  Hypothesis HR : exported_ident (go_camel_case (hm_req hm)).
  Hypothesis lays_f : forall f t, In f (hb_fields b) -> field_text f = Some t -> lays_out format_source t.
  Hypothesis lays_o : forall o t, In o (hb_oneofs b) -> oneof_text o = Some t -> lays_out format_source t.
  (** ... and a path that C29 and C30 ask for *)
  Variable ts : list tpart.
  Hypothesis Hfits : fits ts sb.
  Hypothesis Hscalar : forall o p, In (o, p) (oneof_params sb) -> EncoderProto.scalar_option (fd_type o).
  Notation Req := (go_camel_case (hm_req hm)).

  (** In the generated file there are a function EncodeHTTP..Request and a function DecodeHTTP..Request, such that: what the first puts into a request for a message whose
      values the transport carries, is a request that the route of the binding matches, and from which the second makes the same message, without an error. *)
  Theorem c82_round_trip : exists etext enc dtext dec,
    holds s etext /\ tokens etext = plain (encoder_toks (T "EncodeHTTP" ++ hb_label b ++ T "Request") enc) /\
    holds s dtext /\ tokens dtext = plain (decoder_toks (T "DecodeHTTP" ++ hb_label b ++ T "Request") dec) /\
    forall K S base req zero, st_name S = Req -> struct_of (sb_params sb) S -> (forall r1 r2 : request, (forall x, r1 x = r2 x) -> pj_enc K r1 = pj_enc K r2) ->
      (* a GET: without a body *)
      (sb_verb sb = T "get" -> Forall (carried K ts req) (sb_params sb) -> (forall p, In p (sb_params sb) -> unsent (req (camel_of p)) -> zero (camel_of p) = req (camel_of p)) ->
       exists o vars r, GoEncode.call K S base req enc = Some (Sends o) /\ out_body o = None /\ mux_match (sb_path sb) (out_path o) = Some vars /\
         GoLang.call K zero Req vars (parse_query (out_query o)) (Some []) dec = Some (DOk r false) /\ forall p, In p (sb_params sb) -> r (camel_of p) = req (camel_of p)) /\
      (* any other verb *)
      (sb_verb sb <> T "get" -> Forall (fun p => carried K ts req p \/ pm_loc p = T "body") (sb_params sb) ->
       forall data r0, pj_enc K req = Some data -> data <> [] -> pj_dec K data = Some r0 -> (forall x, r0 x = req x) ->
       exists o vars r, GoEncode.call K S base req enc = Some (Sends o) /\ mux_match (sb_path sb) (out_path o) = Some vars /\
         GoLang.call K zero Req vars (parse_query (out_query o)) (out_body o) dec = Some (DOk r false) /\ forall x, r x = req x).
  Proof.
    destruct (c81_encoder format_source d s rendered hm b Hm Hb ms i m sb Hsb made HP Hpath HL HR Hscalar) as (et & enc & E1 & E2 & E3).
    destruct (c80_decoder format_source d s rendered hm b Hm Hb ms i m sb Hsb made HM HQ HP N1 N2 HL HR lays_f lays_o) as (dt & dec & D1 & D2 & D3).
    exists et, enc, dt, dec. split; [exact E1|]. split; [exact E2|]. split; [exact D1|]. split; [exact D2|]. intros K S base req zero HN HS Hpj.
    destruct (made_is ms i m sb b Hsb made) as [Mp Mv]. split.
    - intros Hv Hc Hz. assert (Hc' : Forall (fun p => carried K ts req p \/ pm_loc p = T "body") (sb_params sb)) by (eapply Forall_impl; [|exact Hc]; auto).
      destruct (c29_get_round_trip K ms i m sb b ts req zero Hsb made Hv Hfits Hc Hz) as (h & vars & r & R1 & R2 & R3 & R4 & R5 & R6 & R7).
      pose proof (E3 K S base req HN HS (carried_typed K ts req ms (sm_name m) sb HP Hc') Hpj) as E. rewrite R1 in E. eexists. exists vars, r. split; [exact E|]. cbn [out_body out_path out_query].
      rewrite Mv, Hv. split; [reflexivity|]. rewrite <- Mp. split; [exact R4|]. split; [|exact R6]. destruct (D3 K zero vars h) as [D _]. rewrite R3, R5 in D. exact D.
    - intros Hv Hc data r0 P1 P2 P3 P4.
      destruct (c30_body_round_trip K ms i m sb b ts req data r0 zero Hsb made Hv Hfits Hc P1 P2 P3 P4) as (h & vars & r & R1 & R2 & R3 & R4 & R5 & R6).
      pose proof (E3 K S base req HN HS (carried_typed K ts req ms (sm_name m) sb HP Hc) Hpj) as E. rewrite R1 in E. eexists. exists vars, r. split; [exact E|]. cbn [out_body out_path out_query].
      rewrite Mv. apply str_eqb_neq in Hv. rewrite Hv. rewrite <- Mp. split; [exact R4|]. split; [|exact R6]. destruct (D3 K zero vars h) as [D _]. rewrite R5 in D. exact D.
  Qed.
End C82.
Print Assumptions c82_round_trip.

(** ** The case of PropGoEncoder: POST /v1/{id}/{kind} *)
Definition post_K : codecs := mkCodecs (fl_text K0) (fl_parse K0) (other_text K0) (js_enc K0) (js_dec K0) (js_str K0) (js_junk K0) (empty_msg K0) (fun _ => Some (T "{}")) (fun _ => Some post_msg).
Definition post_ts : list tpart := [TLit (T "v1"); TVar (T "id"); TVar (T "kind")].
Lemma post_fits : fits post_ts post_sb.
Proof.
  constructor.
  - reflexivity.
  - split; [discriminate|]. exists post_ts. split; [|left; reflexivity].
    apply Forall_cons; [split; [apply ex_safe; [discriminate|discriminate|discriminate|reflexivity]|apply ex_plain; reflexivity]|].
    apply Forall_cons; [split; [discriminate|]; split; [apply ex_plain; reflexivity|]; intros [H|[H|[]]]; discriminate|].
    apply Forall_cons; [split; [discriminate|]; split; [apply ex_plain; reflexivity|]; intros [H|[H|[H|[H|[]]]]]; discriminate|]. apply Forall_nil.
  - apply PropGenHttp.nodup_dec. reflexivity.
  - intros n [<-|[<-|[]]]; eexists; (split; [|split]); [left; reflexivity|reflexivity|reflexivity|right; left; reflexivity|reflexivity|reflexivity].
  - apply PropGenHttp.nodup_dec. reflexivity.
  - apply PropGenHttp.nodup_dec. reflexivity.
Qed.
Lemma post_carried : Forall (fun p => carried post_K post_ts post_msg p \/ pm_loc p = T "body") post_ps.
Proof.
  repeat apply Forall_cons; try apply Forall_nil.
  - left. apply CarriedPath; [reflexivity| |discriminate|right; left; reflexivity|reflexivity]. apply PvScalar; [apply (SvI64 _ 7); split; [discriminate|reflexivity]|]. apply ex_safe; [discriminate|discriminate|discriminate|reflexivity].
  - left. apply CarriedPath; [reflexivity| |discriminate|right; right; left; reflexivity|reflexivity]. apply (PvEnum _ _ _ 2). split; [discriminate|reflexivity].
  - left. apply CarriedQuery; [reflexivity| |discriminate|texts]. apply (QScalars _ (T "string") [VS (T "x"); VS (T "y z")]).
    + unfold scalar_name, go_base_types. cbn [In]. auto 10.
    + apply Forall_cons; [apply SvStr; texts|]. apply Forall_cons; [apply SvStr; texts|apply Forall_nil].
    + intros v E. discriminate.
  - left. eapply CarriedOneof; [reflexivity|reflexivity|apply PropGenHttp.nodup_dec; reflexivity| |].
    + apply Forall_cons; [split; [eexists; eexists; eexists; split; [reflexivity|unfold scalar_name, go_base_types; cbn [In]; auto 10]|texts]|].
      apply Forall_cons; [split; [eexists; eexists; eexists; split; [reflexivity|unfold scalar_name, go_base_types; cbn [In]; auto 10]|texts]|apply Forall_nil].
    + change (post_msg (camel_of _)) with (VOneof (Some (fd_name (mkFld (T "N") (T "n") (mkFT (T "int64") None None (Some (MSynth (T "Req_N"))) None false false)), VZ (-3)))).
      apply OvSome; [right; left; reflexivity|apply SvI64; split; [discriminate|reflexivity]|discriminate].
  - right. reflexivity.
Qed.
Lemma post_quiet : quiet (go_camel_case (T "PutItem")).
Proof.
  intros s Hs (x & E). assert (C : WiringProofs.compat (rev (T "PutItem")) (rev s) = true).
  { destruct E as [E|E]; [apply (WiringProofs.same_suffix _ _ [] x)|apply (WiringProofs.same_suffix _ _ x [])]; [exact E|symmetry; exact E]. }
  cbn [In] in Hs. repeat (destruct Hs as [<-|Hs]; [discriminate|]). destruct Hs.
Qed.
Lemma case_round_trip : exists s etext enc dtext dec,
  render_asset (fun _ => None) BaronPath (PropRender.ex_td [post_hm]) = Some s /\
  holds s etext /\ tokens etext = plain (encoder_toks (T "EncodeHTTPPutItemZeroRequest") enc) /\
  holds s dtext /\ tokens dtext = plain (decoder_toks (T "DecodeHTTPPutItemZeroRequest") dec) /\
  exists o vars r, GoEncode.call post_K post_struct (T "/base") post_msg enc = Some (Sends o) /\ mux_match (T "/v1/{id}/{kind}") (out_path o) = Some vars /\
    GoLang.call post_K case_zero (T "Req") vars (parse_query (out_query o)) (out_body o) dec = Some (DOk r false) /\ forall x, r x = post_msg x.
Proof.
  assert (E : new_binding [] 0 post_m = Ret post_b) by (vm_compute; reflexivity). eexists.
  destruct (c82_round_trip (fun _ => None) (PropRender.ex_td [post_hm]) _ (TextProofs.baron_is _ _) post_hm post_b (or_introl eq_refl) (or_introl eq_refl) [] 0 post_m post_sb eq_refl E (upper_name (T "PutItem") eq_refl) post_quiet post_params)
    with (ts := post_ts) as (et & enc & dt & dec & H1 & H2 & H3 & H4 & H5); try (apply nodup_dec; reflexivity); try (apply upper_name; reflexivity); try (intros; discriminate).
  - apply post_path; cbn; auto.
  - exact post_fits.
  - intros o p H. cbn in H. repeat destruct H as [H|H]; try contradiction; (injection H as <- <-; split; [reflexivity|apply base_dec; reflexivity]).
  - exists et, enc, dt, dec. split; [apply TextProofs.baron_is|]. split; [exact H1|]. split; [exact H2|]. split; [exact H3|]. split; [exact H4|].
    destruct (H5 post_K post_struct (T "/base") post_msg case_zero) as [_ H6]; [reflexivity| |reflexivity|].
    + repeat apply Forall_cons; try apply Forall_nil; try (intros _); reflexivity.
    + exact (H6 ltac:(discriminate) post_carried (T "{}") post_msg eq_refl ltac:(discriminate) eq_refl (fun x => eq_refl)).
Qed.
