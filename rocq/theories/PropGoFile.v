(** C84: the declarations of the whole generated file baron/NAME.pb.baron.go, read as Go (GoLex.v, GoDecls.v): the names it puts into the package, its imports,
    the fields and methods of its types, and its request decoders and encoders, whose bodies are the programs of C80 and C81. *)
From Coq Require Import String.
From Verif Require Import GoStr GoStrProofs GoMap Strs StrsSpec SvcTypes Generator HttpTransport Url GenHttp Render TextSpec GoLex GoDecls GoLang DecoderProg EncoderProg EncoderRun DecoderTexts DecoderProto EncoderProto.
From Verif Require GoEncode TextFile TextProofs GoLexProofs GoDeclsProofs WiringProofs DecoderRun FileNest FileText FileHttp FileAll FileGrpc FileNats.
From Verif Require Import Wiring WiringSpec PropWiring.

(** What a definition is asked for.  (gRPC and NATS: no method whose name in lower case is a keyword; with gRPC such a file does not compile, c67_keyword_refuted.) *)
Record file_ok (ms : list message) (d : tdata) : Prop := {
  ok_service : go_name (sv_name (td_service d));
  ok_package : ident (td_package d);
  ok_stamp : GoLexProofs.safe (td_version d) /\ GoLexProofs.safe (td_date d);
  ok_method : forall m, In m (sv_methods (td_service d)) -> go_name (sm_name m) /\ exported_ident (go_camel_case (ft_name (sm_req m))) /\ exported_ident (go_camel_case (ft_name (sm_resp m)));
  ok_lower : TextFile.with_grpc d || TextFile.with_nats d = true -> forall m, In m (sv_methods (td_service d)) -> ~ In (to_lower (sm_name m)) go_keywords;
  ok_binding : forall m sb, In m (sv_methods (td_service d)) -> In sb (sm_bindings m) ->
    GoLexProofs.safe (sb_path sb) /\ GoLexProofs.safe (sb_verb sb) /\ Forall (param_ok ms (sm_name m)) (sb_params sb) /\ Forall (part_ok (sb_params sb)) (split1 c_slash (sb_path sb)) }.
(** The name of an imported package: the last element of its path, except for one *)
Definition package_name (p : str) : str := if str_eqb p (T "github.com/nats-io/nats.go") then T "nats" else last (split1 c_slash p) [].

Lemma safe_map f s : (forall c, f c <> c -> is_alnum (f c) = true) -> GoLexProofs.safe s -> GoLexProofs.safe (map f s).
Proof.
  intros H Hs c Hc. apply in_map_iff in Hc. destruct Hc as (x & <- & Hx). destruct (N.eq_dec (f x) x) as [->|Ne]; [exact (Hs x Hx)|]. specialize (H x Ne).
  repeat split; intro E; rewrite E in H; discriminate.
Qed.
Lemma upper_safe s : GoLexProofs.safe s -> GoLexProofs.safe (to_upper s).
Proof.
  apply safe_map. intros c H. unfold upper1 in *. destruct (is_lower c) eqn:E; [|contradiction]. unfold is_lower, in_range in E. apply andb_prop in E. rewrite !N.leb_le in E.
  unfold is_alnum, is_letter, is_upper, in_range. assert (E1 : N.leb 65 (c - 32) = true) by (apply N.leb_le; lia). assert (E2 : N.leb (c - 32) 90 = true) by (apply N.leb_le; lia). rewrite E1, E2. rewrite !Bool.orb_true_r. reflexivity.
Qed.
Lemma lower_safe s : GoLexProofs.safe s -> GoLexProofs.safe (to_lower s).
Proof.
  apply safe_map. intros c H. unfold lower1 in *. destruct (is_upper c) eqn:E; [|contradiction]. unfold is_upper, in_range in E. apply andb_prop in E. rewrite !N.leb_le in E.
  unfold is_alnum, is_letter, is_lower, in_range. assert (E1 : N.leb 97 (c + 32) = true) by (apply N.leb_le; lia). assert (E2 : N.leb (c + 32) 122 = true) by (apply N.leb_le; lia). rewrite E1, E2. reflexivity.
Qed.
Lemma base_safe s : GoLexProofs.safe s -> GoLexProofs.safe (base_path s).
Proof.
  unfold base_path. induction s as [|c s IH]; intro H; [intros x []|]. cbn [split1]. destruct (N.eqb c c_lbrace); [intros x []|].
  specialize (IH (fun x Hx => H x (or_intror Hx))). destruct (split1 c_lbrace s) as [|w ws]; intros x [<-|Hx]; try (apply H; left; reflexivity); [destruct Hx|exact (IH x Hx)].
Qed.
Lemma made_in ms svc : forall hs hm, new_helper ms svc = Ret hs -> In hm hs -> exists m, In m svc /\ new_method ms m = Ret hm /\ sm_bindings m <> [].
Proof.
  induction svc as [|x svc IH]; intros hs hm H Hi; cbn [new_helper] in H; [injection H as <-; destruct Hi|].
  destruct (sm_bindings x) as [|y ys] eqn:Ex.
  - destruct (IH hs hm H Hi) as (m & H1 & H2). exists m. split; [right; exact H1|exact H2].
  - destruct (new_method ms x) as [h0| |] eqn:Em; try discriminate. destruct (new_helper ms svc) as [hs2| |] eqn:Eh; try discriminate. injection H as <-. destruct Hi as [<-|Hi].
    + exists x. split; [left; reflexivity|]. split; [exact Em|]. rewrite Ex. discriminate.
    + destruct (IH hs2 hm eq_refl Hi) as (m & H1 & H2). exists m. split; [right; exact H1|exact H2].
Qed.
Lemma bindings_in ms m : forall is bs b, new_bindings ms m is = Ret bs -> In b bs -> exists i, In i is /\ new_binding ms i m = Ret b.
Proof.
  induction is as [|i is IH]; intros bs b H Hi; cbn [new_bindings] in H; [injection H as <-; destruct Hi|].
  destruct (new_binding ms i m) as [b0| |] eqn:E; try discriminate. destruct (new_bindings ms m is) as [bs0| |] eqn:E2; try discriminate. injection H as <-. destruct Hi as [<-|Hi]; [exists i; split; [left; reflexivity|exact E]|].
  destruct (IH bs0 b eq_refl Hi) as (j & H1 & H2). exists j. split; [right; exact H1|exact H2].
Qed.
Lemma method_made ms m hm : new_method ms m = Ret hm -> hm_name hm = sm_name m /\ hm_req hm = ft_name (sm_req m) /\ hm_resp hm = ft_name (sm_resp m) /\ (sm_bindings m <> [] -> hm_binds hm <> []) /\
  forall b, In b (hm_binds hm) -> exists i sb, nth_error (sm_bindings m) i = Some sb /\ new_binding ms i m = Ret b /\ hb_label b = sm_name m ++ english_number (Z.of_nat i) /\ hb_path b = sb_path sb /\ hb_base b = base_path (sb_path sb) /\ hb_verb b = sb_verb sb.
Proof.
  unfold new_method. destruct (new_bindings _ _ _) as [bs| |] eqn:E; try discriminate. intro H. injection H as <-. cbn [hm_name hm_req hm_resp hm_binds]. split; [reflexivity|]. split; [reflexivity|]. split; [reflexivity|]. split.
  - intros H ->. destruct (sm_bindings m); [contradiction|]. cbn [length seq new_bindings] in E. destruct (new_binding ms 0 m); try discriminate. destruct (new_bindings _ _ _); discriminate.
  - intros b Hb. destruct (bindings_in ms m _ bs b E Hb) as (i & _ & B). exists i. pose proof B as B'. unfold new_binding in B'. destruct (nth_error (sm_bindings m) i) as [sb|]; [|discriminate]. exists sb. split; [reflexivity|]. split; [exact B|].
    destruct (oneof_loop _ _ _); try discriminate. injection B' as <-. repeat split.
Qed.
Lemma english_ident i : Forall ident_rune (english_number (Z.of_nat i)).
Proof. rewrite <- (nat_N_Z i). apply WiringProofs.english_runes. Qed.
Lemma lower_ident n : exported_ident n -> ~ In (to_lower n) go_keywords -> ident (to_lower n).
Proof.
  intros H K. split; [|exact K]. destruct n as [|c n]; [destruct H|]. destruct H as [H1 H2]. cbn [to_lower map].
  assert (L : forall c, is_upper c = true -> is_lower (lower1 c) = true).
  { intros x Hx. unfold lower1. rewrite Hx. unfold is_upper, in_range in Hx. apply andb_prop in Hx. rewrite !N.leb_le in Hx. unfold is_lower, in_range. apply andb_true_intro. rewrite !N.leb_le. lia. }
  split; [left; unfold is_letter; rewrite (L c H1); reflexivity|]. apply Forall_map. eapply Forall_impl; [|exact H2]. intros x Hx. unfold ident_rune in *. unfold lower1. destruct (is_upper x) eqn:E; [|exact Hx].
  left. pose proof (L x E) as Q. unfold lower1 in Q. rewrite E in Q. unfold is_alnum, is_letter. rewrite Q. reflexivity.
Qed.

Section C84.
  Variable format_source : str -> option str.
  Variables (d : tdata) (s : str) (ms : list message).
  Hypothesis rendered_file : render_asset format_source BaronPath d = Some s.
  Notation methods := (sv_methods (td_service d)).
  Notation service := (sv_name (td_service d)).
  Hypothesis made : new_helper ms methods = Ret (td_helper d).
  Hypothesis ok : file_ok ms d.
  (** go/format changes the layout of the code of parameters only. *)
  Hypothesis lays_f : forall hm b f t, In hm (td_helper d) -> In b (hm_binds hm) -> In f (hb_fields b) -> field_text f = Some t -> lays_out format_source t.
  Hypothesis lays_o : forall hm b o t, In hm (td_helper d) -> In b (hm_binds hm) -> In o (hb_oneofs b) -> oneof_text o = Some t -> lays_out format_source t.
  (** The names of the file, as Wiring.v lists them *)
  Definition names : input := rendered service methods (td_helper d) (td_transport d).

  Lemma bind_ok hm b : In hm (td_helper d) -> In b (hm_binds hm) -> exists m i sb, In m methods /\ new_method ms m = Ret hm /\ nth_error (sm_bindings m) i = Some sb /\ new_binding ms i m = Ret b /\
    exported_ident (hb_label b) /\ exported_ident (go_camel_case (hm_req hm)) /\ hb_path b = sb_path sb /\ hb_base b = base_path (sb_path sb) /\ hb_verb b = sb_verb sb.
  Proof.
    intros Hm Hb. destruct (made_in _ _ _ hm made Hm) as (m & I & E & _). destruct (method_made ms m hm E) as (_ & E2 & _ & _ & B). destruct (B b Hb) as (i & sb & N & MB & L & P1 & P2 & P3).
    exists m, i, sb. destruct (ok_method ms d ok m I) as ([X _] & Y & _). repeat split; try assumption; [rewrite L; apply exported_app; [exact X|apply english_ident]|rewrite E2; exact Y].
  Qed.
  Lemma text_is : s = concat (TextFile.baron_pieces format_source d).
  Proof. pose proof rendered_file as R. rewrite TextProofs.baron_is in R. symmetry. congruence. Qed.
  Lemma file_is : exists ds, declarations s = Some ds /\ (forall q, flat_map (FileText.ask package_name q) ds = FileAll.view package_name d q) /\ incl (FileAll.decs d ++ FileAll.encs d ++ FileAll.glue d) ds.
  Proof.
    pose proof (ok_service ms d ok) as [Sv Sc]. pose proof (WiringProofs.exported_is_ident _ Sv) as Si.
    assert (M : forall m, In m methods -> Forall ident [sm_name m; go_camel_case (ft_name (sm_req m)); go_camel_case (ft_name (sm_resp m)); service]).
    { intros m Hm. destruct (ok_method ms d ok m Hm) as ([X _] & Y & Z). repeat (apply Forall_cons; [apply WiringProofs.exported_is_ident; assumption|]). apply Forall_nil. }
    assert (G : TextFile.with_grpc d || TextFile.with_nats d = true -> forall m, In m methods -> Forall ident [sm_name m; go_camel_case (ft_name (sm_req m)); go_camel_case (ft_name (sm_resp m)); service; to_lower (sm_name m); go_camel_case (sm_name m); td_package d]).
    { intros E m Hm. destruct (ok_method ms d ok m Hm) as ([X C] & Y & Z). rewrite C. repeat (apply Forall_cons; [try (apply WiringProofs.exported_is_ident; assumption)|]); [|exact (ok_package ms d ok)|apply Forall_nil].
      apply lower_ident; [exact X|exact (ok_lower ms d ok E m Hm)]. }
    rewrite text_is. apply FileAll.whole.
    - exact M.
    - apply Forall_cons; [exact Si|apply Forall_cons; [exact (ok_package ms d ok)|apply Forall_nil]].
    - destruct (ok_stamp ms d ok). repeat (apply Forall_cons; [apply GoLexProofs.safe_inner; assumption|]). apply Forall_nil.
    - intro E. apply G. rewrite E. reflexivity.
    - intro E. apply G. rewrite E. apply Bool.orb_true_r.
    - rewrite Sc. apply Forall_cons; [|apply Forall_cons; [|apply Forall_nil]]; apply GoLexProofs.safe_inner; [apply lower_safe|]; apply exported_safe; exact Sv.
    - apply Forall_cons; [exact Si|apply Forall_nil].
    - intros hm Hm. destruct (made_in _ _ _ hm made Hm) as (m & I & E & NE). destruct (method_made ms m hm E) as (-> & -> & -> & B & _). split; [exact (M m I)|]. split; [exact (B NE)|].
      apply GoLexProofs.safe_inner, lower_safe, exported_safe. apply (ok_method ms d ok m I).
    - intros hm b Hm Hb. destruct (bind_ok hm b Hm Hb) as (m & i & sb & I & _ & N & _ & L & _ & -> & -> & ->). destruct (ok_binding ms d ok m sb I (nth_error_In _ _ N)) as (P & V & _).
      split; [apply WiringProofs.exported_is_ident; exact L|]. split; [apply GoLexProofs.safe_inner, upper_safe; exact V|]. split; apply GoLexProofs.safe_inner; [exact P|apply base_safe; exact P].
    - intros hm b Hm Hb. destruct (bind_ok hm b Hm Hb) as (m & i & sb & I & _ & N & MB & L & Q & _). destruct (ok_binding ms d ok m sb I (nth_error_In _ _ N)) as (_ & _ & HP & _).
      destruct (ok_method ms d ok m I) as ([X C] & _). unfold FileHttp.slots, FileHttp.oneof_slots. assert (HM : exported_ident (go_camel_case (sm_name m))) by (rewrite C; exact X).
      rewrite (binding_text ms i m sb b N MB HM HP format_source (fun f t => lays_f hm b f t Hm Hb) (fun o t => lays_o hm b o t Hm Hb) (go_camel_case (hm_req hm))); [|apply WiringProofs.exported_is_ident; exact L|apply WiringProofs.exported_is_ident; exact Q].
      cbn [concat]. rewrite app_nil_r. reflexivity.
    - intros hm b Hm Hb. destruct (bind_ok hm b Hm Hb) as (m & i & sb & I & _ & N & MB & L & Q & _). destruct (ok_binding ms d ok m sb I (nth_error_In _ _ N)) as (_ & _ & HP & PP).
      rewrite (encoder_tokens ms i m sb b N MB HP PP (go_camel_case (hm_req hm))); [|apply WiringProofs.exported_is_ident; exact L|apply WiringProofs.exported_is_ident; exact Q].
      cbn [concat]. rewrite app_nil_r. reflexivity.
  Qed.
  (** The file is a sequence of declarations with matching brackets.  They put into the package exactly the names that Wiring.v lists, in this order, and it imports the packages that it lists; the types
      Endpoints, grpcServer and natsServer have the fields and methods it lists. *)
  Theorem c84_declarations : exists ds, declarations s = Some ds /\
    flat_map declares ds = package_names names /\ flat_map (imports_of package_name) ds = imports names /\
    flat_map (fields_of (T "Endpoints")) ds ++ flat_map (methods_of (T "Endpoints")) ds = endpoints_names names /\
    flat_map (fields_of (T "grpcServer")) ds ++ flat_map (methods_of (T "grpcServer")) ds = when (with_grpc names) (grpc_server_names names) /\
    flat_map (fields_of (T "natsServer")) ds = when (with_nats names) (nats_server_names names).
  Proof.
    destruct file_is as (ds & D & V & _). exists ds. split; [exact D|].
    assert (W : with_grpc names = TextFile.with_grpc d /\ with_nats names = TextFile.with_nats d) by (split; reflexivity). destruct W as [W1 W2].
    assert (LB : FileHttp.labels d = labels names) by reflexivity.
    split; [|split; [|split; [|split]]].
    - pose proof (V FileText.Names) as E. cbn [FileText.ask] in E. etransitivity; [exact E|]. unfold package_names. rewrite W1, W2. unfold when. reflexivity.
    - pose proof (V FileText.Imports) as E. cbn [FileText.ask] in E. etransitivity; [exact E|]. unfold imports. rewrite W1, W2. unfold FileAll.view, FileHead.v17, when.
      destruct (TextFile.with_grpc d), (TextFile.with_nats d); vm_compute; reflexivity.
    - pose proof (V FileText.EField) as E. pose proof (V FileText.EMethod) as E2. cbn [FileText.ask] in E, E2. etransitivity; [exact (f_equal2 (@app str) E E2)|]. reflexivity.
    - pose proof (V FileText.GField) as E. pose proof (V FileText.GMethod) as E2. cbn [FileText.ask] in E, E2. etransitivity; [exact (f_equal2 (@app str) E E2)|]. rewrite W1. unfold FileAll.view, when, grpc_server_names.
      destruct (TextFile.with_grpc d); [|reflexivity]. unfold FileAll.vg, names, rendered. cbn [in_methods]. rewrite !map_map. reflexivity.
    - pose proof (V FileText.NField) as E. cbn [FileText.ask] in E. etransitivity; [exact E|]. rewrite W2. reflexivity.
  Qed.
  (** So if the names of the service keep the rules, the package has no name twice, and every name is an identifier; no type has two fields or methods of the same name. *)
  Theorem c84_names : forall pb ds, scope_ok pb -> declarations s = Some ds -> name_rules names pb ->
    scope_ok (pb ++ flat_map (imports_of package_name) ds ++ flat_map declares ds) /\
    scope_ok (flat_map (fields_of (T "Endpoints")) ds ++ flat_map (methods_of (T "Endpoints")) ds) /\
    scope_ok (flat_map (fields_of (T "grpcServer")) ds ++ flat_map (methods_of (T "grpcServer")) ds) /\
    scope_ok (flat_map (fields_of (T "natsServer")) ds).
  Proof.
    intros pb ds Hpb D Hr. destruct c84_declarations as (ds' & D' & E1 & E2 & E3 & E4 & E5). rewrite D in D'. injection D' as <-. rewrite E1, E2, E3, E4, E5.
    assert (S : Forall (fun m => exported_ident (sm_name m) /\ go_camel_case (sm_name m) = sm_name m) methods) by (apply Forall_forall; intros m Hm; apply (ok_method ms d ok m Hm)).
    destruct (proj2 (c67_names_compile service ms methods (td_helper d) (td_transport d) pb made (proj1 (ok_service ms d ok)) S Hpb) Hr) as [_ C]. fold names in C. unfold scopes in C.
    assert (Z : scope_ok []) by (split; constructor). rewrite !Forall_app in C. destruct C as (C1 & C2 & C3). inversion C1 as [|? ? A1 C1']; subst. inversion C1' as [|? ? A2 _]; subst.
    split; [exact A1|]. split; [exact A2|]. split.
    - destruct (with_grpc names); cbn [when] in *; [inversion C2; assumption|exact Z].
    - destruct (with_nats names); cbn [when] in *; [|exact Z]. inversion C3 as [|? ? _ C3']; subst. inversion C3' as [|? ? _ C3'']; subst. inversion C3''; assumption.
  Qed.
  (** And the other way round: if the package has a name twice then the rules are broken (the names of local variables aside). *)
  Lemma names_refuted : forall pb ds, scope_ok pb -> declarations s = Some ds -> ~ scope_ok (pb ++ flat_map (imports_of package_name) ds ++ flat_map declares ds) -> ~ name_rules names pb.
  Proof. intros pb ds Hpb D H K. apply H. apply (c84_names pb ds Hpb D K). Qed.

  Lemma decoders_are : forall ds hm b, declarations s = Some ds -> In hm (td_helper d) -> In b (hm_binds hm) -> let f := FileHttp.dec hm b in let prog := decoder_prog (go_camel_case (hm_req hm)) b in
    In f ds /\ f ++ [Semi] = plain (decoder_toks (T "DecodeHTTP" ++ hb_label b ++ T "Request") prog) /\
    forall m i sb, In m methods -> nth_error (sm_bindings m) i = Some sb -> new_binding ms i m = Ret b ->
      quiet (sm_name m) -> NoDup (path_names (sb_params sb) ++ query_options (sb_params sb)) -> NoDup (oneof_names (sb_params sb)) ->
      forall K zero vars h,
        GoLang.call K zero (go_camel_case (hm_req hm)) vars (parse_query (rq_query h)) (Some (rq_body h)) prog = Some (decode_request K zero b vars h) /\
        GoLang.call K zero (go_camel_case (hm_req hm)) vars (parse_query (rq_query h)) None prog = Some DErr.
  Proof.
    intros ds hm b D Hm Hb. destruct file_is as (ds' & D' & _ & I). rewrite D in D'. injection D' as <-. intros f prog; unfold f, prog; clear f prog. split; [|split].
    - apply I. apply in_or_app. left. unfold FileAll.decs. apply in_flat_map. exists hm. split; [exact Hm|]. apply in_flat_map. exists b. split; [exact Hb|]. left. reflexivity.
    - unfold FileHttp.dec, FileHttp.decoder_name, FileNest.decoder_decl. unfold decoder_toks.
      match goal with |- removelast (plain (?head ++ _)) ++ _ = _ => destruct (FileNest.func_decl head (decoder_prog (go_camel_case (hm_req hm)) b) eq_refl (FileNest.tame_decoder _ _)) as (X & E & _) end.
      rewrite E, removelast_last. reflexivity.
    - intros m i sb Im N MB HQ N1 N2 K zero vars h. destruct (bind_ok hm b Hm Hb) as (_ & _ & _ & _ & _ & _ & _ & _ & HR & _). destruct (ok_binding ms d ok m sb Im (nth_error_In _ _ N)) as (_ & _ & HP & _).
      destruct (ok_method ms d ok m Im) as ([X C] & _). rewrite <- C in X, HQ.
      assert (Hs : str_eqb (go_camel_case (hm_req hm)) (T "string") = false) by (apply DecoderRun.cap_neq; [apply exported_cap; exact HR|reflexivity]).
      pose proof (fun body => run_binding ms i m sb b N MB X HQ HP N1 N2 K zero (go_camel_case (hm_req hm)) vars (parse_query (rq_query h)) body (query_some (rq_query h)) Hs) as R.
      split; [|rewrite (R None); reflexivity]. rewrite (R (Some (rq_body h))). unfold decode_request. destruct (rq_body h) as [|c bs]; [reflexivity|]. destruct (pj_dec K (c :: bs)); reflexivity.
  Qed.
  (** Every binding has its request decoder among them: a function whose body is a Go program that does what [decode_request] says. *)
  Theorem c84_decoders : forall ds hm b, declarations s = Some ds -> In hm (td_helper d) -> In b (hm_binds hm) -> exists f prog,
    In f ds /\ f ++ [Semi] = plain (decoder_toks (T "DecodeHTTP" ++ hb_label b ++ T "Request") prog) /\
    forall m i sb, In m methods -> nth_error (sm_bindings m) i = Some sb -> new_binding ms i m = Ret b ->
      quiet (sm_name m) -> NoDup (path_names (sb_params sb) ++ query_options (sb_params sb)) -> NoDup (oneof_names (sb_params sb)) ->
      forall K zero vars h,
        GoLang.call K zero (go_camel_case (hm_req hm)) vars (parse_query (rq_query h)) (Some (rq_body h)) prog = Some (decode_request K zero b vars h) /\
        GoLang.call K zero (go_camel_case (hm_req hm)) vars (parse_query (rq_query h)) None prog = Some DErr.
  Proof. intros ds hm b D Hm Hb. exists (FileHttp.dec hm b), (decoder_prog (go_camel_case (hm_req hm)) b). exact (decoders_are ds hm b D Hm Hb). Qed.
  Lemma encoders_are : forall ds hm b, declarations s = Some ds -> In hm (td_helper d) -> In b (hm_binds hm) -> let f := FileHttp.enc hm b in let prog := encoder_prog (go_camel_case (hm_req hm)) b in
    In f ds /\ f ++ [Semi] = plain (GoEncode.encoder_toks (T "EncodeHTTP" ++ hb_label b ++ T "Request") prog) /\
    forall m i sb, In m methods -> nth_error (sm_bindings m) i = Some sb -> new_binding ms i m = Ret b -> (forall o p, In (o, p) (oneof_params sb) -> scalar_option (fd_type o)) ->
      forall K S base r, GoEncode.st_name S = go_camel_case (hm_req hm) -> struct_of (sb_params sb) S -> typed (sb_params sb) r -> (forall r1 r2 : request, (forall x, r1 x = r2 x) -> pj_enc K r1 = pj_enc K r2) ->
        GoEncode.call K S base r prog = Some (match encode_request K b r with
          | Some h => GoEncode.Sends (GoEncode.mkOut (rq_path h) (rq_query h) (if str_eqb (hb_verb b) (T "get") then None else Some (rq_body h)) [(T "transport", T "HTTPJSON"); (T "request-url", base)])
          | None => GoEncode.Fails
          end).
  Proof.
    intros ds hm b D Hm Hb. destruct file_is as (ds' & D' & _ & I). rewrite D in D'. injection D' as <-. intros f prog; unfold f, prog; clear f prog. split; [|split].
    - apply I. apply in_or_app. right. apply in_or_app. left. unfold FileAll.encs. apply in_flat_map. exists hm. split; [exact Hm|]. apply in_flat_map. exists b. split; [exact Hb|]. left. reflexivity.
    - unfold FileHttp.enc, FileHttp.encoder_name, FileNest.encoder_decl. unfold GoEncode.encoder_toks.
      match goal with |- removelast (plain (?head ++ _)) ++ _ = _ => destruct (FileNest.func_decl head (encoder_prog (go_camel_case (hm_req hm)) b) eq_refl (FileNest.tame_encoder _ _)) as (X & E & _) end.
      rewrite E, removelast_last. reflexivity.
    - intros m i sb Im N MB Hscalar K S base r HN HS Ht Hpj. destruct (ok_binding ms d ok m sb Im (nth_error_In _ _ N)) as (_ & _ & HP & PP).
      rewrite <- HN. exact (encoder_runs ms i m sb b N MB HP PP K S base r Hpj HS Ht Hscalar).
  Qed.
  (** And its request encoder: a function whose body is a Go program that does what [encode_request] says. *)
  Theorem c84_encoders : forall ds hm b, declarations s = Some ds -> In hm (td_helper d) -> In b (hm_binds hm) -> exists f prog,
    In f ds /\ f ++ [Semi] = plain (GoEncode.encoder_toks (T "EncodeHTTP" ++ hb_label b ++ T "Request") prog) /\
    forall m i sb, In m methods -> nth_error (sm_bindings m) i = Some sb -> new_binding ms i m = Ret b -> (forall o p, In (o, p) (oneof_params sb) -> scalar_option (fd_type o)) ->
      forall K S base r, GoEncode.st_name S = go_camel_case (hm_req hm) -> struct_of (sb_params sb) S -> typed (sb_params sb) r -> (forall r1 r2 : request, (forall x, r1 x = r2 x) -> pj_enc K r1 = pj_enc K r2) ->
        GoEncode.call K S base r prog = Some (match encode_request K b r with
          | Some h => GoEncode.Sends (GoEncode.mkOut (rq_path h) (rq_query h) (if str_eqb (hb_verb b) (T "get") then None else Some (rq_body h)) [(T "transport", T "HTTPJSON"); (T "request-url", base)])
          | None => GoEncode.Fails
          end).
  Proof. intros ds hm b D Hm Hb. exists (FileHttp.enc hm b), (encoder_prog (go_camel_case (hm_req hm)) b). exact (encoders_are ds hm b D Hm Hb). Qed.
End C84.
Definition c84_all := (@c84_declarations, @c84_names, @c84_decoders, @c84_encoders).
Print Assumptions c84_all.

(** ** A case: a service with PutItem of PropGoEncoder.v, and a method without bindings; all transports *)
From Verif Require Import PropGoEncoder.
Definition watch_m : smethod := mkSMeth (T "Watch") (mkFT (T "Req") None None None None true false) (mkFT (T "Resp") None None None None true false) [].
Definition shop : tdata :=
  let svc := [post_m; watch_m] in
  mkTData (T "x/y") (T "x/pb") (T "shoppb") (mkSvc (T "Shop") svc) (match new_helper [] svc with Ret hs => hs | _ => [] end) (T "all") (T "v1.2") (T "today").
Lemma shop_ok : file_ok [] shop.
Proof.
  split.
  - part.
  - split; [split; [left; reflexivity|]|].
    + repeat (apply Forall_cons; [left; reflexivity|]). apply Forall_nil.
    + intro H. cbn [go_keywords In] in H. repeat (destruct H as [H|H]; [discriminate|]). destruct H.
  - split; part.
  - intros m Hm. cbn [shop td_service sv_methods In] in Hm. destruct Hm as [<-|[<-|[]]]; (split; [part|]; split; part).
  - intros _ m Hm. cbn [shop td_service sv_methods In] in Hm. destruct Hm as [<-|[<-|[]]]; intro H; cbn [go_keywords In] in H; repeat (destruct H as [H|H]; [discriminate|]); destruct H.
  - intros m sb Hm Hs. cbn [shop td_service sv_methods In] in Hm. destruct Hm as [<-|[<-|[]]]; [|destruct Hs]. destruct Hs as [<-|[]]. split; [part|]. split; [part|]. split; [exact post_params|]. apply post_path; cbn; auto.
Qed.
Example c84_case : exists s ds f prog, render_asset (fun _ => None) BaronPath shop = Some s /\ declarations s = Some ds /\
  flat_map declares ds =
    [T "Endpoints"; T "MakePutItemEndpoint"; T "MakeWatchEndpoint"; T "LabeledMiddleware"; T "MakeGRPCServer"; T "grpcServer"; T "DecodeGRPCPutItemRequest"; T "DecodeGRPCWatchRequest";
     T "EncodeGRPCPutItemResponse"; T "EncodeGRPCWatchResponse"; T "GRPCMetadataToContext"; T "NewGRPCClient"; T "DecodeGRPCPutItemResponse"; T "DecodeGRPCWatchResponse";
     T "EncodeGRPCPutItemRequest"; T "EncodeGRPCWatchRequest"; T "ContextValuesToGRPCMetadata"; T "contentType"; T "MakeHTTPHandler"; T "errorEncoder"; T "errorDecoder"; T "errorWrapper"; T "httpError";
     T "DecodeHTTPPutItemZeroRequest"; T "EncodeHTTPGenericResponse"; T "HTTPHeadersToContext"; T "NewHTTPClient"; T "copyURL"; T "CtxValuesToSend"; T "DecodeHTTPPutItemResponse"; T "EncodeHTTPPutItemZeroRequest";
     T "ServeNATS"; T "MakeNATSServer"; T "natsServer"; T "DecodeNATSPutItemRequest"; T "DecodeNATSWatchRequest"; T "EncodeNATSGenericResponse"; T "NewNATSClient"; T "DecodeNATSPutItemResponse"; T "DecodeNATSWatchResponse"; T "EncodeNATSGenericRequest"] /\
  flat_map (fields_of (T "grpcServer")) ds ++ flat_map (methods_of (T "grpcServer")) ds = [T "UnimplementedShopServer"; T "putitem"; T "watch"; T "PutItem"; T "Watch"] /\
  In f ds /\ f ++ [Semi] = plain (GoEncode.encoder_toks (T "EncodeHTTPPutItemZeroRequest") prog).
Proof.
  assert (M : new_helper [] (sv_methods (td_service shop)) = Ret (td_helper shop)) by (vm_compute; reflexivity). pose proof (TextProofs.baron_is (fun _ => None) shop) as R. remember (concat (TextFile.baron_pieces (fun _ => None) shop)) as s eqn:Es. clear Es.
  assert (LF : forall hm b f t, In hm (td_helper shop) -> In b (hm_binds hm) -> In f (hb_fields b) -> field_text f = Some t -> lays_out (fun _ => None) t) by (intros; intros ?; discriminate).
  assert (LO : forall hm b f t, In hm (td_helper shop) -> In b (hm_binds hm) -> In f (hb_oneofs b) -> oneof_text f = Some t -> lays_out (fun _ => None) t) by (intros; intros ?; discriminate).
  destruct (c84_declarations _ shop s [] R M shop_ok LF LO) as (ds & D & E1 & _ & _ & E4 & _).
  assert (Hm : In post_hm (td_helper shop)) by (vm_compute; left; reflexivity).
  destruct (c84_encoders _ shop s [] R M shop_ok LF LO ds post_hm post_b D Hm (or_introl eq_refl)) as (f & prog & F1 & F2 & _).
  exists s, ds, f, prog. split; [exact R|]. split; [exact D|]. split; [rewrite E1; vm_compute; reflexivity|]. split; [rewrite E4; vm_compute; reflexivity|]. split; [exact F1|exact F2].
Qed.
