(** C93: the request decoders of the generated baron file keep Go's rules for names (GoBlocks.v). *)
From Coq Require Import String Lia.
From Verif Require Import GoStr GoStrProofs Strs SvcTypes HttpTransport GoLex GoLang DecoderProg DecoderProto GoScope GoBlocks PropBlocks BlocksDec.
From Verif Require NeedsDec BlocksFree StrsSpec PropScope Wiring WiringSpec Render PropGoFile PropHttpWire FileHttp TextProofs Generator DecoderTexts DecodeProofs DecoderRun PropGoEncoder PropWiring WiringProofs.
Import PropWiring(path_names, query_options, oneof_names).

(** What a parameter has to be: a path parameter that is no list of scalars; options of a oneof in the query that are scalars or enums *)
Definition plain_param (p : hparam) : Prop :=
  let t := fd_type (pm_field p) in
  match ft_oneof t with
  | None => pm_loc p = T "path" -> ft_msg t = None -> ft_enum t = None -> ft_map t = None -> ft_array t = false
  | Some os => pm_loc p = T "query" -> forall o, In o os -> ft_enum (fd_type o) = None -> In (ft_name (fd_type o)) go_base_types
  end.
(** The types of a parameter are Go's, or in the package *)
Definition type_there (pb : list str) (n : str) : Prop := In n go_base_types \/ In n pb.
Definition types_there (ms : list message) (pb : list str) (p : hparam) : Prop :=
  let t := fd_type (pm_field p) in
  match ft_oneof t with
  | None => type_there pb (ft_name t)
  | Some os => forall o, In o os -> type_there pb (ft_name (fd_type o)) /\ forall w, ft_msg (fd_type o) = Some w -> In (mref_name ms w) pb
  end.

Lemma conv_good sh : (sh_enum sh = false -> sh_rep sh = false -> sh_base sh = true -> In (sh_gotype sh) go_base_types) ->
  match fst (create_decode_convert sh) with CvGarbage => False | CvScalar PCopy => True | CvScalar _ => snd (create_decode_convert sh) = true | _ => True end.
Proof.
  destruct sh as [n s b e r]. unfold create_decode_convert. cbn [sh_enum sh_rep sh_base sh_gotype]. intro H. destruct e, r, b; cbn [andb negb orb fst snd]; try exact I; try reflexivity.
  destruct (DecodeProofs.table_base n (H eq_refl eq_refl eq_refl)) as [p E]. rewrite E. destruct p; cbn [fst snd]; try exact I; reflexivity.
Qed.
Lemma tconv_good g sh : g (sh_gotype sh) = true -> tc_ok g (create_decode_tconv sh).
Proof. intro H. unfold create_decode_tconv. destruct (sh_rep sh); [exact I|]. destruct (_ && _), (_ || _); cbn [tc_ok]; auto. Qed.
Lemma cap_names x : DecoderRun.cap x = true -> x <> T "_" /\ x <> T "err".
Proof. intro C. split; intro E; rewrite E in C; discriminate C. Qed.

Section C93.
  Variable format_source : str -> option str.
  Variables (d : Render.tdata) (s : str) (mm : list message).
  Hypothesis rendered_file : Render.render_asset format_source Generator.BaronPath d = Some s.
  Notation methods := (sv_methods (Render.td_service d)).
  Notation helper := (Render.td_helper d).
  Notation names := (PropGoFile.names d).
  Hypothesis made : new_helper mm methods = GoStr.Ret helper.
  Hypothesis ok : PropGoFile.file_ok mm d.
  Hypothesis lays_f : forall hm b f t, In hm helper -> In b (hm_binds hm) -> In f (hb_fields b) -> DecoderTexts.field_text f = Some t -> lays_out format_source t.
  Hypothesis lays_o : forall hm b o t, In hm helper -> In b (hm_binds hm) -> In o (hb_oneofs b) -> DecoderTexts.oneof_text o = Some t -> lays_out format_source t.
  Variable pb : list str.
  Notation g := (fun x => mem x (PropScope.outside d pb)).
  Lemma there_known n : type_there pb n -> g n = true.
  Proof.
    intros [H|H]; [|apply PropScope.in_pb; exact H]. cbn [go_base_types In] in H. apply PropScope.mem_in. unfold PropScope.outside. rewrite !in_app_iff. left.
    repeat (destruct H as [<-|H]; [solve [repeat first [left; reflexivity | right]]|]). destruct H.
  Qed.
  Section Binding.
    Variables (m : smethod) (i : nat) (sb : sbinding) (b : hbind).
    Hypothesis Im : In m methods.
    Hypothesis N : nth_error (sm_bindings m) i = Some sb.
    Hypothesis MB : new_binding mm i m = GoStr.Ret b.
    Hypothesis HQ : WiringSpec.quiet (sm_name m).
    Hypothesis N1 : NoDup (path_names (sb_params sb) ++ query_options (sb_params sb)).
    Hypothesis N2 : NoDup (oneof_names (sb_params sb)).
    Hypothesis Plain : forall p, In p (sb_params sb) -> plain_param p.
    Hypothesis There : forall p, In p (sb_params sb) -> types_there mm pb p.
    Lemma HM : StrsSpec.exported_ident (go_camel_case (sm_name m)). Proof. destruct (PropGoFile.ok_method mm d ok m Im) as ([X C] & _). rewrite C. exact X. Qed.
    Lemma HQ' : WiringSpec.quiet (go_camel_case (sm_name m)). Proof. destruct (PropGoFile.ok_method mm d ok m Im) as ([_ C] & _). rewrite C. exact HQ. Qed.
    Lemma HP : Forall (param_ok mm (sm_name m)) (sb_params sb). Proof. destruct (PropGoFile.ok_binding mm d ok m sb Im (nth_error_In _ _ N)) as (_ & _ & H & _). exact H. Qed.
    Lemma locals_differ : NoDup (Wiring.decoder_locals b). Proof. exact (DecoderProto.scope mm i m sb b N MB HM HQ' HP N1 N2). Qed.
    Lemma fields_placed f : In f (hb_fields b) -> placed g f.
    Proof.
      intro If. pose proof (local_cap mm i m sb b N MB HM HP f If) as C. destruct (field_ok mm i m sb b N MB HP f If) as (p & Ip & -> & [_ P] & Eo). pose proof (Plain p Ip) as L. pose proof (There p Ip) as Th. unfold plain_param, types_there in L, Th. rewrite Eo in P, L, Th. destruct P as (_ & P2 & P3).
      destruct (str_eqb (pm_loc p) (T "body")) eqn:Eb; [left; apply str_eqb_eq; exact Eb|right]. assert (Nb : pm_loc p <> T "body") by (apply str_eqb_neq; exact Eb). specialize (P3 Nb). split.
      - destruct (cap_names _ C) as [C1 C2]. split; [exact C1|]. split; [exact C2|]. unfold new_hfield. cbn [hf_gotype hf_tconv hf_conv hf_check]. split; [exact (there_known _ Th)|]. split; [apply tconv_good; exact (there_known _ Th)|].
        apply conv_good. unfold field_shape. cbn [sh_enum sh_rep sh_base sh_gotype]. unfold go_type in P3. intros E1 E2. destruct (ft_msg _), (ft_enum _), (ft_map _); try (intro X; discriminate X). intros _. exact (proj1 P3).
      - unfold new_hfield. cbn [hf_loc hf_conv]. destruct P2 as [E|[E|[E|[]]]]; [right; split; [symmetry; exact E|]|left; symmetry; exact E|destruct (Nb (eq_sym E))].
        unfold create_decode_convert, field_shape. cbn [sh_enum sh_rep sh_base sh_gotype]. specialize (L (eq_sym E)).
        destruct (ft_msg _), (ft_enum _), (ft_map _), (ft_array _); cbn [andb negb orb fst]; try exact I; try (discriminate (L eq_refl eq_refl eq_refl)).
        destruct (is_go_base_type _); cbn [andb negb orb fst]; [|exact I]. destruct (scalar_table _) as [[]|]; exact I.
    Qed.
    Lemma oneofs_fine o : In o (hb_oneofs b) -> oneof_fine g o.
    Proof.
      intros Io L f If. pose proof (option_cap mm i m sb b N MB HM HP o f Io If) as C. destruct (cap_names _ C) as [C1 C2]. split; [exact C1|]. split; [exact C2|].
      destruct (binding_is mm i m sb b N MB) as [_ E]. destruct (oneofs_each _ _ _ _ E o Io) as (p & l & A1 & A2 & _ & A4 & A5). destruct (options_each _ _ _ _ _ A5 f If) as (x & B1 & B2).
      pose proof (Plain p A1) as Pl. pose proof (There p A1) as Th. unfold plain_param, types_there in Pl, Th. rewrite A2 in Pl, Th. rewrite A4 in L. specialize (Pl L x B1). destruct (Th x B1) as [T1 T2].
      unfold new_option in B2. destruct (ft_msg (fd_type x)) as [w|] eqn:Ew; [|discriminate B2]. injection B2 as <-. cbn [hf_gotype hf_tconv hf_conv hf_check]. split; [exact (there_known _ T1)|].
      split; [split; [apply there_known; right; exact (T2 w eq_refl)|apply tconv_good; exact (there_known _ T1)]|].
      apply conv_good. cbn [sh_enum sh_rep sh_base sh_gotype]. intros E1 _ _. apply Pl. destruct (ft_enum (fd_type x)); [discriminate E1|reflexivity].
    Qed.
  End Binding.
  (** The request decoder of a binding is a function of the file, and keeps Go's rules: every name it uses is declared by Go, an import, the package or an enclosing block; no block declares a name twice; every := declares a new one; every variable is used; no literal gives a key twice. *)
  Theorem c93_decoders : (forall m, In m methods -> In (go_camel_case (ft_name (sm_req m))) pb) ->
    forall hm m i sb b, In hm helper -> In b (hm_binds hm) -> In m methods -> nth_error (sm_bindings m) i = Some sb -> new_binding mm i m = GoStr.Ret b ->
      WiringSpec.quiet (sm_name m) -> NoDup (path_names (sb_params sb) ++ query_options (sb_params sb)) -> NoDup (oneof_names (sb_params sb)) ->
      (forall p, In p (sb_params sb) -> plain_param p) -> (forall p, In p (sb_params sb) -> types_there mm pb p) ->
      exists prog, PropHttpWire.has_decoder s (T "DecodeHTTP" ++ hb_label b ++ T "Request") prog /\ prog = decoder_prog (go_camel_case (hm_req hm)) b /\
        decoder_ok g prog = true.
  Proof.
    intros Hp hm m i sb b Hm Hb Im N MB HQ N1 N2 Pl Th. exists (decoder_prog (go_camel_case (hm_req hm)) b). split; [|split; [reflexivity|]].
    - destruct (PropGoFile.file_is format_source d s mm rendered_file made ok lays_f lays_o) as (ds & D & _ & _).
      destruct (PropGoFile.decoders_are format_source d s mm rendered_file made ok lays_f lays_o ds hm b D Hm Hb) as (I & Tk & _). exists ds, (FileHttp.dec hm b). split; [exact D|]. split; [exact I|exact Tk].
    - destruct (PropGoFile.made_in mm methods helper hm made Hm) as (m' & I' & E' & _). destruct (PropGoFile.method_made mm m' hm E') as (_ & Q & _). rewrite Q.
      apply decoder_is_ok.
      + exact (all_consts d pb).
      + apply PropScope.in_pb. apply Hp. exact I'.
      + exact (locals_differ m i sb b Im N MB HQ N1 N2).
      + exact (fields_placed m i sb b Im N MB Pl Th).
      + exact (oneofs_fine m i sb b Im N MB Pl Th).
  Qed.
  (** So every variable that a decoder uses and does not declare itself is its parameter, or of Go, the imports or the package. *)
  Theorem c93_free : (forall m, In m methods -> In (go_camel_case (ft_name (sm_req m))) pb) ->
    forall hm m i sb b x, In hm helper -> In b (hm_binds hm) -> In m methods -> nth_error (sm_bindings m) i = Some sb -> new_binding mm i m = GoStr.Ret b ->
      WiringSpec.quiet (sm_name m) -> NoDup (path_names (sb_params sb) ++ query_options (sb_params sb)) -> NoDup (oneof_names (sb_params sb)) ->
      (forall p, In p (sb_params sb) -> plain_param p) -> (forall p, In p (sb_params sb) -> types_there mm pb p) ->
      exists prog, PropHttpWire.has_decoder s (T "DecodeHTTP" ++ hb_label b ++ T "Request") prog /\ (uses_block x prog = true -> In x (PropScope.outside d pb) \/ x = T "r").
  Proof.
    intros Hp hm m i sb b x Hm Hb Im N MB HQ N1 N2 Pl Th. destruct (c93_decoders Hp hm m i sb b Hm Hb Im N MB HQ N1 N2 Pl Th) as (prog & A & _ & C). exists prog. split; [exact A|].
    intro U. destruct (BlocksFree.decoder_free _ x prog C U) as [K|K]; [left; apply PropScope.mem_in; exact K|right; exact K].
  Qed.
End C93.
Print Assumptions c93_decoders.
Print Assumptions c93_free.
(** ** A case: POST /v1/{id}/{kind} of PropGoFile.shop *)
Definition shop_types : list str := PropScope.shop_pb ++ [T "Kind"; T "Req_A"; T "Req_N"].
Example c93_case : WiringSpec.quiet (T "PutItem") /\ NoDup (path_names PropGoEncoder.post_ps ++ query_options PropGoEncoder.post_ps) /\ NoDup (oneof_names PropGoEncoder.post_ps) /\
  (forall p, In p (sb_params PropGoEncoder.post_sb) -> plain_param p) /\ (forall p, In p (sb_params PropGoEncoder.post_sb) -> types_there [] shop_types p) /\
  decoder_ok (fun x => mem x (PropScope.outside PropGoFile.shop shop_types)) (decoder_prog (T "Req") PropGoEncoder.post_b) = true /\
  decoder_ok (fun x => mem x (PropScope.outside PropGoFile.shop PropScope.shop_pb)) (decoder_prog (T "Req") PropGoEncoder.post_b) = false.
Proof.
  split; [|split; [|split; [|split; [|split; [|split; vm_compute; reflexivity]]]]].
  - intros s Hs (x & E). assert (C : WiringProofs.compat (rev (T "PutItem")) (rev s) = true) by (destruct E as [E|E]; [apply (WiringProofs.same_suffix _ _ [] x)|apply (WiringProofs.same_suffix _ _ x [])]; [exact E|symmetry; exact E]).
    cbn [In] in Hs. repeat (destruct Hs as [<-|Hs]; [discriminate C|]). destruct Hs.
  - apply PropWiring.nodup_dec. reflexivity.
  - apply PropWiring.nodup_dec. reflexivity.
  - intros p Hp. cbn [PropGoEncoder.post_sb sb_params PropGoEncoder.post_ps In] in Hp. repeat (destruct Hp as [<-|Hp]; [unfold plain_param; cbn|]); try (destruct Hp); try reflexivity; try (intros; reflexivity); try (intros; discriminate).
    intros _ o [<-|[<-|[]]] _; [do 7 right; left; reflexivity|do 3 right; left; reflexivity].
  - intros p Hp. assert (TT : forall n, mem n (go_base_types ++ shop_types) = true -> type_there shop_types n) by (intros n H; apply PropScope.mem_in in H; apply in_app_or in H; exact H).
    cbn [PropGoEncoder.post_sb sb_params PropGoEncoder.post_ps In] in Hp. repeat (destruct Hp as [<-|Hp]; [unfold types_there; cbn -[type_there In shop_types]; try (apply TT; reflexivity)|]); [|destruct Hp].
    intros o [<-|[<-|[]]]; (split; [apply TT; reflexivity|]; intros w E; injection E as <-; apply PropScope.mem_in; reflexivity).
Qed.
(** With a list of scalars in the path the decoder reads a variable that nothing declares, unless the package happens to; with a message as an option of a oneof in the query it has a line that is no Go.  Such files do not compile. *)
Definition binding_of (ps : list hparam) : hbind :=
  match new_binding [] 0 (mkSMeth (T "List") (mkFT (T "Req") None None None None true false) (mkFT (T "Resp") None None None None true false) [mkSBind (T "get") (T "/v1/{ids}") ps]) with GoStr.Ret b => b | _ => mkHBind [] [] [] [] [] [] end.
Definition list_ps : list hparam := [mkParam (mkFld (T "Ids") (T "ids") (mkFT (T "int64") None None None None false true)) (T "path")].
Definition message_ps : list hparam := [PropWiring.oneof_of (T "Choice") (T "choice") [mkFld (T "Item") (T "item") (mkFT (T "Item") None None (Some (MSynth (T "Req_Item"))) None true false)]].
Ltac refute g := cbv; rewrite ?either; repeat match goal with |- context [g ?x] => destruct (g x); [|reflexivity] end; reflexivity.
Theorem c93_list_refuted : Forall (param_ok [] (T "List")) list_ps /\ forall g, g (T "IdsListStrArr") = false -> decoder_ok g (decoder_prog (T "Req") (binding_of list_ps)) = false.
Proof.
  split.
  - constructor; [|constructor]. split; [split; [split; [reflexivity|repeat (apply Forall_cons; [left; reflexivity|]); apply Forall_nil]|reflexivity]|]. cbn. split; [intros c Hc; cbn in Hc; repeat (destruct Hc as [<-|Hc]; [repeat split; discriminate|]); destruct Hc|]. split; [left; reflexivity|]. intros _. split; [do 3 right; left; reflexivity|reflexivity].
  - intros g H. revert H. cbv. intro H. rewrite ?either. rewrite H. repeat match goal with |- context [g ?x] => destruct (g x); [|reflexivity] end; reflexivity.
Qed.
Theorem c93_message_refuted : forall g, decoder_ok g (decoder_prog (T "Req") (binding_of message_ps)) = false.
Proof. intro g. refute g. Qed.
(** Every list of scalars in the path, and every message as an option of a oneof in the query, does so *)
Theorem c93_list_needs : forall g request ms i m sb b p, nth_error (sm_bindings m) i = Some sb -> new_binding ms i m = GoStr.Ret b -> In p (sb_params sb) ->
  pm_loc p = T "path" -> In (ft_name (fd_type (pm_field p))) go_base_types -> ft_array (fd_type (pm_field p)) = true ->
  ft_oneof (fd_type (pm_field p)) = None -> ft_msg (fd_type (pm_field p)) = None -> ft_enum (fd_type (pm_field p)) = None -> ft_map (fd_type (pm_field p)) = None ->
  let x := go_camel_case (fd_name (pm_field p)) ++ go_camel_case (sm_name m) ++ T "StrArr" in
  g x = false -> ~ In x (Wiring.decoder_locals b) -> decoder_ok g (decoder_prog request b) = false.
Proof. exact NeedsDec.list_param. Qed.
Print Assumptions c93_list_needs.
Theorem c93_message_needs : forall g request ms i m sb b p os o, nth_error (sm_bindings m) i = Some sb -> new_binding ms i m = GoStr.Ret b -> In p (sb_params sb) ->
  pm_loc p = T "query" -> ft_oneof (fd_type (pm_field p)) = Some os -> In o os -> ~ In (ft_name (fd_type o)) go_base_types ->
  ft_enum (fd_type o) = None -> ft_map (fd_type o) = None -> ft_array (fd_type o) = false -> decoder_ok g (decoder_prog request b) = false.
Proof. exact NeedsDec.message_param. Qed.
Print Assumptions c93_message_needs.
(** list_ps and message_ps are cases of them *)
Definition list_meth (ps : list hparam) : smethod := mkSMeth (T "List") (mkFT (T "Req") None None None None true false) (mkFT (T "Resp") None None None None true false) [mkSBind (T "get") (T "/v1/{ids}") ps].
Example c93_needs_cases : decoder_ok (fun x => mem x go_base_types) (decoder_prog (T "Req") (binding_of list_ps)) = false /\ decoder_ok (fun x => mem x go_base_types) (decoder_prog (T "Req") (binding_of message_ps)) = false.
Proof.
  split.
  - apply (c93_list_needs (fun x => mem x go_base_types) (T "Req") [] 0 (list_meth list_ps) (mkSBind (T "get") (T "/v1/{ids}") list_ps) (binding_of list_ps) (hd (mkParam (mkFld [] [] (mkFT [] None None None None false false)) []) list_ps)); try reflexivity.
    + left. reflexivity.
    + do 3 right. left. reflexivity.
    + apply PropScope.mem_not. vm_compute. reflexivity.
  - apply (c93_message_needs (fun x => mem x go_base_types) (T "Req") [] 0 (list_meth message_ps) (mkSBind (T "get") (T "/v1/{ids}") message_ps) (binding_of message_ps) (hd (mkParam (mkFld [] [] (mkFT [] None None None None false false)) []) message_ps)
      [mkFld (T "Item") (T "item") (mkFT (T "Item") None None (Some (MSynth (T "Req_Item"))) None true false)] (mkFld (T "Item") (T "item") (mkFT (T "Item") None None (Some (MSynth (T "Req_Item"))) None true false))); try reflexivity.
    + left. reflexivity.
    + left. reflexivity.
    + cbn [go_base_types In fd_type ft_name]. intro H. repeat (destruct H as [H|H]; [discriminate H|]). destruct H.
Qed.
