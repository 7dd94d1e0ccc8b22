(** C90: the functions of the generated baron file that make the HTTP handler and the HTTP client: read as Go (GoLex.v, GoDecls.v) they are programs of GoGlue.v (HttpProg.v), and these connect every binding
    with its decoder and the endpoint of its method, and every method of the client with the encoder of its first binding.  What go-kit does with what it is given is in HttpKit.v.  Together with the
    decoders and encoders (C84) and the functions that write and read answers (C88), a call of the client is a call of ErrorHop.v. *)
From Coq Require Import String Lia.
From Verif Require Import GoStr GoStrProofs GoMap Strs StrsSpec SvcTypes GoLex GoDecls GoGlue GlueProg HttpProg WireHttp HttpKit.
From Verif Require TextProofs Generator Render PropGoFile FileAll FileHttp HttpTransport PropGlue Client PropClient GenHttp ErrorHop PropAnswer PropDecode WiringSpec Wiring WireGrpc GoLang GoEncode DecoderProg EncoderProg DecoderTexts DecoderProto EncoderProto PropWiring EncoderRun Url.
Import HttpTransport.
Notation has_function := PropGlue.has_function.
Notation results := PropGlue.results.
Notation after := PropGlue.after.

(** A request decoder, a request encoder among the declarations of a text *)
Definition has_decoder (s name : str) (prog : GoLang.block) : Prop := exists ds f, declarations s = Some ds /\ In f ds /\ f ++ [Semi] = plain (GoLang.decoder_toks name prog).
Definition has_encoder (s name : str) (prog : GoLang.block) : Prop := exists ds f, declarations s = Some ds /\ In f ds /\ f ++ [Semi] = plain (GoEncode.encoder_toks name prog).

Lemma empty_or {X} (l : list X) : l = [] \/ exists m r, l = m :: r.
Proof. destruct l as [|m r]; [left; reflexivity|right; exists m, r; reflexivity]. Qed.

Section C90.
  Variable format_source : str -> option str.
  Variables (d : Render.tdata) (s : str) (mm : list message).
  Hypothesis rendered_file : Render.render_asset format_source Generator.BaronPath d = Some s.
  Notation methods := (sv_methods (Render.td_service d)).
  Notation service := (sv_name (Render.td_service d)).
  Notation helper := (Render.td_helper d).
  Hypothesis made : new_helper mm methods = GoStr.Ret helper.
  Hypothesis ok : PropGoFile.file_ok mm d.
  Hypothesis lays_f : forall hm b f t, In hm helper -> In b (hm_binds hm) -> In f (hb_fields b) -> DecoderTexts.field_text f = Some t -> lays_out format_source t.
  Hypothesis lays_o : forall hm b o t, In hm helper -> In b (hm_binds hm) -> In o (hb_oneofs b) -> DecoderTexts.oneof_text o = Some t -> lays_out format_source t.
  Lemma has f : In (plain (func_toks f)) (FileAll.glue d) -> has_function s f.
  Proof. exact (PropGlue.has format_source d s mm rendered_file made ok lays_f lays_o f). Qed.

  (** The functions of the package that are found by name *)
  Definition is_fun (n : str) : bool := existsb (str_eqb n) (Wiring.package_names (PropGoFile.names d)).
  Definition pairs : list (hmeth * hbind) := flat_map (fun m => map (pair m) (hm_binds m)) helper.
  Definition decoder_of (m : hmeth) (b : hbind) : str * GoLang.block := (go_camel_case (hm_req m), DecoderProg.decoder_prog (go_camel_case (hm_req m)) b).
  Definition decoders (n : str) : option (str * GoLang.block) := option_map (fun p => decoder_of (fst p) (snd p)) (find (fun p => str_eqb (http_dec (snd p)) n) pairs).
  Definition encoder_of (m : hmeth) (b : hbind) : GoLang.block := EncoderProg.encoder_prog (go_camel_case (hm_req m)) b.
  Definition encoders (n : str) : option GoLang.block := option_map (fun p => encoder_of (fst p) (snd p)) (find (fun p => str_eqb (http_enc (snd p)) n) pairs).
  Definition answer_fun (m : hmeth) : gfunc := decode_response_fun (hm_name m) (go_camel_case (hm_resp m)).
  Definition http_funs : list gfunc := [error_encoder_fun; encode_response_fun] ++ map answer_fun helper.

  Lemma pair_in p : In p pairs -> In (fst p) helper /\ In (snd p) (hm_binds (fst p)).
  Proof. intro H. apply in_flat_map in H. destruct H as (m & Hm & H). apply in_map_iff in H. destruct H as (b & <- & Hb). split; assumption. Qed.
  Lemma in_pairs m b : In m helper -> In b (hm_binds m) -> In (m, b) pairs.
  Proof. intros Hm Hb. apply in_flat_map. exists m. split; [exact Hm|]. apply in_map. exact Hb. Qed.
  (** The text has the functions. *)
  Theorem c90_text : (has_function s (make_http_fun helper) /\ has_function s (new_http_fun service helper) /\ has_function s copy_url_fun) /\
    (forall f, In f http_funs -> has_function s f) /\
    (forall n ty prog, decoders n = Some (ty, prog) -> has_decoder s n prog) /\ (forall n prog, encoders n = Some prog -> has_encoder s n prog).
  Proof.
    assert (F : forall n (g : hbind -> str) p, find (fun p => str_eqb (g (snd p)) n) pairs = Some p -> In p pairs /\ g (snd p) = n).
    { intros n g p H. apply find_some in H. destruct H as [H1 H2]. split; [exact H1|]. revert H2. destruct (str_eqb_spec (g (snd p)) n); [auto|discriminate]. }
    split; [split; [|split]|split; [|split]].
    - apply has. unfold FileAll.glue. rewrite !in_app_iff. do 9 right. left. reflexivity.
    - apply has. unfold FileAll.glue. rewrite !in_app_iff. do 8 right. left. left. reflexivity.
    - apply has. unfold FileAll.glue. rewrite !in_app_iff. do 8 right. left. right. left. reflexivity.
    - intros f Hf. apply has. unfold FileAll.glue. rewrite !in_app_iff. unfold http_funs in Hf. cbn [app] in Hf. destruct Hf as [<-|[<-|Hf]].
      + do 4 right. left. right. left. reflexivity.
      + do 3 right. left. left. reflexivity.
      + apply in_map_iff in Hf. destruct Hf as (m & <- & Hm). do 5 right. left. apply in_flat_map. exists m. split; [exact Hm|left; reflexivity].
    - intros n ty prog H. unfold decoders in H. destruct (find _ pairs) as [p|] eqn:E; [|discriminate H]. cbn [option_map] in H. injection H as _ <-. destruct (F n http_dec p E) as [Hp <-]. destruct (pair_in p Hp) as [Hm Hb].
      destruct (PropGoFile.file_is format_source d s mm rendered_file made ok lays_f lays_o) as (ds & D & _ & _).
      destruct (PropGoFile.decoders_are format_source d s mm rendered_file made ok lays_f lays_o ds (fst p) (snd p) D Hm Hb) as (I & Tk & _). exists ds, (FileHttp.dec (fst p) (snd p)). split; [exact D|]. split; [exact I|exact Tk].
    - intros n prog H. unfold encoders in H. destruct (find _ pairs) as [p|] eqn:E; [|discriminate H]. cbn [option_map] in H. injection H as <-. destruct (F n http_enc p E) as [Hp <-]. destruct (pair_in p Hp) as [Hm Hb].
      destruct (PropGoFile.file_is format_source d s mm rendered_file made ok lays_f lays_o) as (ds & D & _ & _).
      destruct (PropGoFile.encoders_are format_source d s mm rendered_file made ok lays_f lays_o ds (fst p) (snd p) D Hm Hb) as (I & Tk & _). exists ds, (FileHttp.enc (fst p) (snd p)). split; [exact D|]. split; [exact I|exact Tk].
  Qed.

  (** Different methods, different labels *)
  Hypothesis Hmethods : NoDup (map sm_name methods).
  Hypothesis Hlabels : NoDup (flat_map (fun m => map hb_label (hm_binds m)) helper).
  Lemma labels_pairs : NoDup (map (fun p => hb_label (snd p)) pairs).
  Proof.
    assert (E : map (fun p => hb_label (snd p)) pairs = flat_map (fun m => map hb_label (hm_binds m)) helper); [|rewrite E; exact Hlabels].
    unfold pairs. generalize helper. induction l as [|m l IH]; [reflexivity|]. cbn [flat_map]. rewrite map_app, IH, map_map. reflexivity.
  Qed.
  Lemma find_pair (g : str -> str) m b : (forall x y, g x = g y -> x = y) -> In m helper -> In b (hm_binds m) -> find (fun p => str_eqb (g (hb_label (snd p))) (g (hb_label b))) pairs = Some (m, b).
  Proof.
    intros J Hm Hb. pose proof (in_pairs m b Hm Hb) as H. pose proof labels_pairs as N. revert H N. generalize pairs. intro l. induction l as [|p l IH]; intros H N; [destruct H|]. cbn [find map] in *. inversion N as [|? ? N1 N2]; subst.
    destruct H as [->|H]; [cbn [snd]; rewrite str_eqb_refl; reflexivity|]. destruct (str_eqb_spec (g (hb_label (snd p))) (g (hb_label b))) as [E|_]; [|exact (IH H N2)].
    exfalso. apply N1. apply J in E. rewrite E. apply (in_map (fun p => hb_label (snd p)) l (m, b) H).
  Qed.
  Lemma around_inj (a c x y : str) : a ++ x ++ c = a ++ y ++ c -> x = y.
  Proof. intro E. apply app_inv_head in E. apply app_inv_tail in E. exact E. Qed.
  Lemma decoder_found m b : In m helper -> In b (hm_binds m) -> decoders (http_dec b) = Some (decoder_of m b).
  Proof. intros Hm Hb. unfold decoders, http_dec. rewrite (find_pair (fun x => T "DecodeHTTP" ++ x ++ T "Request") m b (around_inj _ _) Hm Hb). reflexivity. Qed.
  Lemma encoder_found m b : In m helper -> In b (hm_binds m) -> encoders (http_enc b) = Some (encoder_of m b).
  Proof. intros Hm Hb. unfold encoders, http_enc. rewrite (find_pair (fun x => T "EncodeHTTP" ++ x ++ T "Request") m b (around_inj _ _) Hm Hb). reflexivity. Qed.
  Lemma names_nodup : NoDup (map hm_name helper).
  Proof. exact (PropClient.helper_nodup mm methods helper made Hmethods). Qed.
  Lemma answer_found m : In m helper -> WireGrpc.named http_funs (http_resp m) = Some (answer_fun m).
  Proof.
    intro Hm. unfold WireGrpc.named, http_funs. cbn [app find]. change (str_eqb (f_name error_encoder_fun) (http_resp m)) with false. cbv iota. change (str_eqb (f_name encode_response_fun) (http_resp m)) with false. cbv iota.
    pose proof names_nodup as N. revert Hm N. generalize helper. intro l. induction l as [|x l IH]; intros Hm N; [destruct Hm|]. cbn [map find] in *. inversion N as [|? ? N1 N2]; subst. change (f_name (answer_fun x)) with (http_resp x).
    destruct Hm as [->|Hm]; [rewrite str_eqb_refl; reflexivity|]. destruct (str_eqb_spec (http_resp x) (http_resp m)) as [E|_]; [|exact (IH Hm N2)].
    exfalso. apply N1. unfold http_resp in E. apply around_inj in E. rewrite E. apply in_map. exact Hm.
  Qed.
  Lemma is_in n : In n (Wiring.package_names (PropGoFile.names d)) -> is_fun n = true.
  Proof. intro H. unfold is_fun. apply existsb_exists. exists n. split; [exact H|apply str_eqb_refl]. Qed.
  Lemma is_names : is_fun (T "HTTPHeadersToContext") = true /\ is_fun (T "errorEncoder") = true /\ is_fun (T "EncodeHTTPGenericResponse") = true.
  Proof. split; [|split]; apply is_in; unfold Wiring.package_names; rewrite !in_app_iff; [do 6 right; left; right; left|do 4 right; left; right; right; left|do 6 right; left; left]; reflexivity. Qed.
  Lemma each_in pre suf x l : In x l -> In (pre ++ x ++ suf) (Wiring.each pre l suf).
  Proof. intro H. unfold Wiring.each. apply (in_map (fun x => pre ++ x ++ suf)). exact H. Qed.
  Lemma is_coder m b : In m helper -> In b (hm_binds m) -> is_fun (http_dec b) = true /\ is_fun (http_enc b) = true.
  Proof.
    intros Hm Hb. assert (L : In (hb_label b) (Wiring.labels (PropGoFile.names d))) by (apply in_flat_map; exists m; split; [exact Hm|apply in_map; exact Hb]).
    split; apply is_in; unfold Wiring.package_names; rewrite !in_app_iff; [do 5 right; left|do 8 right; left]; apply each_in; exact L.
  Qed.
  Lemma is_resp m : In m helper -> is_fun (http_resp m) = true.
  Proof. intro Hm. apply is_in; unfold Wiring.package_names; rewrite !in_app_iff. do 7 right; left. apply each_in. apply (in_map hm_name helper m Hm). Qed.
  Lemma names_in m : In m helper -> In (hm_name m) (map sm_name methods).
  Proof. intro Hm. destruct (PropGoFile.made_in mm methods helper m made Hm) as (x & Hx & E & _). destruct (PropGoFile.method_made mm x m E) as (-> & _). apply in_map. exact Hx. Qed.
  Lemma has_binds m : In m helper -> hm_binds m <> [].
  Proof. intro Hm. destruct (PropGoFile.made_in mm methods helper m made Hm) as (x & Hx & E & NE). destruct (PropGoFile.method_made mm x m E) as (_ & _ & _ & B & _). exact (B NE). Qed.
  Lemma main_labels : NoDup (map (fun m => hb_label (main m)) helper).
  Proof.
    pose proof has_binds as B. pose proof Hlabels as N. revert B N. generalize helper. intro l. induction l as [|m l IH]; intros B N; [constructor|]. cbn [map flat_map] in *.
    assert (Hm : hm_binds m <> []) by (apply B; left; reflexivity). assert (Bl : forall x, In x l -> hm_binds x <> []) by (intros x Hx; apply B; right; exact Hx).
    unfold main at 1. destruct (hm_binds m) as [|b bs]; [contradiction|]. cbn [map app hd] in *. inversion N as [|? ? N1 N2]; subst. constructor.
    - intro H. apply N1. apply in_map_iff in H. destruct H as (x & Ex & Hx). apply in_or_app. right. apply in_flat_map. exists x. split; [exact Hx|]. rewrite <- Ex. unfold main. specialize (Bl x Hx). destruct (hm_binds x) as [|y ys]; [contradiction|left; reflexivity].
    - apply IH; [exact Bl|]. clear - N2. induction (map hb_label bs) as [|x xs IHx]; [exact N2|]. inversion N2; subst. apply IHx. assumption.
  Qed.

  (** The handler: the request goes to the endpoint of the method whose binding GenHttp.v says, with the decoder of this binding, the package's error encoder and response encoder, the content type, and after these the options of the caller. *)
  Theorem c90_handler : forall Ep other_auth (eps : str -> Ep) os,
    let run := run_func _ _ (hlib Ep other_auth is_fun) (make_http_fun helper) [] [VStruct [kw "Endpoints"] (map (fun m => (sm_name m ++ T "Endpoint", VObj (HEp _ (eps (sm_name m))))) methods); hoptions _ os] None in
    exists rs, results run = Some [VObj (HRouter _)] /\ after run = Some (Some rs) /\
    forall h, dispatch _ rs h = match GenHttp.serve (GenHttp.make_routes helper) h with
      | Some (m, b, vars) => Some (mkHandler _ (eps m) (T "DecodeHTTP" ++ hb_label b ++ T "Request") (T "EncodeHTTPGenericResponse") ([HBefore (T "HTTPHeadersToContext"); HErrors (T "errorEncoder"); HType (T "application/json; charset=utf-8")] ++ os), vars)
      | None => None
      end.
  Proof.
    intros Ep oa eps os run. exists (routes_of Ep eps os helper).
    assert (A : VStruct [kw "Endpoints"] (map (fun m => (sm_name m ++ T "Endpoint", VObj (HEp Ep (eps (sm_name m))))) methods) = hendpoints Ep (map sm_name methods) eps) by (unfold hendpoints; rewrite map_map; reflexivity).
    unfold run. rewrite A. destruct (make_http_runs Ep oa is_fun (map sm_name methods) helper Hmethods names_in is_names is_coder is_resp has_binds main_labels eps os) as [R1 R2]. split; [exact R1|]. split; [exact R2|]. intro h. exact (dispatches Ep helper eps os h).
  Qed.
  (** The client: NewHTTPClient gives what Client.v says: an error, a panic, or endpoints; the endpoint of a method sends requests with the verb, URL and encoder of the first binding, and reads answers with the method's function. *)
  Theorem c90_client : forall Ep other_auth i os w,
    let run := run_func _ _ (hlib Ep other_auth is_fun) (new_http_fun service helper) [] [VStr i; coptions _ os] w in
    match Client.new_http_client other_auth i helper with
    | Client.ClientError => results run = Some [VNil; VObj (HErr _)]
    | Client.ClientPanics => run = Panic
    | Client.Client e => exists fields, results run = Some [VStruct [kw "Endpoints"] fields; VNil] /\
        forall m, In m methods -> lookup _ (sm_name m ++ T "Endpoint") fields = match e (sm_name m) with
          | Some (vb, u, b) => Some (VObj (HCall _ (mkRemote vb u (T "EncodeHTTP" ++ hb_label b ++ T "Request") (T "DecodeHTTP" ++ sm_name m ++ T "Response") os)))
          | None => None
          end
    end.
  Proof.
    intros Ep oa i os w run. pose proof (new_http_runs Ep oa is_fun service (map sm_name methods) helper names_in is_coder is_resp has_binds main_labels i os w) as R. unfold Client.new_http_client. fold (target i).
    destruct (Client.url_parse oa (target i)) as [u|]; [|exact R].
    assert (O : helper = [] \/ exists m l, helper = m :: l) by apply empty_or.
    destruct O as [O|(m0 & l0 & O)]; [rewrite O in R |- *; unfold run; rewrite O; exact R|].
    assert (G : forall (l : list hmeth) (P Q : Prop), (exists m r, l = m :: r) -> match l with [] => P | _ :: _ => Q end -> Q) by (intros l P Q (m & r & ->); exact (fun q => q)).
    pose proof (G helper _ _ (ex_intro _ m0 (ex_intro _ l0 O)) R) as R'.
    assert (C : match helper with [] => Client.ClientPanics | _ :: _ => Client.Client (Client.endpoints_of u helper) end = Client.Client (Client.endpoints_of u helper)) by (rewrite O; reflexivity).
    rewrite C. exists (map (fun m => (http_field m, VObj (HCall Ep (remote_of os u m)))) helper). split; [exact R'|]. intros m Hm.
    pose proof has_binds as B. pose proof names_nodup as N. clear - Hm B N. revert B N. generalize helper. intro l. induction l as [|x l IH]; intros B N; [reflexivity|]. cbn [map lookup Client.endpoints_of] in *. inversion N as [|? ? N1 N2]; subst.
    unfold http_field at 1.
    assert (E : str_eqb (sm_name m ++ T "Endpoint") (hm_name x ++ T "Endpoint") = str_eqb (hm_name x) (sm_name m)).
    { destruct (str_eqb_spec (hm_name x) (sm_name m)) as [->|Ne]; [apply str_eqb_refl|]. apply str_eqb_neq. intro E. apply app_inv_tail in E. congruence. }
    rewrite E. destruct (str_eqb_spec (hm_name x) (sm_name m)) as [Ex|_]; [|apply IH; [intros y Hy; apply B; right; exact Hy|exact N2]].
    specialize (B x (or_introl eq_refl)). unfold remote_of, main, http_resp, http_enc. destruct (hm_binds x) as [|b bs]; [contradiction|]. cbn [hd]. rewrite Ex. reflexivity.
  Qed.

  (** What a binding is asked for so that its decoder does what [decode_request] says (C84), and compiles (C66) *)
  Definition decodes (m : smethod) (sb : sbinding) : Prop :=
    WiringSpec.quiet (sm_name m) /\ NoDup (PropWiring.path_names (sb_params sb) ++ PropWiring.query_options (sb_params sb)) /\ NoDup (PropWiring.oneof_names (sb_params sb)) /\ exists enums, Forall (PropDecode.decodable enums) (sb_params sb).
  Definition handler_run Ep other_auth (eps : str -> Ep) os : flow (hob Ep) (world Ep) :=
    run_func _ _ (hlib Ep other_auth is_fun) (make_http_fun helper) [] [VStruct [kw "Endpoints"] (map (fun m => (sm_name m ++ T "Endpoint", VObj (HEp _ (eps (sm_name m))))) methods); hoptions _ os] None.
  Lemma served_in : forall ms (h : GenHttp.http_request) m b vars, GenHttp.serve (GenHttp.make_routes ms) h = Some (m, b, vars) -> exists x, In x ms /\ hm_name x = m /\ In b (hm_binds x).
  Proof.
    intros ms h m b vars. induction ms as [|x ms IH]; [discriminate|]. unfold GenHttp.make_routes. cbn [flat_map]. fold (GenHttp.make_routes ms).
    assert (G : forall bs, incl bs (hm_binds x) -> GenHttp.serve (map (fun b => (hm_name x, b)) bs ++ GenHttp.make_routes ms) h = Some (m, b, vars) -> exists y, In y (x :: ms) /\ hm_name y = m /\ In b (hm_binds y)).
    { induction bs as [|b0 bs IHb]; intros Hi H; [destruct (IH H) as (y & Hy & E); exists y; split; [right; exact Hy|exact E]|]. cbn [map app GenHttp.serve] in H.
      assert (Hi' : incl bs (hm_binds x)) by (intros z Hz; apply Hi; right; exact Hz).
      destruct (str_eqb _ _); [|exact (IHb Hi' H)]. destruct (GenHttp.mux_match _ _); [|exact (IHb Hi' H)]. injection H as <- <- <-. exists x. split; [left; reflexivity|]. split; [reflexivity|]. apply Hi. left. reflexivity. }
    apply G. apply incl_refl.
  Qed.
  Lemma decoder_runs K zero m b vars h : (forall x i sb, In x methods -> nth_error (sm_bindings x) i = Some sb -> decodes x sb) -> In m helper -> In b (hm_binds m) ->
    GoLang.call K zero (fst (decoder_of m b)) vars (Url.parse_query (GenHttp.rq_query h)) (Some (GenHttp.rq_body h)) (snd (decoder_of m b)) = Some (GenHttp.decode_request K zero b vars h) /\ GenHttp.decode_request K zero b vars h <> GenHttp.DBroken.
  Proof.
    intros Hd Hm Hb. destruct (PropGoFile.file_is format_source d s mm rendered_file made ok lays_f lays_o) as (ds & D & _ & _).
    destruct (PropGoFile.bind_ok d mm made ok m b Hm Hb) as (x & i & sb & Hx & _ & Hi & Eb & _). destruct (Hd x i sb Hx Hi) as (Q & N1 & N2 & enums & De).
    split; [|exact (PropDecode.c66_runs K mm enums i x sb b zero vars h Hi Eb De)].
    exact (proj1 (proj2 (proj2 (PropGoFile.decoders_are format_source d s mm rendered_file made ok lays_f lays_o ds m b D Hm Hb)) x i sb Hx Hi Eb Q N1 N2 K zero vars h)).
  Qed.
  (** The handler, as go-kit runs it with the functions of the package, answers as ErrorHop.v says.  [e]: the error that is answered, if any; its headers are visited in the order that [order] gives. *)
  Theorem c90_server : forall K Resp marshal unmarshal pj_text order zero decode_error other_auth (svc : str -> endpoint Resp) rs,
    (forall m i sb, In m methods -> nth_error (sm_bindings m) i = Some sb -> decodes m sb) ->
    after (handler_run (endpoint Resp) other_auth svc []) = Some (Some rs) ->
    forall h, exists e, router_serve K Resp marshal unmarshal pj_text order zero decode_error decoders http_funs rs h =
      ErrorHop.http_server K Resp (marshal [true; true; true; true]) pj_text zero decode_error (match ErrorHop.e_headers e with Some eh => order (keys eh) | None => [] end) (GenHttp.make_routes helper) svc h.
  Proof.
    intros K Resp marshal unmarshal pj_text order zero decode_error oa svc rs Hd Ha h. destruct (c90_handler (endpoint Resp) oa svc []) as (rs' & _ & Ha' & Di). fold (handler_run (endpoint Resp) oa svc []) in Ha'. rewrite Ha in Ha'. injection Ha' as <-.
    unfold router_serve, ErrorHop.http_server. rewrite Di. destruct (GenHttp.serve (GenHttp.make_routes helper) h) as [[[m b] vars]|] eqn:Es; [|exists (ErrorHop.plain_error []); reflexivity].
    destruct (served_in helper h m b vars Es) as (x & Hx & _ & Hb). destruct (decoder_runs K zero x b vars h Hd Hx Hb) as [R NB].
    exact (kit_answers K Resp marshal unmarshal pj_text order zero decode_error decoders http_funs eq_refl eq_refl svc m b vars h (fst (decoder_of x b)) (snd (decoder_of x b)) (decoder_found x b Hx Hb) R NB).
  Qed.

  (** What a binding is asked for so that its encoder does what [encode_request] says (C84), for a request *)
  Definition encodes (m : smethod) (sb : sbinding) (S : GoEncode.struct) (req : GenHttp.request) : Prop :=
    (forall o p, In (o, p) (EncoderProto.oneof_params sb) -> EncoderProto.scalar_option (fd_type o)) /\
    GoEncode.st_name S = go_camel_case (ft_name (sm_req m)) /\ EncoderProto.struct_of (sb_params sb) S /\ EncoderProto.typed (sb_params sb) req.
  (** A call of the client, when the requests that it sends come to such a handler, is a call as ErrorHop.v says. *)
  Theorem c90_hop : forall K Resp marshal unmarshal pj_text order zero decode_error other_auth (svc : str -> endpoint Resp) rs instance u scheme host os fields w net,
    (forall m i sb, In m methods -> nth_error (sm_bindings m) i = Some sb -> decodes m sb) -> (forall r1 r2 : GenHttp.request, (forall x, r1 x = r2 x) -> GenHttp.pj_enc K r1 = GenHttp.pj_enc K r2) ->
    after (handler_run (endpoint Resp) other_auth svc []) = Some (Some rs) ->
    Client.url_parse other_auth (if has_prefix instance (T "http") then instance else T "http://" ++ instance) = Some u -> Client.sent_to u = Some (scheme, host) -> Client.u_query u = [] ->
    results (run_func _ _ (hlib (endpoint Resp) other_auth is_fun) (new_http_fun service helper) [] [VStr instance; coptions _ os] w) = Some [VStruct [kw "Endpoints"] fields; VNil] ->
    (forall h, net scheme host h = router_serve K Resp marshal unmarshal pj_text order zero decode_error decoders http_funs rs h) ->
    forall m sb sbs S req, In m methods -> sm_bindings m = sb :: sbs -> encodes m sb S req ->
    exists c b e, lookup _ (sm_name m ++ T "Endpoint") fields = Some (VObj (HCall _ c)) /\ new_binding mm 0 m = GoStr.Ret b /\
      kit_call K Resp marshal unmarshal pj_text order encoders http_funs S net c req =
      Some (ErrorHop.http_call K Resp (marshal [true; true; true; true]) (unmarshal [true; true]) pj_text zero decode_error (match ErrorHop.e_headers e with Some eh => order (keys eh) | None => [] end) (GenHttp.make_routes helper) svc b req).
  Proof.
    intros K Resp marshal unmarshal pj_text order zero decode_error oa svc rs inst u scheme host os fields w net Hd Hk Ha Hu Hs Hq Hc Hn m sb sbs S req Hm Hsb (En1 & En2 & En3 & En4).
    destruct (PropClient.helper_first mm methods helper m sb sbs made Hm Hsb) as (x & b & bs & Hx & Ex & Hb & Eb).
    pose proof (c90_client (endpoint Resp) oa inst os w) as C. cbv zeta in C. unfold Client.new_http_client in C. rewrite Hu in C.
    assert (O : exists y l, helper = y :: l) by (clear - Hx; destruct helper as [|y l]; [destruct Hx|exists y, l; reflexivity]).
    assert (C' : match helper with [] => Client.ClientPanics | _ :: _ => Client.Client (Client.endpoints_of u helper) end = Client.Client (Client.endpoints_of u helper)) by (destruct O as (y & l & O); rewrite O; reflexivity).
    rewrite C' in C. destruct C as (fields' & Hc' & Lk). rewrite Hc in Hc'. injection Hc' as <-. specialize (Lk m Hm).
    rewrite <- Ex, (PropClient.endpoints_spec u helper x b bs names_nodup Hx Hb) in Lk.
    assert (Hbi : In b (hm_binds x)) by (rewrite Hb; left; reflexivity).
    destruct (PropGoFile.file_is format_source d s mm rendered_file made ok lays_f lays_o) as (ds & D & _ & _).
    destruct (PropGoFile.made_in mm methods helper x made Hx) as (m' & Hm' & Em' & _). destruct (PropGoFile.method_made mm m' x Em') as (N1 & N2 & N3 & _).
    assert (Em : m' = m) by (apply (PropClient.nodup_in methods); [exact Hmethods|exact Hm'|exact Hm|congruence]). subst m'.
    set (c := mkRemote _ _ _ _ _) in Lk. exists c, b.
    pose proof (proj2 (proj2 (PropGoFile.encoders_are format_source d s mm rendered_file made ok lays_f lays_o ds x b D Hx Hbi)) m 0 sb Hm (eq_trans (f_equal (fun l => nth_error l 0) Hsb) eq_refl) Eb En1 K S (Client.u_path (rc_url c)) req) as R.
    specialize (R (eq_trans En2 (f_equal go_camel_case (eq_sym N2))) En3 En4 Hk).
    assert (NW : go_camel_case (hm_resp x) <> T "errorWrapper").
    { rewrite N3. destruct (PropGoFile.ok_method mm d ok m Hm) as (_ & _ & Z). intro Z'. rewrite Z' in Z. destruct Z as [Z _]. discriminate Z. }
    pose proof (kit_calls K Resp marshal unmarshal pj_text order encoders http_funs S net c b req scheme host (encoder_of x b) (hm_name x) (go_camel_case (hm_resp x)) (encoder_found x b Hx Hbi) Hq Hs (answer_found x Hx) NW eq_refl R) as Cl.
    unfold ErrorHop.http_call. destruct (GenHttp.encode_request K b req) as [h|].
    - destruct (c90_server K Resp marshal unmarshal pj_text order zero decode_error oa svc rs Hd Ha h) as (e & Sv). exists e. split; [rewrite <- Ex; exact Lk|]. split; [exact Eb|]. rewrite Cl, Hn, Sv. reflexivity.
    - exists (ErrorHop.plain_error []). split; [rewrite <- Ex; exact Lk|]. split; [exact Eb|]. exact Cl.
  Qed.
End C90.
Print Assumptions c90_text.
Print Assumptions c90_handler.
Print Assumptions c90_client.
Print Assumptions c90_server.
Print Assumptions c90_hop.

(** ** A case: PropGoFile.shop: PutItem with POST /v1/{id}/{kind}, and Watch without bindings.  A call of the client of "shop.example:80" returns what the service returns for the request that the client was given. *)
From Verif Require HttpTypes HttpTypesProofs GenHttpSpec PropGoEncoder.
Import PropGoEncoder HttpTypes HttpTypesProofs GenHttpSpec.
Lemma shop_decodes : forall m i sb, In m (sv_methods (Render.td_service PropGoFile.shop)) -> nth_error (sm_bindings m) i = Some sb -> decodes m sb.
Proof.
  intros m i sb Hm Hi. cbn [PropGoFile.shop Render.td_service sv_methods In] in Hm. destruct Hm as [<-|[<-|[]]]; [|destruct i; discriminate Hi]. destruct i as [|[|i]]; try discriminate Hi. injection Hi as <-. split; [|split; [|split]].
  - intros x Hx [y K]; cbn [In] in Hx. repeat destruct Hx as [<-|Hx]; try contradiction; destruct K as [K|K]; apply (f_equal (@rev _)) in K; rewrite rev_app_distr in K; vm_compute in K; discriminate K.
  - vm_compute. repeat (constructor; [cbn [In]; intuition discriminate|]). constructor.
  - vm_compute. repeat (constructor; [cbn [In]; intuition discriminate|]). constructor.
  - exists [T "Kind"]. assert (SN : forall x, In x go_base_types -> scalar_name x) by (intros x H; exact H).
    apply Forall_cons; [right; split; [apply PtScalar; apply SN; apply base_dec; reflexivity|split; [intros (_ & H & _); discriminate H|reflexivity]]|].
    apply Forall_cons; [right; split; [apply PtEnum; [reflexivity|intro H; vm_compute in H; repeat destruct H as [H|H]; discriminate H || contradiction]|split; [intros (_ & H & _); discriminate H|reflexivity]]|].
    apply Forall_cons; [right; split; [apply PtScalars; apply SN; apply base_dec; reflexivity|split; [intros (H & _); discriminate H|intro H; discriminate H]]|].
    apply Forall_cons; [|apply Forall_cons; [left; reflexivity|apply Forall_nil]].
    apply Forall_cons; [eexists; eexists; eexists; split; [reflexivity|apply SN; apply base_dec; reflexivity]|].
    apply Forall_cons; [eexists; eexists; eexists; split; [reflexivity|apply SN; apply base_dec; reflexivity]|apply Forall_nil].
Qed.
Example c90_case : exists s rs fields c e, Render.render_asset (fun _ => None) Generator.BaronPath PropGoFile.shop = Some s /\
  (has_function s (make_http_fun (Render.td_helper PropGoFile.shop)) /\ has_function s (new_http_fun (T "Shop") (Render.td_helper PropGoFile.shop))) /\
  let svc := (fun m _ => (if str_eqb m (T "PutItem") then T "done" else T "watched", None)) : str -> endpoint str in
  let marshal := fun (_ : list bool) (r : str) => Some r in let unmarshal := fun (_ : list bool) (x : str) => Some x in
  after (handler_run PropGoFile.shop (endpoint str) (fun _ => None) svc []) = Some (Some rs) /\
  results (run_func _ _ (hlib (endpoint str) (fun _ => None) (is_fun PropGoFile.shop)) (new_http_fun (T "Shop") (Render.td_helper PropGoFile.shop)) [] [VStr (T "shop.example:80"); coptions _ [4]] None) = Some [VStruct [kw "Endpoints"] fields; VNil] /\
  lookup _ (T "PutItemEndpoint") fields = Some (VObj (HCall _ c)) /\ lookup _ (T "WatchEndpoint") fields = None /\
  rc_url c = Client.mkUrl (T "http") [] (T "shop.example:80") (T "/v1/") [] /\
  (let net := fun scheme host h => if str_eqb scheme (T "http") && str_eqb host (T "shop.example:80") then router_serve PropGenHttp.K0 str marshal unmarshal [] (fun l => l) (fun _ => GenHttp.VNone) (fun _ => ErrorHop.plain_error []) (decoders PropGoFile.shop) (http_funs PropGoFile.shop) rs h else None in
   kit_call PropGenHttp.K0 str marshal unmarshal [] (fun l => l) (encoders PropGoFile.shop) (http_funs PropGoFile.shop) post_struct net c post_msg =
     Some (ErrorHop.http_call PropGenHttp.K0 str (marshal [true; true; true; true]) (unmarshal [true; true]) [] (fun _ => GenHttp.VNone) (fun _ => ErrorHop.plain_error []) (match ErrorHop.e_headers e with Some eh => keys eh | None => [] end) (GenHttp.make_routes (Render.td_helper PropGoFile.shop)) svc post_b post_msg) /\
   kit_call PropGenHttp.K0 str marshal unmarshal [] (fun l => l) (encoders PropGoFile.shop) (http_funs PropGoFile.shop) post_struct net c post_msg = Some (ErrorHop.CallReturns (Some (T "done")) None)).
Proof.
  pose proof (TextProofs.baron_is (fun _ => None) PropGoFile.shop) as R. remember (concat (TextFile.baron_pieces (fun _ => None) PropGoFile.shop)) as s eqn:Es. clear Es.
  assert (M : new_helper [] (sv_methods (Render.td_service PropGoFile.shop)) = GoStr.Ret (Render.td_helper PropGoFile.shop)) by (vm_compute; reflexivity).
  assert (LF : forall hm b f t, In hm (Render.td_helper PropGoFile.shop) -> In b (hm_binds hm) -> In f (hb_fields b) -> DecoderTexts.field_text f = Some t -> lays_out (fun _ => None) t) by (intros; intros ? K; discriminate K).
  assert (LO : forall hm b o t, In hm (Render.td_helper PropGoFile.shop) -> In b (hm_binds hm) -> In o (hb_oneofs b) -> DecoderTexts.oneof_text o = Some t -> lays_out (fun _ => None) t) by (intros; intros ? K; discriminate K).
  assert (N1 : NoDup (map sm_name (sv_methods (Render.td_service PropGoFile.shop)))) by (vm_compute; repeat constructor; cbn [In]; intuition discriminate).
  assert (N2 : NoDup (flat_map (fun m => map hb_label (hm_binds m)) (Render.td_helper PropGoFile.shop))) by (vm_compute; repeat constructor; cbn [In]; intuition discriminate).
  destruct (proj1 (c90_text (fun _ => None) PropGoFile.shop s [] R M PropGoFile.shop_ok LF LO)) as (T1 & T2 & _).
  pose (svc := (fun m _ => (if str_eqb m (T "PutItem") then T "done" else T "watched", None)) : str -> endpoint str).
  destruct (c90_handler PropGoFile.shop [] M N1 N2 (endpoint str) (fun _ => None) svc []) as (rs & _ & Ha & _).
  pose proof (c90_client PropGoFile.shop [] M N1 N2 (endpoint str) (fun _ => None) (T "shop.example:80") [4] None) as C. cbv zeta in C.
  assert (U : Client.url_parse (fun _ => None) (T "http://shop.example:80") = Some (Client.mkUrl (T "http") [] (T "shop.example:80") [] [])) by (vm_compute; reflexivity).
  assert (CN : Client.new_http_client (fun _ => None) (T "shop.example:80") (Render.td_helper PropGoFile.shop) = Client.Client (Client.endpoints_of (Client.mkUrl (T "http") [] (T "shop.example:80") [] []) (Render.td_helper PropGoFile.shop))) by (vm_compute; reflexivity).
  rewrite CN in C. destruct C as (fields & Hc & Lk).
  pose (net := fun scheme host h => if str_eqb scheme (T "http") && str_eqb host (T "shop.example:80") then router_serve PropGenHttp.K0 str (fun _ r => Some r) (fun _ x => Some x) [] (fun l => l) (fun _ => GenHttp.VNone) (fun _ => ErrorHop.plain_error []) (decoders PropGoFile.shop) (http_funs PropGoFile.shop) rs h else None).
  assert (En : encodes post_m post_sb post_struct post_msg).
  { split; [|split; [reflexivity|split]].
    - intros o p H. cbn in H. repeat destruct H as [H|H]; try contradiction; (injection H as <- <-; split; [reflexivity|apply base_dec; reflexivity]).
    - repeat apply Forall_cons; try apply Forall_nil; try (intros _); reflexivity.
    - intros p os o g H1' _ H2' H3' H4'. cbn in H1'. repeat destruct H1' as [<-|H1']; try contradiction; cbn in H2'; try discriminate H2'. injection H2' as <-. cbn in H3'. repeat destruct H3' as [<-|H3']; try contradiction.
      + vm_compute in H4'. discriminate H4'.
      + vm_compute in H4'. injection H4' as <-. exists (-3)%Z. reflexivity. }
  destruct (c90_hop (fun _ => None) PropGoFile.shop s [] R M PropGoFile.shop_ok LF LO N1 N2 PropGenHttp.K0 str (fun _ r => Some r) (fun _ x => Some x) [] (fun l => l) (fun _ => GenHttp.VNone) (fun _ => ErrorHop.plain_error []) (fun _ => None) svc rs
    (T "shop.example:80") (Client.mkUrl (T "http") [] (T "shop.example:80") [] []) (T "http") (T "shop.example:80") [4] fields None net shop_decodes (fun r1 r2 _ => eq_refl) Ha U eq_refl eq_refl Hc (fun h => eq_refl) post_m post_sb [] post_struct post_msg (or_introl eq_refl) eq_refl En) as (c & b & e & L1 & Eb & K).
  assert (Eb' : b = post_b) by (vm_compute in Eb; vm_compute; congruence). subst b.
  exists s, rs, fields, c, e. split; [exact R|]. split; [split; [exact T1|exact T2]|]. split; [exact Ha|]. split; [exact Hc|]. split; [exact L1|]. split; [exact (Lk PropGoFile.watch_m (or_intror (or_introl eq_refl)))|]. split.
  - pose proof (Lk post_m (or_introl eq_refl)) as L2. rewrite L1 in L2. vm_compute in L2. injection L2 as ->. reflexivity.
  - split; [exact K|]. refine (eq_trans K _). vm_compute. reflexivity.
Qed.
