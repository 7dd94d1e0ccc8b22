(** C91: the functions of the generated baron file keep Go's rules for names (GoScope.v). *)
From Coq Require Import String Lia.
From Verif Require Import GoStr GoStrProofs GoMap Strs StrsSpec SvcTypes GoLex GoDecls GoGlue GlueProg WireProg HttpProg GoScope HttpTransport.
From Verif Require ScopeFree StrsSpec WireGrpc Wiring WiringSpec WiringProofs Render PropWiring PropGoFile PropGlue PropHttpWire FileAll FileHead FileHttp FileGrpc FileNats TextFile TextProofs Generator DecoderTexts PropClient.

Lemma mem_in x l : mem x l = true <-> In x l.
Proof. unfold mem. rewrite existsb_exists. split; [intros (y & H & E); apply str_eqb_eq in E; subst; exact H|intro H; exists x; split; [exact H|apply str_eqb_refl]]. Qed.
Lemma mem_not x l : mem x l = false <-> ~ In x l.
Proof. rewrite <- mem_in. destruct (mem x l); split; intro H; [discriminate H|exfalso; apply H; reflexivity|intro K; discriminate K|reflexivity]. Qed.
Lemma distinct_is l : distinct l = true <-> NoDup l.
Proof.
  induction l as [|x l IH]; [split; [constructor|reflexivity]|]. cbn [distinct]. rewrite andb_true_iff, negb_true_iff, mem_not, IH. split; [intros [H1 H2]; constructor; assumption|intro H; inversion H; auto].
Qed.

Lemma either (b : bool) : (if b then true else true) = true. Proof. destruct b; reflexivity. Qed.
Section Funs.
  Variable g : str -> bool.
  (** What every file knows: Go's own names, the imports of every file, and constant names of the package *)
  Definition consts : list str := [T "error"; T "string"; T "append"; T "panic"; T "len"; T "byte"; T "int";
    T "context"; T "endpoint"; T "fmt"; T "strings"; T "http"; T "httptransport"; T "json"; T "errors"; T "io"; T "ioutil"; T "proto"; T "protojson"; T "mux"; T "url";
    T "Endpoints"; T "contentType"; T "errorWrapper"; T "httpError"; T "errorEncoder"; T "errorDecoder"; T "EncodeHTTPGenericResponse"; T "HTTPHeadersToContext"; T "copyURL"].
  Hypothesis Hg : forall x, mem x consts = true -> g x = true.
  Ltac look := repeat match goal with |- context [g ?x] => first [rewrite (Hg x eq_refl) | match goal with H : g _ = true |- _ => rewrite (H : g x = true) end] end.
  Ltac check := cbv; rewrite ?either; look; reflexivity.
  Lemma call_ok m : g (req_name m) = true -> g (resp_name m) = true -> func_ok g (call_fun m) = true.
  Proof. intros H1 H2. unfold call_fun. revert H1 H2. generalize (req_name m) (resp_name m) (field m). intros a b c H1 H2. check. Qed.
  Lemma make_ok svc m : g (svc ++ T "Server") = true -> g (req_name m) = true -> func_ok g (make_fun svc m) = true.
  Proof. intros H1 H2. unfold make_fun. revert H1 H2. generalize (req_name m) (svc ++ T "Server"). intros a b H1 H2. check. Qed.
  Lemma headers_ok : func_ok g headers_fun = true. Proof. check. Qed.
  Lemma send_ok : func_ok g send_fun = true. Proof. check. Qed.
  Lemma error_encoder_ok : func_ok g error_encoder_fun = true. Proof. check. Qed.
  Lemma error_decoder_ok : func_ok g error_decoder_fun = true. Proof. check. Qed.
  Lemma status_ok : func_ok g status_fun = true. Proof. check. Qed.
  Lemma error_headers_ok : func_ok g error_headers_fun = true. Proof. check. Qed.
  Lemma encode_response_ok : func_ok g encode_response_fun = true. Proof. check. Qed.
  Lemma decode_response_ok n ty : g ty = true -> func_ok g (decode_response_fun n ty) = true. Proof. intro H. check. Qed.
  Lemma copy_url_ok : func_ok g copy_url_fun = true. Proof. check. Qed.
  (** *** gRPC and NATS, one method *)
  Lemma pass_ok m f : In f [grpc_dec_req_fun m; grpc_enc_resp_fun m; grpc_dec_resp_fun m; grpc_enc_req_fun m] -> g (req_name m) = true -> g (resp_name m) = true -> func_ok g f = true.
  Proof.
    intros H H1 H2. unfold grpc_dec_req_fun, grpc_enc_resp_fun, grpc_dec_resp_fun, grpc_enc_req_fun, grpc_dec_req, grpc_enc_resp, grpc_dec_resp, grpc_enc_req, pass_fun in H.
    revert H H1 H2. generalize (req_name m) (resp_name m) (sm_name m). intros a b c H H1 H2. destruct H as [<-|[<-|[<-|[<-|[]]]]]; check.
  Qed.
  Lemma grpc_method_ok m : g (T "grpcServer") = true -> g (req_name m) = true -> g (resp_name m) = true -> func_ok g (grpc_method_fun m) = true.
  Proof. intros H0 H1 H2. unfold grpc_method_fun. revert H1 H2. generalize (req_name m) (resp_name m) (sm_name m) (low m) (go_camel_case (sm_name m)). intros a b c x y H1 H2. check. Qed.
  Lemma metadata_ok : g (T "metadata") = true -> func_ok g metadata_fun = true.
  Proof. intros H1. check. Qed.
  Lemma to_metadata_ok : g (T "metadata") = true -> g (T "grpctransport") = true -> func_ok g to_metadata_fun = true.
  Proof. intros H1 H2. check. Qed.
  Lemma nats_decode_ok m f : In f [nats_dec_req_fun m; nats_dec_resp_fun m] -> g (T "nats") = true -> g (req_name m) = true -> g (resp_name m) = true -> func_ok g f = true.
  Proof.
    intros H H0 H1 H2. unfold nats_dec_req_fun, nats_dec_resp_fun, nats_dec_req, nats_dec_resp, nats_decode_fun in H. revert H H1 H2. generalize (req_name m) (resp_name m) (sm_name m). intros a b c H H1 H2. destruct H as [<-|[<-|[]]]; check.
  Qed.
  Lemma nats_encode_ok f : In f [nats_encode_fun; nats_encode_request_fun] -> g (T "nats") = true -> g (T "natstransport") = true -> func_ok g f = true.
  Proof. intros [<-|[<-|[]]] H1 H2; check. Qed.
  (** *** Functions with something for every method *)
  Notation block := (block_ok (stm_ok g)).
  Lemma known_g sc x : g x = true -> known g sc x = true. Proof. intro H. unfold known. rewrite H. reflexivity. Qed.
  Lemma known_in sc l x : In x l -> In l sc -> known g sc x = true.
  Proof. intros H1 H2. unfold known. apply orb_true_iff. right. apply existsb_exists. exists l. split; [exact H2|]. apply mem_in. exact H1. Qed.
  Lemma known_top l top outer x : In x top -> known g (l :: top :: outer) x = true. Proof. intro H. apply (known_in _ top); [exact H|right; left; reflexivity]. Qed.
  Lemma e_var sc x : exp_ok g sc (EVar x) = known g sc x. Proof. reflexivity. Qed.
  Lemma e_str sc x : exp_ok g sc (EStr x) = true. Proof. reflexivity. Qed.
  Lemma e_sel sc e x : exp_ok g sc (ESel e x) = exp_ok g sc e. Proof. reflexivity. Qed.
  Lemma e_spread sc e : exp_ok g sc (ESpread e) = exp_ok g sc e. Proof. reflexivity. Qed.
  Lemma e_call sc f args : exp_ok g sc (ECall f args) = exp_ok g sc f && forallb (exp_ok g sc) args. Proof. reflexivity. Qed.
  Lemma e_callc sc f args : exp_ok g sc (ECallC f args) = exp_ok g sc f && forallb (exp_ok g sc) args. Proof. reflexivity. Qed.
  Lemma e_zero sc ty : exp_ok g sc (ELit [Word ty] []) = (known g sc ty || type_keyword ty) && true && true && true. Proof. reflexivity. Qed.
  Lemma e_lit sc ty fs : exp_ok g sc (ELit [Word ty] fs) = ((known g sc ty || type_keyword ty) && true) && distinct (map fst fs) && forallb (fun p => exp_ok g sc (snd p)) fs. Proof. reflexivity. Qed.
  Ltac exps := unfold pkg, v; cbn [forallb]; repeat first [rewrite e_var | rewrite e_str | rewrite e_sel | rewrite e_spread | rewrite e_call | rewrite e_callc | rewrite e_zero | rewrite e_lit | progress cbn [forallb]].
  Ltac knows := repeat match goal with |- context [known g ?sc ?x] => first [rewrite (known_g sc x (Hg x eq_refl)) | rewrite (known_g sc x) by assumption | match goal with K : _ |- _ => first [rewrite (K sc) | rewrite (K _ : known g sc x = true)] end] end.

  (** Statements that declare nothing *)
  Lemma quiet_rows outer tl top l : (forall s, In s l -> declared s = [] /\ new_variables top s = [] /\ declares_ok top s = true /\ stm_ok g (top :: outer) s = true) ->
    block top outer (l ++ tl) = block top outer tl.
  Proof.
    induction l as [|s l IH]; intro H; [reflexivity|]. cbn [app block_ok]. destruct (H s (or_introl eq_refl)) as (D & V & O & S). rewrite S, O, V, D. cbn [forallb andb app]. apply IH. intros t Ht. apply H. right. exact Ht.
  Qed.
  (** The names of the middleware functions: included holds each name once, and inc is used. *)
  Lemma wrap_ok labeled names : NoDup names -> names <> [] -> func_ok g (wrap_fun labeled names) = true.
  Proof.
    intros N E. pose proof (proj2 (distinct_is names) N) as H1.
    assert (H2 : uses_inner (T "inc") (uses_stm (T "inc")) (map (wrap_one labeled) names) = true) by (destruct names; [congruence|reflexivity]).
    assert (H3 : block [] [[T "inc"]; [T "included"; T "e"; T "middleware"; T "excluded"]] (map (wrap_one labeled) names) = true).
    { rewrite <- (app_nil_r (map _ names)), quiet_rows; [reflexivity|]. intros s Hs. apply in_map_iff in Hs. destruct Hs as (n & <- & _). split; [reflexivity|]. split; [reflexivity|]. split; [reflexivity|]. destruct labeled; check. }
    unfold wrap_fun. revert H1 H2 H3. generalize (map (wrap_one labeled) names). intros rows H1 H2 H3. cbv in H1, H2, H3 |- *. destruct labeled; rewrite ?either; look; rewrite H1, H2, H3; reflexivity.
  Qed.
  Lemma wrap_empty labeled : func_ok g (wrap_fun labeled []) = false.
  Proof. destruct labeled; check. Qed.

  (** Variables for the endpoints of a client, each one set in a block *)
  Lemma endpoints_ok {A} (var : A -> str) (blk : A -> list gstm) outer tl : forall ms top, NoDup (map var ms) -> (forall m, In m ms -> ~ In (var m) top) ->
    (forall m, In m ms -> existsb (uses_stm (var m)) tl = true) ->
    (forall m top', In m ms -> incl top top' -> In (var m) top' -> block [] (top' :: outer) (blk m) = true) ->
    (forall top', incl top top' -> incl (map var ms) top' -> block top' outer tl = true) ->
    block top outer (flat_map (fun m => [SVar (var m) endpoint_ty; SBlock (blk m)]) ms ++ tl) = true.
  Proof.
    induction ms as [|m ms IH]; intros top N F U B R; [apply R; [apply incl_refl|intros x []]|]. cbn [flat_map app block_ok declared new_variables declares_ok forallb andb]. inversion N as [|? ? N1 N2]; subst.
    assert (Fm : mem (var m) top = false) by (apply mem_not; apply F; left; reflexivity). rewrite Fm. cbn [negb andb].
    assert (E1 : stm_ok g (top :: outer) (SVar (var m) endpoint_ty) = true) by check. rewrite E1.
    assert (E2 : existsb (uses_stm (var m)) (SBlock (blk m) :: flat_map (fun m0 => [SVar (var m0) endpoint_ty; SBlock (blk m0)]) ms ++ tl) = true).
    { cbn [existsb]. rewrite existsb_app, (U m (or_introl eq_refl)), !orb_true_r. reflexivity. }
    rewrite E2. cbn [andb app]. assert (E3 : stm_ok g ((var m :: top) :: outer) (SBlock (blk m)) = true).
    { apply (B m (var m :: top)); [left; reflexivity|intros x Hx; right; exact Hx|left; reflexivity]. }
    rewrite E3. cbn [andb]. apply IH.
    - exact N2.
    - intros x Hx [K|K]; [apply N1; rewrite K; apply in_map; exact Hx|]. exact (F x (or_intror Hx) K).
    - intros x Hx. apply U. right. exact Hx.
    - intros x top' Hx I. apply B; [right; exact Hx|]. intros y Hy. apply I. right. exact Hy.
    - intros top' I J. apply R; [intros y Hy; apply I; right; exact Hy|]. intros y [<-|Hy]; [apply I; left; reflexivity|apply J; exact Hy].
  Qed.
  Lemma set_ok sc x f args n : known g ([] :: sc) x = true -> exp_ok g ([] :: sc) f = true -> forallb (exp_ok g ([] :: sc)) args = true ->
    block [] sc [SSet [EVar x] (ECall (ESel (ECallC f args) n) [])] = true.
  Proof.
    intros H1 H2 H3. change ((((str_eqb x (T "_") || known g ([] :: sc) x) && true) && ((exp_ok g ([] :: sc) f && forallb (exp_ok g ([] :: sc)) args) && true)) && true && true && true = true). rewrite H1, H2, H3, orb_true_r. reflexivity.
  Qed.
  (** What a client returns *)
  Lemma ret_ok {A} (fld var : A -> str) ms sc : NoDup (map fld ms) -> (forall m, In m ms -> known g sc (var m) = true) ->
    stm_ok g sc (SRet [ELit [kw "Endpoints"] (map (fun m => (fld m, EVar (var m))) ms); ENil]) = true.
  Proof.
    intros N K. change (exp_ok g sc (ELit [Word (T "Endpoints")] (map (fun m => (fld m, EVar (var m))) ms)) && true = true). rewrite e_lit, (known_g sc (T "Endpoints") (Hg (T "Endpoints") eq_refl)). assert (E : map fst (map (fun m => (fld m, EVar (var m))) ms) = map fld ms) by (rewrite map_map; reflexivity). rewrite E. cbn [orb andb].
    rewrite (proj2 (distinct_is _) N). cbn [andb]. rewrite andb_true_r. apply forallb_forall. intros p Hp. apply in_map_iff in Hp. destruct Hp as (m & <- & Hm). cbn [snd]. rewrite e_var. apply K. exact Hm.
  Qed.
  Lemma ret_uses {A} (fld var : A -> str) ms m : In m ms -> existsb (uses_stm (var m)) [SRet [ELit [kw "Endpoints"] (map (fun m => (fld m, EVar (var m))) ms); ENil]] = true.
  Proof.
    intro H. change ((existsb (fun p => uses_exp (var m) (snd p)) (map (fun m => (fld m, EVar (var m))) ms) || false) || false = true). rewrite !orb_false_r. apply existsb_exists. exists (fld m, EVar (var m)). split; [apply in_map_iff; exists m; split; [reflexivity|exact H]|].
    apply str_eqb_refl.
  Qed.
  (** *** The clients *)
  Lemma func_is f : forallb (fun p => type_ok g [] (snd p)) (f_params f) = true -> type_ok g [] (f_results f) = true -> f_recv f = None -> distinct (named_only (parameters f)) = true -> block (parameters f) [] (f_body f) = true -> func_ok g f = true.
  Proof. intros H1 H2 H3 H4 H5. unfold func_ok. rewrite H1, H2, H3, H4, H5. reflexivity. Qed.
  Lemma new_grpc_ok svc package ms : g (svc ++ T "Server") = true -> g (T "grpc") = true -> g (T "grpctransport") = true ->
    (forall m, In m ms -> g (resp_name m) = true /\ g (grpc_enc_req m) = true /\ g (grpc_dec_resp m) = true) -> NoDup (map sm_name ms) -> NoDup ([T "conn"; T "options"] ++ map low_var ms) ->
    func_ok g (new_grpc_fun svc package ms) = true.
  Proof.
    intros Hs H1 H2 Hm N F. apply func_is; unfold new_grpc_fun; cbn [f_params f_results f_recv f_body].
    1, 2: revert Hs; generalize (svc ++ T "Server"); intros sv Hs; check. 1: reflexivity.
    - change (parameters _) with [T "conn"; T "options"]. reflexivity.
    - change (parameters _) with [T "conn"; T "options"]. apply (endpoints_ok low_var).
      + exact (proj1 (proj2 (proj1 (WiringProofs.nodup_app_iff _ _ _) F))).
      + intros m Hi K. apply (proj2 (proj2 (proj1 (WiringProofs.nodup_app_iff _ _ _) F)) (low_var m) K). apply in_map. exact Hi.
      + intros m Hi. exact (ret_uses field low_var ms m Hi).
      + intros m top' Hi I V. destruct (Hm m Hi) as (M1 & M2 & M3). assert (K1 : In (T "conn") top') by (apply I; left; reflexivity). assert (K2 : In (T "options") top') by (apply I; right; left; reflexivity).
        apply set_ok.
        * apply (known_in _ top'); [exact V|right; left; reflexivity].
        * exps. apply known_g. exact H2.
        * exps. rewrite (known_top _ top' _ _ K1), (known_top _ top' _ _ K2), (known_g _ _ M1), (known_g _ _ M2), (known_g _ _ M3). reflexivity.
      + intros top' I J. cbn [block_ok declared new_variables declares_ok forallb]. rewrite (ret_ok field low_var ms); [reflexivity| |].
        * unfold field. apply (WireGrpc.nodup_suffix sm_name). exact N.
        * intros m Hi. apply (known_in _ top'); [apply J; apply in_map; exact Hi|left; reflexivity].
  Qed.
  Lemma new_nats_ok svc ms : g (svc ++ T "Server") = true -> g (T "nats") = true -> g (T "natstransport") = true -> g (T "EncodeNATSGenericRequest") = true ->
    (forall m, In m ms -> g (nats_dec_resp m) = true) -> NoDup (map sm_name ms) -> NoDup ([T "conn"; T "options"] ++ map low_var ms) ->
    func_ok g (new_nats_fun svc ms) = true.
  Proof.
    intros Hs H1 H2 H3 Hm N F. apply func_is; unfold new_nats_fun; cbn [f_params f_results f_recv f_body].
    1, 2: revert Hs; generalize (svc ++ T "Server"); intros sv Hs; check. 1: reflexivity.
    - change (parameters _) with [T "conn"; T "options"]. reflexivity.
    - change (parameters _) with [T "conn"; T "options"]. apply (endpoints_ok low_var).
      + exact (proj1 (proj2 (proj1 (WiringProofs.nodup_app_iff _ _ _) F))).
      + intros m Hi K. apply (proj2 (proj2 (proj1 (WiringProofs.nodup_app_iff _ _ _) F)) (low_var m) K). apply in_map. exact Hi.
      + intros m Hi. exact (ret_uses field low_var ms m Hi).
      + intros m top' Hi I V. assert (K1 : In (T "conn") top') by (apply I; left; reflexivity). assert (K2 : In (T "options") top') by (apply I; right; left; reflexivity).
        apply set_ok.
        * apply (known_in _ top'); [exact V|right; left; reflexivity].
        * exps. apply known_g. exact H2.
        * exps. rewrite (known_top _ top' _ _ K1), (known_top _ top' _ _ K2), (known_g _ _ H3), (known_g _ _ (Hm m Hi)). reflexivity.
      + intros top' I J. cbn [block_ok declared new_variables declares_ok forallb]. rewrite (ret_ok field low_var ms); [reflexivity| |].
        * unfold field. apply (WireGrpc.nodup_suffix sm_name). exact N.
        * intros m Hi. apply (known_in _ top'); [apply J; apply in_map; exact Hi|left; reflexivity].
  Qed.
  (** NewHTTPClient: u, which only a method needs, is set aside *)
  Lemma new_http_ok svc ms : g (svc ++ T "Server") = true ->
    (forall m, In m ms -> g (http_enc (main m)) = true /\ g (http_resp m) = true) -> NoDup (map hm_name ms) -> NoDup ([T "instance"; T "options"; T "u"; T "err"] ++ map main_var ms) ->
    func_ok g (new_http_fun svc ms) = true.
  Proof.
    intros Hs Hm N F. apply func_is; unfold new_http_fun; cbn [f_params f_results f_recv f_body].
    1, 2: revert Hs; generalize (svc ++ T "Server"); intros sv Hs; check. 1: reflexivity.
    - change (parameters _) with [T "instance"; T "options"]. reflexivity.
    - change (parameters _) with [T "instance"; T "options"].
      set (R := flat_map http_endpoint ms ++ [SRet [ELit [kw "Endpoints"] (map http_endpoint_field ms); ENil]]).
      assert (B : block [T "u"; T "err"; T "instance"; T "options"] [] R = true).
      { apply (endpoints_ok main_var).
        + exact (proj1 (proj2 (proj1 (WiringProofs.nodup_app_iff _ _ _) F))).
        + intros m Hi K. apply (proj2 (proj2 (proj1 (WiringProofs.nodup_app_iff _ _ _) F)) (main_var m)); [|apply in_map; exact Hi]. cbn [In] in *. tauto.
        + intros m Hi. exact (ret_uses http_field main_var ms m Hi).
        + intros m top' Hi I V. destruct (Hm m Hi) as [M1 M2]. assert (K1 : In (T "u") top') by (apply I; left; reflexivity). assert (K2 : In (T "options") top') by (apply I; do 3 right; left; reflexivity).
          apply set_ok.
          * apply (known_in _ top'); [exact V|right; left; reflexivity].
          * exps. apply known_g. apply Hg. reflexivity.
          * exps. rewrite (known_top _ top' _ _ K1), (known_top _ top' _ _ K2), (known_g _ _ M1), (known_g _ _ M2), (known_g _ (T "copyURL") (Hg (T "copyURL") eq_refl)). reflexivity.
        + intros top' I J. cbn [block_ok declared new_variables declares_ok forallb]. rewrite (ret_ok http_field main_var ms); [reflexivity| |].
          * unfold http_field. apply (WireGrpc.nodup_suffix hm_name). exact N.
          * intros m Hi. apply (known_in _ top'); [apply J; apply in_map; exact Hi|left; reflexivity]. }
      clearbody R. assert (B2 : block [T "u"; T "err"; T "instance"; T "options"] [] ((match ms with [] => [no_endpoints] | _ => [] end) ++ R) = true).
      { rewrite quiet_rows; [exact B|]. intros s Hs'. destruct ms; [|destruct Hs']. destruct Hs' as [<-|[]]. split; [reflexivity|]. split; [reflexivity|]. split; [reflexivity|]. check. }
      revert B2. generalize ((match ms with [] => [no_endpoints] | _ => [] end) ++ R). intros l B2. cbv in B2 |- *. rewrite ?either. look. rewrite B2. reflexivity.
  Qed.
  (** *** The servers *)
  Lemma make_grpc_ok svc ms : g (svc ++ T "Server") = true -> g (T "grpcServer") = true -> g (T "grpctransport") = true -> g (T "GRPCMetadataToContext") = true ->
    (forall m, In m ms -> g (grpc_dec_req m) = true /\ g (grpc_enc_resp m) = true) -> NoDup (map low ms) -> func_ok g (make_grpc_fun svc ms) = true.
  Proof.
    intros Hs H1 H2 H3 Hm N. unfold make_grpc_fun.
    assert (D : distinct (map fst (map grpc_handler ms)) = true) by (apply distinct_is; rewrite map_map; exact N).
    assert (E : forallb (fun p => exp_ok g [[T "serverOptions"; T "endpoints"; T "options"]] (snd p)) (map grpc_handler ms) = true).
    { apply forallb_forall. intros p Hp. apply in_map_iff in Hp. destruct Hp as (m & <- & Hi). destruct (Hm m Hi) as [M1 M2]. cbn [snd grpc_handler]. exps. rewrite (known_g _ _ H2), (known_g _ _ M1), (known_g _ _ M2). unfold known. cbv. rewrite ?either. look. reflexivity. }
    revert Hs D E. generalize (svc ++ T "Server") (map grpc_handler ms). intros sv fs Hs D E. cbv in D, E |- *. rewrite ?either. look. rewrite D, E. reflexivity.
  Qed.
  Lemma make_nats_ok ms : g (T "natsServer") = true -> g (T "natstransport") = true -> g (T "EncodeNATSGenericResponse") = true ->
    (forall m, In m ms -> g (nats_dec_req m) = true) -> NoDup (map sm_name ms) -> func_ok g (make_nats_fun ms) = true.
  Proof.
    intros H1 H2 H3 Hm N. unfold make_nats_fun.
    assert (D : distinct (map fst (map nats_handler ms)) = true) by (apply distinct_is; rewrite map_map; exact N).
    assert (E : forallb (fun p => exp_ok g [[T "serverOptions"; T "endpoints"; T "options"]] (snd p)) (map nats_handler ms) = true).
    { apply forallb_forall. intros p Hp. apply in_map_iff in Hp. destruct Hp as (m & <- & Hi). cbn [snd nats_handler]. exps. rewrite (known_g _ _ H2), (known_g _ _ (Hm m Hi)), (known_g _ _ H3). unfold known. cbv. rewrite ?either. look. reflexivity. }
    revert D E. generalize (map nats_handler ms). intros fs D E. cbv in D, E |- *. rewrite ?either. look. rewrite D, E. reflexivity.
  Qed.
  Lemma make_http_ok ms : (forall m b, In m ms -> In b (hm_binds m) -> g (http_dec b) = true) -> func_ok g (make_http_fun ms) = true.
  Proof.
    intro Hm. destruct ms as [|m0 ms]; [check|]. set (all := m0 :: ms) in *. unfold make_http_fun. change (match all with [] => [] | _ => http_options end) with http_options.
    assert (B : block [T "m"; T "serverOptions"; T "endpoints"; T "options"] [] (http_routes all ++ [SRet [v "m"]]) = true).
    { rewrite quiet_rows; [check|]. intros s Hs. apply in_flat_map in Hs. destruct Hs as (m & Hi & Hs). apply in_flat_map in Hs. destruct Hs as (b & Hb & [<-|[]]). split; [reflexivity|]. split; [reflexivity|]. split; [reflexivity|].
      unfold http_route. pose proof (Hm m b Hi Hb) as D. revert D. generalize (http_dec b) (to_upper (hb_verb b)) (hb_path b) (http_field m). intros x a c e D. check. }
    assert (U : existsb (uses_stm (T "m")) (http_routes all ++ [SRet [v "m"]]) = true) by (rewrite existsb_app; apply orb_true_iff; right; reflexivity).
    revert B U. clear Hm. generalize (http_routes all ++ [SRet [v "m"]]). intros l B U. cbv in B, U |- *. rewrite ?either. look. rewrite U, B. reflexivity.
  Qed.
  Lemma sub_ok x e top rest : str_eqb x (T "_") = false -> str_eqb x (T "err") = false -> mem x top = false -> exp_ok g [top] e = true -> block (x :: T "err" :: top) [] rest = true ->
    block top [] ([SDef [x; T "err"] e; if_err [v "err"]; SSet [v "_"] (EVar x)] ++ rest) = true.
  Proof.
    intros H1 H2 H3 H4 H5. assert (D : named_only [x; T "err"] = [x; T "err"]) by (unfold named_only; cbn [filter]; rewrite H1; reflexivity).
    assert (E : known g [x :: T "err" :: top] (T "err") = true) by (apply (known_in _ (x :: T "err" :: top)); [right; left; reflexivity|left; reflexivity]).
    assert (E' : known g [[]; x :: T "err" :: top] (T "err") = true) by (apply (known_in _ (x :: T "err" :: top)); [right; left; reflexivity|right; left; reflexivity]).
    assert (X : known g [x :: T "err" :: top] x = true) by (apply (known_in _ (x :: T "err" :: top)); [left; reflexivity|left; reflexivity]).
    cbn [app block_ok]. assert (S1 : stm_ok g [top] (SDef [x; T "err"] e) = true) by exact H4.
    assert (S2 : declares_ok top (SDef [x; T "err"] e) = true).
    { unfold declares_ok. rewrite D. cbn [existsb]. rewrite H3. cbn [negb orb]. rewrite andb_true_r. cbn [distinct]. unfold mem. cbn [existsb]. rewrite H2. reflexivity. }
    assert (S3 : forallb (fun y => existsb (uses_stm y) (if_err [v "err"] :: SSet [v "_"] (EVar x) :: rest)) (new_variables top (SDef [x; T "err"] e)) = true).
    { apply forallb_forall. intros y Hy. unfold new_variables in Hy. apply filter_In in Hy. destruct Hy as [Hy _]. rewrite D in Hy. destruct Hy as [<-|[<-|[]]]; [|reflexivity].
      cbn [existsb]. apply orb_true_iff. right. apply orb_true_iff. left. change (false || str_eqb x x = true). apply str_eqb_refl. }
    assert (S4 : declared (SDef [x; T "err"] e) = [x; T "err"]) by exact D. rewrite S1, S2, S3, S4. cbn [andb app].
    assert (S5 : stm_ok g [x :: T "err" :: top] (if_err [v "err"]) = true).
    { change ((known g [x :: T "err" :: top] (T "err") && true) && (((known g [[]; x :: T "err" :: top] (T "err") && true) && true && true) && true) = true). rewrite E, E'. reflexivity. }
    assert (S6 : stm_ok g [x :: T "err" :: top] (SSet [v "_"] (EVar x)) = true) by (change (true && known g [x :: T "err" :: top] x = true); rewrite X; reflexivity).
    rewrite S5. cbn [andb declares_ok if_err new_variables forallb declared app]. rewrite S6. exact H5.
  Qed.
  Lemma serve_nats_ok svc ms : g (T "nats") = true -> g (T "natsServer") = true -> NoDup ([T "conn"; T "srv"; T "err"] ++ map low_sub ms) -> func_ok g (serve_nats_fun svc ms) = true.
  Proof.
    intros H1 H2 F. apply func_is; unfold serve_nats_fun; cbn [f_params f_results f_recv f_body]; [check|check|reflexivity|reflexivity|].
    change (parameters _) with [T "conn"; T "srv"]. apply WiringProofs.nodup_app_iff in F. destruct F as (_ & N & F).
    assert (G : forall top, In (T "conn") top -> In (T "srv") top -> (forall m, In m ms -> ~ In (low_sub m) top) -> block top [] (flat_map (nats_subscribe svc) ms ++ [SRet [ENil]]) = true).
    { induction ms as [|m ms IH]; intros top K1 K2 K3; [reflexivity|]. cbn [flat_map]. rewrite <- app_assoc. cbn [map] in N. inversion N as [|? ? N1 N2]; subst. apply sub_ok.
      - apply str_eqb_neq. intro E. apply (f_equal (@length _)) in E. unfold low_sub in E. rewrite app_length in E. cbn in E. lia.
      - apply str_eqb_neq. intro E. apply (F (low_sub m)); [rewrite E; do 2 right; left; reflexivity|left; reflexivity].
      - apply mem_not. apply K3. left. reflexivity.
      - exps. rewrite (known_in [top] top (T "conn") K1 (or_introl eq_refl)), (known_in [top] top (T "srv") K2 (or_introl eq_refl)). reflexivity.
      - apply IH.
        + exact N2.
        + intros x A B. apply (F x A). right. exact B.
        + do 2 right. exact K1.
        + do 2 right. exact K2.
        + intros m' Hm' [E|[E|E]].
          * apply N1. rewrite E. apply in_map. exact Hm'.
          * apply (F (low_sub m')); [rewrite <- E; do 2 right; left; reflexivity|right; apply in_map; exact Hm'].
          * exact (K3 m' (or_intror Hm') E). }
    apply G; [left; reflexivity|right; left; reflexivity|]. intros m Hm [E|[E|[]]]; apply (F (low_sub m)); [rewrite <- E; left; reflexivity|apply in_map; exact Hm|rewrite <- E; right; left; reflexivity|apply in_map; exact Hm].
  Qed.
  (** *** What the functions need *)
  Lemma block_of f : func_ok g f = true -> block (parameters f) [] (f_body f) = true.
  Proof. unfold func_ok. rewrite !andb_true_iff. tauto. Qed.
  Lemma block_cons top outer s l : block top outer (s :: l) = true -> stm_ok g (top :: outer) s = true /\ declares_ok top s = true /\ forallb (fun x => existsb (uses_stm x) l) (new_variables top s) = true /\ block (declared s ++ top) outer l = true.
  Proof. cbn [block_ok]. rewrite !andb_true_iff. tauto. Qed.
  Lemma wrap_needs labeled names : func_ok g (wrap_fun labeled names) = true -> NoDup names /\ names <> [].
  Proof.
    intro H. apply block_of in H. unfold wrap_fun in H. cbn [f_body] in H. apply block_cons in H. destruct H as (H1 & _ & _ & H). apply block_cons in H. destruct H as (_ & _ & _ & H). apply block_cons in H. destruct H as (H3 & _).
    split; [apply distinct_is; exact H1|]. intros ->. cbn [map] in H3. revert H3. cbn [stm_ok]. rewrite !andb_true_iff. intros ((_ & K) & _). discriminate K.
  Qed.
  Lemma make_grpc_needs svc ms : func_ok g (make_grpc_fun svc ms) = true -> NoDup (map low ms).
  Proof.
    intro H. apply block_of in H. unfold make_grpc_fun, with_options in H. cbn [f_body app] in H. apply block_cons in H. destruct H as (_ & _ & _ & H). apply block_cons in H. destruct H as (_ & _ & _ & H). apply block_cons in H. destruct H as (H & _).
    match type of H with stm_ok _ ?sc (SRet [EAddr (ELit [kw ?ty] ?fs)]) = true => change (exp_ok g sc (ELit [Word (T ty)] fs) && true = true) in H end. rewrite e_lit, !andb_true_iff in H.
    destruct H as ((( _ & H) & _) & _). apply distinct_is in H. rewrite map_map in H. exact H.
  Qed.
  Lemma endpoints_need {A} (var : A -> str) (blk : A -> list gstm) outer tl : forall ms top, block top outer (flat_map (fun m => [SVar (var m) endpoint_ty; SBlock (blk m)]) ms ++ tl) = true -> NoDup (map var ms) /\ (forall m, In m ms -> ~ In (var m) top).
  Proof.
    induction ms as [|m ms IH]; intros top H; [split; [constructor|intros ? []]|]. cbn [flat_map app] in H. apply block_cons in H. destruct H as (_ & H1 & _ & H). apply block_cons in H. destruct H as (_ & _ & _ & H). cbn [declared app] in H.
    destruct (IH _ H) as [N F]. cbn [declares_ok] in H1. apply negb_true_iff in H1. apply mem_not in H1. split.
    - cbn [map]. constructor; [|exact N]. intro K. apply in_map_iff in K. destruct K as (x & E & Hx). apply (F x Hx). left. symmetry. exact E.
    - intros x [<-|Hx]; [exact H1|]. intro K. apply (F x Hx). right. exact K.
  Qed.
  Lemma new_nats_needs svc ms : func_ok g (new_nats_fun svc ms) = true -> NoDup (map low_var ms).
  Proof. intro H. apply block_of in H. exact (proj1 (endpoints_need low_var _ _ _ ms _ H)). Qed.
  Lemma new_http_needs svc ms : func_ok g (new_http_fun svc ms) = true -> NoDup (map main_var ms).
  Proof.
    intro H. apply block_of in H. unfold new_http_fun, parse_instance in H. cbn [f_body app] in H. do 4 (apply block_cons in H; destruct H as (_ & _ & _ & H)).
    destruct ms as [|m ms]; [constructor|]. cbn [app] in H. exact (proj1 (endpoints_need main_var _ _ _ (m :: ms) _ H)).
  Qed.
End Funs.

Section C91.
  Variable format_source : str -> option str.
  Variables (d : Render.tdata) (s : str) (mm : list message).
  Hypothesis rendered_file : Render.render_asset format_source Generator.BaronPath d = Some s.
  Notation methods := (sv_methods (Render.td_service d)).
  Notation service := (sv_name (Render.td_service d)).
  Notation package := (Render.td_package d).
  Notation helper := (Render.td_helper d).
  Notation names := (PropGoFile.names d).
  Hypothesis made : new_helper mm methods = GoStr.Ret helper.
  Hypothesis ok : PropGoFile.file_ok mm d.
  Hypothesis lays_f : forall hm b f t, In hm helper -> In b (hm_binds hm) -> In f (hb_fields b) -> DecoderTexts.field_text f = Some t -> lays_out format_source t.
  Hypothesis lays_o : forall hm b o t, In hm helper -> In b (hm_binds hm) -> In o (hb_oneofs b) -> DecoderTexts.oneof_text o = Some t -> lays_out format_source t.

  (** The functions of the file, apart from the request decoders and encoders (C84) *)
  Definition fixed_functions : list gfunc := [wrap_fun false (map sm_name methods); wrap_fun true (map sm_name methods); headers_fun; send_fun; error_encoder_fun; error_decoder_fun; status_fun; error_headers_fun;
    encode_response_fun; copy_url_fun; make_http_fun helper; new_http_fun service helper].
  Definition grpc_functions : list gfunc := [metadata_fun; to_metadata_fun; make_grpc_fun service methods; new_grpc_fun service package methods].
  Definition nats_functions : list gfunc := [serve_nats_fun service methods; make_nats_fun methods; nats_encode_fun; new_nats_fun service methods; nats_encode_request_fun].
  Definition functions : list gfunc :=
    map call_fun methods ++ map (make_fun service) methods ++ fixed_functions ++ map (fun h => decode_response_fun (hm_name h) (go_camel_case (hm_resp h))) helper
    ++ Wiring.when (Wiring.with_grpc names) (grpc_functions ++ flat_map (fun m => [grpc_method_fun m; grpc_dec_req_fun m; grpc_enc_resp_fun m; grpc_dec_resp_fun m; grpc_enc_req_fun m]) methods)
    ++ Wiring.when (Wiring.with_nats names) (nats_functions ++ flat_map (fun m => [nats_dec_req_fun m; nats_dec_resp_fun m]) methods).
  (** What is declared outside of the functions: by Go, by the file's imports, by the file, and by the other files of the package: what protoc generated *)
  Definition outside (pb : list str) : list str := predeclared ++ Wiring.imports names ++ Wiring.package_names names ++ pb.

  Lemma is_glue f : In f functions -> In (plain (func_toks f)) (FileAll.glue d).
  Proof.
    intro H. unfold FileAll.glue. rewrite !in_app_iff. unfold functions in H. rewrite !in_app_iff in H.
    assert (Z : forall (k : smethod -> gfunc) m, In m methods -> In (plain (func_toks (k m))) (flat_map (fun x => [plain (func_toks (k x))]) methods)) by (intros k m Hm; apply in_flat_map; exists m; split; [exact Hm|left; reflexivity]).
    destruct H as [H|[H|[H|[H|[H|H]]]]].
    - apply in_map_iff in H. destruct H as (m & <- & Hm). left. exact (Z call_fun m Hm).
    - apply in_map_iff in H. destruct H as (m & <- & Hm). right. left. exact (Z (make_fun service) m Hm).
    - destruct H as [<-|[<-|[<-|[<-|[<-|[<-|[<-|[<-|[<-|[<-|[<-|[<-|[]]]]]]]]]]]]].
      + do 2 right. left. left. reflexivity.
      + do 2 right. left. right. left. reflexivity.
      + do 3 right. left. right. left. reflexivity.
      + do 3 right. left. do 2 right. left. reflexivity.
      + do 4 right. left. right. left. reflexivity.
      + do 4 right. left. do 2 right. left. reflexivity.
      + do 4 right. left. do 3 right. left. reflexivity.
      + do 4 right. left. do 4 right. left. reflexivity.
      + do 3 right. left. left. reflexivity.
      + do 8 right. left. right. left. reflexivity.
      + do 9 right. left. reflexivity.
      + do 8 right. left. left. reflexivity.
    - apply in_map_iff in H. destruct H as (h & <- & Hh). do 5 right. left. apply in_flat_map. exists h. split; [exact Hh|left; reflexivity].
    - do 6 right. left. change (Wiring.with_grpc names) with (TextFile.with_grpc d) in H. destruct (TextFile.with_grpc d); [|destruct H]. cbn [Wiring.when] in H. unfold FileGrpc.grpc_funs, FileGrpc.per_method. rewrite !in_app_iff. apply in_app_or in H. destruct H as [H|H].
      + destruct H as [<-|[<-|[<-|[<-|[]]]]]; [left; left|left; right; left|right; left; left|right; left; right; left]; reflexivity.
      + apply in_flat_map in H. destruct H as (m & Hm & [<-|[<-|[<-|[<-|[<-|[]]]]]]).
        * do 2 right. left. exact (Z grpc_method_fun m Hm).
        * do 3 right. left. exact (Z grpc_dec_req_fun m Hm).
        * do 4 right. left. exact (Z grpc_enc_resp_fun m Hm).
        * do 5 right. left. exact (Z grpc_dec_resp_fun m Hm).
        * do 6 right. exact (Z grpc_enc_req_fun m Hm).
    - do 7 right. left. change (Wiring.with_nats names) with (TextFile.with_nats d) in H. destruct (TextFile.with_nats d); [|destruct H]. cbn [Wiring.when] in H. unfold FileNats.nats_funs. rewrite !in_app_iff. apply in_app_or in H. destruct H as [H|H].
      + left. destruct H as [<-|[<-|[<-|[<-|[<-|[]]]]]]; [left|right; left|do 2 right; left|do 3 right; left|do 4 right; left]; reflexivity.
      + apply in_flat_map in H. destruct H as (m & Hm & [<-|[<-|[]]]); [right; left; exact (Z nats_dec_req_fun m Hm)|do 2 right; exact (Z nats_dec_resp_fun m Hm)].
  Qed.
  (** The file has these functions. *)
  Theorem c91_text : forall f, In f functions -> PropGlue.has_function s f.
  Proof. intros f Hf. exact (PropGlue.has format_source d s mm rendered_file made ok lays_f lays_o f (is_glue f Hf)). Qed.
  Section Rules.
    Variable pb : list str.
    Hypothesis pb_scope : WiringSpec.scope_ok pb.
    Hypothesis rules : PropWiring.name_rules names pb.
    (** The messages of the methods and the server interface, which protoc generates *)
    Hypothesis pb_server : In (service ++ T "Server") pb.
    Hypothesis pb_messages : forall m, In m methods -> In (req_name m) pb /\ In (resp_name m) pb.
    Notation g := (fun x => mem x (outside pb)).
    Lemma in_pb x : In x pb -> g x = true.
    Proof. intro H. apply mem_in. unfold outside. rewrite !in_app_iff. do 3 right. exact H. Qed.
    Lemma in_package x : In x (Wiring.package_names names) -> g x = true.
    Proof. intro H. apply mem_in. unfold outside. rewrite !in_app_iff. do 2 right. left. exact H. Qed.
    Lemma in_imports x : In x (Wiring.imports names) -> g x = true.
    Proof. intro H. apply mem_in. unfold outside. rewrite !in_app_iff. right. left. exact H. Qed.
    Ltac there := solve [repeat first [left; reflexivity | right]].
    Lemma all_consts x : mem x consts = true -> g x = true.
    Proof.
      intro H. apply mem_in in H. unfold consts in H. cbn [In] in H.
      repeat (destruct H as [<-|H]; [first
        [ apply mem_in; unfold outside; rewrite !in_app_iff; left; there
        | apply in_imports; unfold Wiring.imports; rewrite !in_app_iff; left; there
        | apply in_imports; unfold Wiring.imports; rewrite !in_app_iff; do 3 right; left; there
        | apply in_package; unfold Wiring.package_names; rewrite !in_app_iff; left; there
        | apply in_package; unfold Wiring.package_names; rewrite !in_app_iff; do 4 right; left; there
        | apply in_package; unfold Wiring.package_names; rewrite !in_app_iff; do 6 right; left; there ]|]). destruct H.
    Qed.
    Lemma grpc_known : Wiring.with_grpc names = true -> g (T "grpc") = true /\ g (T "metadata") = true /\ g (T "grpctransport") = true /\ g (T "grpcServer") = true /\ g (T "GRPCMetadataToContext") = true /\
      forall m, In m methods -> g (grpc_dec_req m) = true /\ g (grpc_enc_resp m) = true /\ g (grpc_dec_resp m) = true /\ g (grpc_enc_req m) = true.
    Proof.
      intro G. assert (I : forall x, In x [T "grpc"; T "metadata"; T "grpctransport"] -> g x = true) by (intros x Hx; apply in_imports; unfold Wiring.imports; rewrite G, !in_app_iff; do 2 right; left; exact Hx).
      split; [apply I; there|]. split; [apply I; there|]. split; [apply I; there|].
      split; [apply in_package; unfold Wiring.package_names; rewrite G; cbn [Wiring.when]; rewrite !in_app_iff; do 3 right; left; left; there|].
      split; [apply in_package; unfold Wiring.package_names; rewrite G; cbn [Wiring.when]; rewrite !in_app_iff; do 3 right; left; do 3 right; left; there|].
      intros m Hm. assert (E : forall pre suf, In (pre ++ sm_name m ++ suf) (Wiring.each pre (Wiring.in_methods names) suf)) by (intros pre suf; apply PropHttpWire.each_in; apply (in_map sm_name methods m Hm)).
      split; [|split; [|split]]; apply in_package; unfold Wiring.package_names; rewrite G; cbn [Wiring.when]; rewrite !in_app_iff; do 3 right; left; [do 1 right; left|do 2 right; left|do 4 right; left|do 5 right; left]; apply E.
    Qed.
    Lemma nats_known : Wiring.with_nats names = true -> g (T "nats") = true /\ g (T "natstransport") = true /\ g (T "natsServer") = true /\ g (T "EncodeNATSGenericResponse") = true /\ g (T "EncodeNATSGenericRequest") = true /\
      forall m, In m methods -> g (nats_dec_req m) = true /\ g (nats_dec_resp m) = true.
    Proof.
      intro G. split; [apply in_imports; unfold Wiring.imports; rewrite G, !in_app_iff; right; left; there|]. split; [apply in_imports; unfold Wiring.imports; rewrite G, !in_app_iff; do 4 right; there|].
      split; [apply in_package; unfold Wiring.package_names; rewrite G; cbn [Wiring.when]; rewrite !in_app_iff; do 9 right; left; there|].
      split; [apply in_package; unfold Wiring.package_names; rewrite G; cbn [Wiring.when]; rewrite !in_app_iff; do 9 right; do 2 right; left; there|].
      split; [apply in_package; unfold Wiring.package_names; rewrite G; cbn [Wiring.when]; rewrite !in_app_iff; do 9 right; do 4 right; there|].
      intros m Hm. assert (E : forall pre suf, In (pre ++ sm_name m ++ suf) (Wiring.each pre (Wiring.in_methods names) suf)) by (intros pre suf; apply PropHttpWire.each_in; apply (in_map sm_name methods m Hm)).
      split; apply in_package; unfold Wiring.package_names; rewrite G; cbn [Wiring.when]; rewrite !in_app_iff; do 9 right; [right; left|do 3 right; left]; apply E.
    Qed.
    Lemma http_known : (forall m b, In m helper -> In b (hm_binds m) -> g (http_dec b) = true /\ g (http_enc b) = true) /\ (forall m, In m helper -> g (http_resp m) = true).
    Proof.
      split; [intros m b Hm Hb|intros m Hm].
      - assert (L : In (hb_label b) (Wiring.labels names)) by (apply in_flat_map; exists m; split; [exact Hm|apply in_map; exact Hb]).
        split; apply in_package; unfold Wiring.package_names; rewrite !in_app_iff; [do 5 right; left|do 8 right; left]; apply PropHttpWire.each_in; exact L.
      - apply in_package; unfold Wiring.package_names; rewrite !in_app_iff. do 7 right; left. apply PropHttpWire.each_in. apply (in_map hm_name helper m Hm).
    Qed.
    Lemma local_scopes : NoDup (Wiring.http_client_names names) /\ (Wiring.with_grpc names = true -> NoDup (Wiring.client_names names)) /\ (Wiring.with_nats names = true -> NoDup (Wiring.client_names names) /\ NoDup (Wiring.serve_nats_names names)).
    Proof.
      assert (S : Forall (fun m => StrsSpec.exported_ident (sm_name m) /\ go_camel_case (sm_name m) = sm_name m) methods) by (apply Forall_forall; intros m Hm; apply (PropGoFile.ok_method mm d ok m Hm)).
      destruct (proj2 (PropWiring.c67_names_compile service mm methods helper (Render.td_transport d) pb made (proj1 (PropGoFile.ok_service mm d ok)) S pb_scope) rules) as [_ C]. change (Forall WiringSpec.scope_ok (Wiring.scopes names pb)) in C. unfold Wiring.scopes in C.
      rewrite !Forall_app in C. destruct C as (C1 & C2 & C3). rewrite Forall_forall in C1. split; [apply (C1 (Wiring.http_client_names names)); do 2 right; left; reflexivity|]. split; intro G.
      - rewrite G in C2. cbn [Wiring.when] in C2. rewrite Forall_forall in C2. apply (C2 (Wiring.client_names names)). right. left. reflexivity.
      - rewrite G in C3. cbn [Wiring.when] in C3. rewrite Forall_forall in C3. split; [apply (C3 (Wiring.client_names names)); left; reflexivity|apply (C3 (Wiring.serve_nats_names names)); right; left; reflexivity].
    Qed.
    Lemma first_names : map main_var helper = Wiring.each [] (Wiring.first_labels names) (T "Endpoint").
    Proof.
      pose proof (PropHttpWire.has_binds d mm made) as B. unfold Wiring.first_labels. change (Wiring.in_http names) with helper. revert B. generalize helper. intro l. induction l as [|m l IH]; intro B; [reflexivity|]. cbn [map flat_map]. unfold main_var at 1, main.
      assert (Bm := B m (or_introl eq_refl)). destruct (hm_binds m) as [|b bs]; [contradiction|]. cbn [app hd Wiring.each map]. rewrite IH; [reflexivity|]. intros x Hx. apply B. right. exact Hx.
    Qed.
    Lemma low_names : map low_var methods = Wiring.each [] (map to_lower (Wiring.in_methods names)) (T "Endpoint") /\ map low_sub methods = Wiring.each [] (map to_lower (Wiring.in_methods names)) (T "Sub").
    Proof. unfold Wiring.each. change (Wiring.in_methods names) with (map sm_name methods). rewrite !map_map. split; reflexivity. Qed.

    (** Under the rules for the names of a service (C67) every function keeps Go's rules: every name it uses is declared, every block declares different names, every variable is used, and every literal has different keys. *)
    Theorem c91_functions : forall f, In f functions -> PropGlue.has_function s f /\ func_ok g f = true.
    Proof.
      intros f Hf. split; [exact (c91_text f Hf)|]. pose proof all_consts as Hg. pose proof (in_pb _ pb_server) as Hs. pose proof (PropWiring.methods_differ _ _ rules) as N. change (NoDup (map sm_name methods)) in N.
      assert (Hm : forall m, In m methods -> g (req_name m) = true /\ g (resp_name m) = true) by (intros m Hi; destruct (pb_messages m Hi) as [A B]; split; apply in_pb; assumption).
      assert (Nl : NoDup (map low_var methods) -> NoDup (map low methods)).
      { intro K. assert (E : map low_var methods = map (fun x => x ++ T "Endpoint") (map low methods)) by (rewrite map_map; reflexivity). rewrite E in K. exact (NoDup_map_inv _ _ K). }
      destruct local_scopes as (L1 & L2 & L3). destruct low_names as [E1 E2]. destruct http_known as [K1 K2].
      unfold Wiring.client_names, Wiring.serve_nats_names in L2, L3. rewrite <- E1 in L2, L3. rewrite <- E2 in L3. unfold Wiring.http_client_names in L1. rewrite <- first_names in L1.
      unfold functions in Hf. rewrite !in_app_iff in Hf. destruct Hf as [H|[H|[H|[H|[H|H]]]]].
      - apply in_map_iff in H. destruct H as (m & <- & Hi). destruct (Hm m Hi). apply (call_ok _ Hg); assumption.
      - apply in_map_iff in H. destruct H as (m & <- & Hi). destruct (Hm m Hi). apply (make_ok _ Hg); assumption.
      - assert (NE : map sm_name methods <> []) by exact (PropWiring.has_methods _ _ rules).
        destruct H as [<-|[<-|[<-|[<-|[<-|[<-|[<-|[<-|[<-|[<-|[<-|[<-|[]]]]]]]]]]]]].
        + exact (wrap_ok _ Hg false _ N NE).
        + exact (wrap_ok _ Hg true _ N NE).
        + exact (headers_ok _ Hg).
        + exact (send_ok _ Hg).
        + exact (error_encoder_ok _ Hg).
        + exact (error_decoder_ok _ Hg).
        + exact (status_ok _ Hg).
        + exact (error_headers_ok _ Hg).
        + exact (encode_response_ok _ Hg).
        + exact (copy_url_ok _ Hg).
        + apply (make_http_ok _ Hg). intros m b A B. exact (proj1 (K1 m b A B)).
        + apply (new_http_ok _ Hg); [exact Hs| |exact (PropClient.helper_nodup mm methods helper made N)|exact L1]. intros m Hi. split; [|exact (K2 m Hi)]. apply (proj2 (K1 m (main m) Hi ltac:(pose proof (PropHttpWire.has_binds d mm made m Hi) as B; unfold main; destruct (hm_binds m); [contradiction|left; reflexivity]))).
      - apply in_map_iff in H. destruct H as (h & <- & Hi). apply (decode_response_ok _ Hg). destruct (PropGoFile.made_in mm methods helper h made Hi) as (m & I & E & _). destruct (PropGoFile.method_made mm m h E) as (_ & _ & -> & _). exact (proj2 (Hm m I)).
      - destruct (Wiring.with_grpc names) eqn:G; [|destruct H]. cbn [Wiring.when] in H. destruct (grpc_known G) as (G1 & G2 & G3 & G4 & G5 & G6). pose proof (L2 eq_refl) as L. apply in_app_or in H. destruct H as [H|H].
        + destruct H as [<-|[<-|[<-|[<-|[]]]]].
          * exact (metadata_ok _ Hg G2).
          * exact (to_metadata_ok _ Hg G2 G3).
          * apply (make_grpc_ok _ Hg); try assumption; [intros m Hi; destruct (G6 m Hi) as (A & B & _); split; assumption|]. apply Nl. exact (proj1 (proj2 (proj1 (WiringProofs.nodup_app_iff _ _ _) L))).
          * apply (new_grpc_ok _ Hg); try assumption. intros m Hi. destruct (G6 m Hi) as (_ & _ & A & B). split; [exact (proj2 (Hm m Hi))|split; assumption].
        + apply in_flat_map in H. destruct H as (m & Hi & [<-|H]); [destruct (Hm m Hi); apply (grpc_method_ok _ Hg); assumption|]. destruct (Hm m Hi). exact (pass_ok _ Hg m f H ltac:(assumption) ltac:(assumption)).
      - destruct (Wiring.with_nats names) eqn:G; [|destruct H]. cbn [Wiring.when] in H. destruct (nats_known G) as (G1 & G2 & G3 & G4 & G5 & G6). destruct (L3 eq_refl) as [L L']. apply in_app_or in H. destruct H as [H|H].
        + destruct H as [<-|[<-|[<-|[<-|[<-|[]]]]]].
          * exact (serve_nats_ok _ Hg _ _ G1 G3 L').
          * apply (make_nats_ok _ Hg); try assumption. intros m Hi. exact (proj1 (G6 m Hi)).
          * exact (nats_encode_ok _ Hg _ (or_introl eq_refl) G1 G2).
          * apply (new_nats_ok _ Hg); try assumption. intros m Hi. exact (proj2 (G6 m Hi)).
          * exact (nats_encode_ok _ Hg _ (or_intror (or_introl eq_refl)) G1 G2).
        + apply in_flat_map in H. destruct H as (m & Hi & H). destruct (Hm m Hi). exact (nats_decode_ok _ Hg m f H G1 ltac:(assumption) ltac:(assumption)).
    Qed.
    (** So every variable that a function uses and does not declare itself is its receiver, a parameter or a result, or of Go, the imports or the package. *)
    Theorem c91_free : forall f x, In f functions -> uses_inner x (uses_stm x) (f_body f) = true -> In x (outside pb) \/ In x (parameters f).
    Proof. intros f x Hf U. destruct (ScopeFree.func_free _ x f (proj2 (c91_functions f Hf)) U) as [K|K]; [left; apply mem_in; exact K|right; exact K]. Qed.
  End Rules.
  (** The other way round: if they do, the service has a method, its methods have different names, also without regard to case if there is gRPC or NATS, and the first bindings of the methods have different labels. *)
  Theorem c91_needs : forall g, (forall f, In f functions -> func_ok g f = true) ->
    methods <> [] /\ NoDup (map sm_name methods) /\ (Wiring.with_grpc names || Wiring.with_nats names = true -> NoDup (map (fun m => to_lower (sm_name m)) methods)) /\ NoDup (map (fun h => hb_label (main h)) helper).
  Proof.
    intros g H. assert (W : In (wrap_fun false (map sm_name methods)) functions) by (unfold functions, fixed_functions; rewrite !in_app_iff; do 2 right; left; left; reflexivity).
    destruct (wrap_needs g false _ (H _ W)) as [N NE]. split; [intro E; apply NE; rewrite E; reflexivity|]. split; [exact N|]. split.
    - intro G. apply orb_true_iff in G. destruct G as [G|G].
      + apply (make_grpc_needs g service). apply H. unfold functions, grpc_functions. rewrite G. cbn [Wiring.when]. rewrite !in_app_iff. do 4 right. left. left. do 2 right. left. reflexivity.
      + assert (K : NoDup (map low_var methods)) by (apply (new_nats_needs g service); apply H; unfold functions, nats_functions; rewrite G; cbn [Wiring.when]; rewrite !in_app_iff; do 5 right; left; do 3 right; left; reflexivity).
        assert (E : map low_var methods = map (fun x => x ++ T "Endpoint") (map low methods)) by (rewrite map_map; reflexivity). rewrite E in K. exact (NoDup_map_inv _ _ K).
    - assert (K : NoDup (map main_var helper)) by (apply (new_http_needs g service); apply H; unfold functions, fixed_functions; rewrite !in_app_iff; do 2 right; left; do 11 right; left; reflexivity).
      assert (E : map main_var helper = map (fun x => x ++ T "Endpoint") (map (fun h => hb_label (main h)) helper)) by (rewrite map_map; reflexivity). rewrite E in K. exact (NoDup_map_inv _ _ K).
  Qed.
End C91.
(** ** A case: PropGoFile.shop with gRPC, NATS and HTTP *)
Definition shop_pb : list str := [T "Req"; T "Resp"; T "ShopClient"; T "NewShopClient"; T "ShopServer"; T "UnimplementedShopServer"; T "RegisterShopServer"; T "Shop_ServiceDesc"].
Example c91_case : exists s, Render.render_asset (fun _ => None) Generator.BaronPath PropGoFile.shop = Some s /\ length (functions PropGoFile.shop) = 40%nat /\
  forall f, In f (functions PropGoFile.shop) -> PropGlue.has_function s f /\ func_ok (fun x => mem x (outside PropGoFile.shop shop_pb)) f = true.
Proof.
  pose proof (TextProofs.baron_is (fun _ => None) PropGoFile.shop) as R. remember (concat (TextFile.baron_pieces (fun _ => None) PropGoFile.shop)) as s eqn:Es. clear Es.
  exists s. split; [exact R|]. split; [reflexivity|].
  assert (M : new_helper [] (sv_methods (Render.td_service PropGoFile.shop)) = GoStr.Ret (Render.td_helper PropGoFile.shop)) by (vm_compute; reflexivity).
  assert (LF : forall hm b f t, In hm (Render.td_helper PropGoFile.shop) -> In b (hm_binds hm) -> In f (hb_fields b) -> DecoderTexts.field_text f = Some t -> lays_out (fun _ => None) t) by (intros; intros ? K; discriminate K).
  assert (LO : forall hm b o t, In hm (Render.td_helper PropGoFile.shop) -> In b (hm_binds hm) -> In o (hb_oneofs b) -> DecoderTexts.oneof_text o = Some t -> lays_out (fun _ => None) t) by (intros; intros ? K; discriminate K).
  apply (c91_functions (fun _ => None) PropGoFile.shop s [] R M PropGoFile.shop_ok LF LO shop_pb).
  - split; [apply PropWiring.nodup_dec; reflexivity|apply PropWiring.fixed_idents; reflexivity].
  - assert (S : Forall (fun m => StrsSpec.exported_ident (sm_name m) /\ go_camel_case (sm_name m) = sm_name m) (sv_methods (Render.td_service PropGoFile.shop))) by (apply Forall_forall; intros m Hm; apply (PropGoFile.ok_method [] PropGoFile.shop PropGoFile.shop_ok m Hm)).
    apply (PropWiring.c67_names_compile (T "Shop") [] (sv_methods (Render.td_service PropGoFile.shop)) (Render.td_helper PropGoFile.shop) (T "all") shop_pb M (proj1 (PropGoFile.ok_service [] PropGoFile.shop PropGoFile.shop_ok)) S).
    + split; [apply PropWiring.nodup_dec; reflexivity|apply PropWiring.fixed_idents; reflexivity].
    + split; [reflexivity|]. apply PropWiring.scopesb_iff. vm_compute. reflexivity.
  - do 4 right. left. reflexivity.
  - intros m Hm. cbn [PropGoFile.shop Render.td_service sv_methods In] in Hm. destruct Hm as [<-|[<-|[]]]; split; [left|right; left|left|right; left]; reflexivity.
Qed.
(** Two methods that differ in case only, with gRPC: MakeGRPCServer gives a field twice. *)
Example c91_case_refuted : forall svc a b g, sm_name a = T "GetX" -> sm_name b = T "Getx" -> func_ok g (make_grpc_fun svc [a; b]) = false.
Proof.
  intros svc a b g Ha Hb. destruct (func_ok g (make_grpc_fun svc [a; b])) eqn:E; [|reflexivity]. exfalso. apply make_grpc_needs in E. cbn [map] in E. unfold low in E. rewrite Ha, Hb in E. inversion E as [|? ? K _]; subst. apply K. left. reflexivity.
Qed.
