(** C89: the functions of the generated baron file that make servers and clients for gRPC and NATS: read as Go (GoLex.v, GoDecls.v) they are programs of GoGlue.v (WireProg.v), and these
    connect each method with its own endpoint.  What go-kit does with what it is given is in WireGrpc.v (serve, client) and WireNats.v (serve_msg, publish). *)
From Coq Require Import String Lia.
From Verif Require Import GoStr GoStrProofs GoMap Strs StrsSpec SvcTypes GoLex GoDecls GoGlue GlueProg WireProg WireGrpc WireNats.
From Verif Require Rpc TextProofs Generator Render PropGoFile FileAll FileGrpc FileNats TextFile DecoderTexts HttpTransport PropGlue.

Section C89.
  Variable format_source : str -> option str.
  Variables (d : Render.tdata) (s : str) (mm : list message).
  Hypothesis rendered_file : Render.render_asset format_source Generator.BaronPath d = Some s.
  Notation methods := (sv_methods (Render.td_service d)).
  Notation service := (sv_name (Render.td_service d)).
  Notation package := (Render.td_package d).
  Hypothesis made : HttpTransport.new_helper mm methods = GoStr.Ret (Render.td_helper d).
  Hypothesis ok : PropGoFile.file_ok mm d.
  Hypothesis lays_f : forall hm b f t, In hm (Render.td_helper d) -> In b (HttpTransport.hm_binds hm) -> In f (HttpTransport.hb_fields b) -> DecoderTexts.field_text f = Some t -> lays_out format_source t.
  Hypothesis lays_o : forall hm b o t, In hm (Render.td_helper d) -> In b (HttpTransport.hm_binds hm) -> In o (HttpTransport.hb_oneofs b) -> DecoderTexts.oneof_text o = Some t -> lays_out format_source t.
  Lemma has f : In (plain (func_toks f)) (FileAll.glue d) -> has_function s f.
  Proof. exact (PropGlue.has format_source d s mm rendered_file made ok lays_f lays_o f). Qed.

  (** ** gRPC *)
  (** The functions that are called by name: of each method two that decode and two that encode *)
  Definition grpc_coders : list gfunc := flat_map row methods ++ [metadata_fun].
  Lemma grpc_there f : TextFile.with_grpc d = true -> In (plain (func_toks f)) (FileGrpc.grpc_funs d) -> has_function s f.
  Proof. intros G H. apply has. unfold FileAll.glue. rewrite G, !in_app_iff. do 6 right. left. exact H. Qed.
  Lemma grpc_text : TextFile.with_grpc d = true ->
    (has_function s (make_grpc_fun service methods) /\ has_function s (new_grpc_fun service package methods)) /\
    (forall m, In m methods -> has_function s (grpc_method_fun m) /\ has_function s (call_fun m)) /\ (forall f, In f grpc_coders -> has_function s f).
  Proof.
    intro G. assert (P : forall k : smethod -> gfunc, forall m, In m methods -> In (plain (func_toks (k m))) (FileGrpc.per_method d k)) by (intros k m Hm; apply in_flat_map; exists m; split; [exact Hm|left; reflexivity]).
    split; [split; apply (grpc_there _ G); unfold FileGrpc.grpc_funs; rewrite !in_app_iff; right; left; [left|right; left]; reflexivity|]. split.
    - intros m Hm. split; [apply (grpc_there _ G); unfold FileGrpc.grpc_funs; rewrite !in_app_iff; do 2 right; left; exact (P grpc_method_fun m Hm)|].
      exact (proj1 (proj1 (PropGlue.c87_endpoints format_source d s mm rendered_file made ok lays_f lays_o m Hm))).
    - intros f Hf. unfold grpc_coders in Hf. apply in_app_or in Hf. apply (grpc_there _ G). unfold FileGrpc.grpc_funs. rewrite !in_app_iff. destruct Hf as [Hf|[<-|[]]]; [|left; left; reflexivity].
      apply in_flat_map in Hf. destruct Hf as (m & Hm & [<-|[<-|[<-|[<-|[]]]]]).
      + do 3 right. left. exact (P grpc_dec_req_fun m Hm).
      + do 4 right. left. exact (P grpc_enc_resp_fun m Hm).
      + do 5 right. left. exact (P grpc_dec_resp_fun m Hm).
      + do 6 right. exact (P grpc_enc_req_fun m Hm).
  Qed.
  (** The server that MakeGRPCServer returns runs, for each of its methods, the endpoint in that method's field, with a context that was first given to GRPCMetadataToContext and then to the other options; it returns the response, or the error.
      The client that NewGRPCClient returns calls, for each of its methods, the path of that method, and returns the response in a message of the method's type, or the error. *)
  Theorem c89_grpc : TextFile.with_grpc d = true -> NoDup (map (fun m => to_lower (sm_name m)) methods) ->
    ((has_function s (make_grpc_fun service methods) /\ has_function s (new_grpc_fun service package methods)) /\
     (forall m, In m methods -> has_function s (grpc_method_fun m) /\ has_function s (call_fun m)) /\ (forall f, In f grpc_coders -> has_function s f)) /\
    forall M E C (on_server on_client : list gopt -> C -> C) (remote : str -> C -> str * M -> M + E) (eps : str -> C -> str * M -> option (option (str * M) * option E)) os,
    let lib := lib M E C on_server on_client remote grpc_coders in
    (exists srv, results (run_func _ _ lib (make_grpc_fun service methods) [] [VStruct [kw "Endpoints"] (map (fun m => (sm_name m ++ T "Endpoint", VObj (GEp _ _ _ (eps (sm_name m))))) methods); options _ _ _ os] tt) = Some [srv] /\
      forall m c x, In m methods -> results (run_func _ _ lib (grpc_method_fun m) [srv] [VObj (GCtx _ _ _ c); VObj (GMsg _ _ _ (req_name m, x))] tt) =
        match eps (sm_name m) (on_server (Before (T "GRPCMetadataToContext") :: os) c) (req_name m, x) with
        | Some (_, Some e) => Some [VNil; VObj (GErr _ _ _ e)]
        | Some (Some (t, y), None) => if str_eqb (resp_name m) t then Some [VObj (GMsg _ _ _ (t, y)); VNil] else None
        | _ => None
        end) /\
    (exists cl, results (run_func _ _ lib (new_grpc_fun service package methods) [] [VObj (GConn _ _ _); options _ _ _ os] tt) = Some [cl; VNil] /\
      forall m c x, In m methods -> results (run_func _ _ lib (call_fun m) [cl] [VObj (GCtx _ _ _ c); VObj (GMsg _ _ _ (req_name m, x))] tt) =
        match remote (Rpc.grpc_path package service (sm_name m)) (on_client os c) (req_name m, x) with inl y => Some [VObj (GMsg _ _ _ (resp_name m, y)); VNil] | inr e => Some [VNil; VObj (GErr _ _ _ e)] end).
  Proof.
    intros G N. split; [exact (grpc_text G)|]. intros M E C on_server on_client remote eps os lb. split.
    - exists (server M E C methods eps os). split; [exact (make_grpc_runs M E C on_server on_client remote grpc_coders service methods eq_refl N eps os)|].
      intros m c x Hm. refine (eq_trans (method_runs M E C on_server on_client remote grpc_coders service methods eq_refl N eps os m c x Hm) _). unfold served, at_server. destruct (eps _ _ _) as [[[[t y]|] [e|]]|]; reflexivity.
    - exists (client_struct M E C on_client remote grpc_coders service package methods os). split; [exact (new_grpc_runs M E C on_server on_client remote grpc_coders service package methods eq_refl N os)|].
      intros m c x Hm. exact (client_call_runs M E C on_server on_client remote grpc_coders service package methods eq_refl N os m c x Hm).
  Qed.
  (** Together: if what the client asks for reaches the method of that name of such a server (when it does is C70), a call of the client's method returns what the endpoint of this method returns at the server: its response, or its error.
      [carried] is what becomes of an error on the way, [ctx_at] of a context. *)
  Theorem c89_grpc_call : TextFile.with_grpc d = true -> NoDup (map (fun m => to_lower (sm_name m)) methods) ->
    forall M E C (on_server on_client : list gopt -> C -> C) remote0 (remote : str -> C -> str * M -> M + E) (eps : str -> C -> str * M -> option (option (str * M) * option E)) os os' (carried : E -> E) (ctx_at : C -> C) srv cl,
    let lib r := lib M E C on_server on_client r grpc_coders in
    results (run_func _ _ (lib remote0) (make_grpc_fun service methods) [] [VStruct [kw "Endpoints"] (map (fun m => (sm_name m ++ T "Endpoint", VObj (GEp _ _ _ (eps (sm_name m))))) methods); options _ _ _ os] tt) = Some [srv] ->
    results (run_func _ _ (lib remote) (new_grpc_fun service package methods) [] [VObj (GConn _ _ _); options _ _ _ os'] tt) = Some [cl; VNil] ->
    forall m, In m methods ->
    (forall c q, match results (run_func _ _ (lib remote0) (grpc_method_fun m) [srv] [VObj (GCtx _ _ _ (ctx_at c)); VObj (GMsg _ _ _ q)] tt) with
                 | Some [VObj (GMsg _ _ _ (_, y)); VNil] => remote (Rpc.grpc_path package service (sm_name m)) c q = inl y
                 | Some [VNil; VObj (GErr _ _ _ e)] => remote (Rpc.grpc_path package service (sm_name m)) c q = inr (carried e)
                 | _ => True                                   (* the server's method panics *)
                 end) ->
    forall c x, let at_endpoint := eps (sm_name m) (on_server (Before (T "GRPCMetadataToContext") :: os) (ctx_at (on_client os' c))) (req_name m, x) in
    (forall y, at_endpoint = Some (Some (resp_name m, y), None) -> results (run_func _ _ (lib remote) (call_fun m) [cl] [VObj (GCtx _ _ _ c); VObj (GMsg _ _ _ (req_name m, x))] tt) = Some [VObj (GMsg _ _ _ (resp_name m, y)); VNil]) /\
    (forall r e, at_endpoint = Some (r, Some e) -> results (run_func _ _ (lib remote) (call_fun m) [cl] [VObj (GCtx _ _ _ c); VObj (GMsg _ _ _ (req_name m, x))] tt) = Some [VNil; VObj (GErr _ _ _ (carried e))]).
  Proof.
    intros G N M E C on_server on_client remote0 remote eps os os' carried ctx_at srv cl lb Hs Hc m Hm Hr c x at_endpoint.
    destruct (c89_grpc G N) as [_ T1].
    destruct (proj1 (T1 M E C on_server on_client remote0 eps os)) as (srv' & Hs' & Rs). fold (lb remote0) in Hs', Rs. rewrite Hs in Hs'. injection Hs' as <-.
    destruct (proj2 (T1 M E C on_server on_client remote eps os')) as (cl' & Hc' & Rc). fold (lb remote) in Hc', Rc. rewrite Hc in Hc'. injection Hc' as <-.
    specialize (Rs m (ctx_at (on_client os' c)) x Hm). specialize (Rc m c x Hm). specialize (Hr (on_client os' c) (req_name m, x)). fold at_endpoint in Rs. split.
    - intros y Ey. rewrite Ey, str_eqb_refl in Rs. rewrite Rs in Hr. rewrite Hr in Rc. exact Rc.
    - intros r e Ee. rewrite Ee in Rs. assert (Rs' : results (run_func _ _ (lb remote0) (grpc_method_fun m) [srv] [VObj (GCtx _ _ _ (ctx_at (on_client os' c))); VObj (GMsg _ _ _ (req_name m, x))] tt) = Some [VNil; VObj (GErr _ _ _ e)]) by (rewrite Rs; destruct r as [[t y]|]; reflexivity).
      rewrite Rs' in Hr. rewrite Hr in Rc. exact Rc.
  Qed.

  (** ** NATS *)
  Definition nats_coders : list gfunc := flat_map nrow methods ++ generic.
  Lemma nats_there f : TextFile.with_nats d = true -> In (plain (func_toks f)) (FileNats.nats_funs d) -> has_function s f.
  Proof. intros G H. apply has. unfold FileAll.glue. rewrite G, !in_app_iff. do 7 right. left. exact H. Qed.
  Lemma nats_text : TextFile.with_nats d = true ->
    (has_function s (make_nats_fun methods) /\ has_function s (serve_nats_fun service methods) /\ has_function s (new_nats_fun service methods)) /\
    (forall m, In m methods -> has_function s (call_fun m)) /\ (forall f, In f nats_coders -> has_function s f).
  Proof.
    intro G. split; [split; [|split]; apply (nats_there _ G); unfold FileNats.nats_funs; apply in_or_app; left|split].
    - right; left; reflexivity.
    - left; reflexivity.
    - do 3 right. left. reflexivity.
    - intros m Hm. exact (proj1 (proj1 (PropGlue.c87_endpoints format_source d s mm rendered_file made ok lays_f lays_o m Hm))).
    - intros f Hf. unfold nats_coders in Hf. apply in_app_or in Hf. apply (nats_there _ G). unfold FileNats.nats_funs. rewrite !in_app_iff. destruct Hf as [Hf|[<-|[<-|[]]]]; [|left; do 2 right; left; reflexivity|left; do 4 right; left; reflexivity].
      apply in_flat_map in Hf. destruct Hf as (m & Hm & [<-|[<-|[]]]); right; [left|right]; apply in_flat_map; exists m; (split; [exact Hm|left; reflexivity]).
  Qed.
  (** [f] is the service: what its methods return for a request, with the text of the error.  MakeNATSServer and ServeNATS subscribe the methods one after the other, each to the subject of its name in the group of the service, until a subscription
      fails; what is subscribed answers as Rpc.v says.  A method of the client that NewNATSClient returns sends the request to the subject of that method; if the answer comes from such a subscription it returns what Rpc.v says. *)
  Theorem c89_nats : TextFile.with_nats d = true -> NoDup (map (fun m => to_lower (sm_name m)) methods) ->
    ((has_function s (make_nats_fun methods) /\ has_function s (serve_nats_fun service methods) /\ has_function s (new_nats_fun service methods)) /\
     (forall m, In m methods -> has_function s (call_fun m)) /\ (forall f, In f nats_coders -> has_function s f)) /\
    forall P dec_text enc_text (struct_of : str -> list (Rpc.jfield P)) refuses network (f : str -> Rpc.msg P -> Rpc.msg P * option str) eps os w,
    let lib := nlib P dec_text enc_text struct_of refuses network nats_coders in
    (forall m q, In m methods -> eps (sm_name m) q = match f (sm_name m) (snd q) with (_, Some e) => Some (None, Some e) | (r, None) => Some (Some (resp_name m, r), None) end) ->
    (exists srv handler, results (run_func _ _ lib (make_nats_fun methods) [] [VStruct [kw "Endpoints"] (map (fun m => (sm_name m ++ T "Endpoint", VObj (NEp _ (eps (sm_name m))))) methods); noptions _ os] w) = Some [srv] /\
      (forall m data, In m methods -> handler m data = Some (Rpc.nats_serve P dec_text enc_text (struct_of (req_name m)) (struct_of (resp_name m)) (f (sm_name m)) data)) /\
      let run := run_func _ _ lib (serve_nats_fun service methods) [] [VObj (NConn _); srv] w in
      let subscribed l w' := exists w1, w' = Some w1 /\ w_subs w1 = w_subs w ++ map (fun m => (Rpc.nats_subject service (sm_name m), service, handler m)) l /\ w_sent w1 = w_sent w in
      ((forall m, In m methods -> refuses (Rpc.nats_subject service (sm_name m)) = None) -> results run = Some [VNil] /\ subscribed methods (after run)) /\
      (forall l m l' e, methods = l ++ m :: l' -> (forall x, In x l -> refuses (Rpc.nats_subject service (sm_name x)) = None) -> refuses (Rpc.nats_subject service (sm_name m)) = Some e ->
        results run = Some [VObj (NErr _ e)] /\ subscribed l (after run))) /\
    (exists cl, results (run_func _ _ lib (new_nats_fun service methods) [] [VObj (NConn _); noptions _ os] w) = Some [cl; VNil] /\
      forall m x, In m methods -> let run := results (run_func _ _ lib (call_fun m) [cl] [VObj (NCtx _); VObj (NMsg _ (req_name m, x))] w) in
        (forall data e, Rpc.marshal P (struct_of (req_name m)) x = Some data -> network (Rpc.nats_subject service (sm_name m)) data = inr e -> run = Some [VNil; VObj (NErr _ e)]) /\
        ((forall data, network (Rpc.nats_subject service (sm_name m)) data = inl (Rpc.nats_serve P dec_text enc_text (struct_of (req_name m)) (struct_of (resp_name m)) (f (sm_name m)) data)) ->
          run = match Rpc.nats_call P dec_text enc_text (struct_of (req_name m)) (struct_of (resp_name m)) (f (sm_name m)) x with
                | Rpc.NatsResponse r => Some [VObj (NMsg _ (resp_name m, r)); VNil]
                | Rpc.NatsEncodeError => Some [VNil; VObj (NErr _ enc_text)]
                | Rpc.NatsDecodeError => Some [VNil; VObj (NErr _ dec_text)]
                end)).
  Proof.
    intros G N. split; [exact (nats_text G)|]. intros P dec_text enc_text struct_of refuses network f eps os w lb He. split.
    - exists (nserver P methods eps os), (fun m => snd (subscribed P dec_text enc_text struct_of nats_coders service eps m)). split; [exact (make_nats_runs P dec_text enc_text struct_of refuses network nats_coders methods eq_refl N eps os w)|]. split; [|split].
      + intros m data Hm. unfold subscribed, serve_msg. cbn [snd]. rewrite (decode_req P dec_text enc_text struct_of refuses network nats_coders methods eq_refl N m data Hm). unfold Rpc.nats_serve. destruct (Rpc.unmarshal _ _ _) as [q|]; [|reflexivity].
        rewrite (He m (req_name m, q) Hm). cbn [snd]. destruct (f (sm_name m) q) as [r [e|]]; [reflexivity|]. rewrite (encode_reply_runs P dec_text enc_text struct_of nats_coders methods eq_refl). destruct (Rpc.marshal _ _ _); reflexivity.
      + intro Hr. destruct (serve_all P dec_text enc_text struct_of refuses network nats_coders service methods N eps os w Hr) as [R1 R2]. split; [exact R1|]. eexists. split; [exact R2|]. split; reflexivity.
      + intros l m l' e Em Hl Hm. destruct (serve_refused P dec_text enc_text struct_of refuses network nats_coders service methods N eps os w l m l' e Em Hl Hm) as [R1 R2]. split; [exact R1|]. eexists. split; [exact R2|]. split; reflexivity.
    - exists (nclient_struct P dec_text enc_text struct_of network nats_coders service methods). split; [exact (new_nats_runs P dec_text enc_text struct_of refuses network nats_coders service methods eq_refl N os w)|].
      intros m x Hm run. pose proof (nclient_call_runs P dec_text enc_text struct_of refuses network nats_coders service methods eq_refl N m x w Hm : run = _) as R. split.
      + intros data e Hd Hn. rewrite R, Hd. unfold answered. rewrite Hn. reflexivity.
      + intro Hn. rewrite R. unfold Rpc.nats_call. destruct (Rpc.marshal _ _ _) as [data|]; [|reflexivity]. unfold answered. rewrite Hn. destruct (Rpc.unmarshal _ _ _); reflexivity.
  Qed.
End C89.
Print Assumptions c89_grpc.
Print Assumptions c89_grpc_call.
Print Assumptions c89_nats.

(** ** A case: PropGoFile.shop, with all transports: its gRPC server and its NATS client *)
Definition shop_methods : list smethod := sv_methods (Render.td_service PropGoFile.shop).
Example c89_case : exists s, Render.render_asset (fun _ => None) Generator.BaronPath PropGoFile.shop = Some s /\
  (TextFile.with_grpc PropGoFile.shop = true /\ TextFile.with_nats PropGoFile.shop = true /\ NoDup (map (fun m => to_lower (sm_name m)) shop_methods)) /\
  (has_function s (make_grpc_fun (sv_name (Render.td_service PropGoFile.shop)) shop_methods) /\ has_function s (new_nats_fun (sv_name (Render.td_service PropGoFile.shop)) shop_methods)) /\
  exists m1 m2, shop_methods = [m1; m2] /\
    let lib := lib nat str nat (fun os c => length os + c) (fun _ c => c) (fun _ _ q => inl (snd q)) (grpc_coders PropGoFile.shop) in
    let eps n := fun c (q : str * nat) => if str_eqb n (sm_name m1) then Some (None, Some (T "sold out")) else Some (Some (resp_name m2, c + snd q), None) in
    exists srv, results (run_func _ _ lib (make_grpc_fun (T "Shop") shop_methods) [] [VStruct [kw "Endpoints"] (map (fun m => (sm_name m ++ T "Endpoint", VObj (GEp _ _ _ (eps (sm_name m))))) shop_methods); options _ _ _ [Other 3]] tt) = Some [srv] /\
      results (run_func _ _ lib (grpc_method_fun m1) [srv] [VObj (GCtx _ _ _ 10); VObj (GMsg _ _ _ (req_name m1, 5))] tt) = Some [VNil; VObj (GErr _ _ _ (T "sold out"))] /\
      results (run_func _ _ lib (grpc_method_fun m2) [srv] [VObj (GCtx _ _ _ 10); VObj (GMsg _ _ _ (req_name m2, 5))] tt) = Some [VObj (GMsg _ _ _ (resp_name m2, 17)); VNil].
Proof.
  pose proof (TextProofs.baron_is (fun _ => None) PropGoFile.shop) as R. remember (concat (TextFile.baron_pieces (fun _ => None) PropGoFile.shop)) as s eqn:Es. clear Es.
  assert (M : HttpTransport.new_helper [] (sv_methods (Render.td_service PropGoFile.shop)) = GoStr.Ret (Render.td_helper PropGoFile.shop)) by (vm_compute; reflexivity).
  assert (LF : forall hm b f t, In hm (Render.td_helper PropGoFile.shop) -> In b (HttpTransport.hm_binds hm) -> In f (HttpTransport.hb_fields b) -> DecoderTexts.field_text f = Some t -> lays_out (fun _ => None) t) by (intros; intros ? K; discriminate K).
  assert (LO : forall hm b o t, In hm (Render.td_helper PropGoFile.shop) -> In b (HttpTransport.hm_binds hm) -> In o (HttpTransport.hb_oneofs b) -> DecoderTexts.oneof_text o = Some t -> lays_out (fun _ => None) t) by (intros; intros ? K; discriminate K).
  assert (N : NoDup (map (fun m => to_lower (sm_name m)) shop_methods)) by (vm_compute; repeat constructor; cbn [In]; intuition discriminate).
  exists s. split; [exact R|]. split; [split; [reflexivity|split; [reflexivity|exact N]]|]. split; [split|].
  - exact (proj1 (proj1 (proj1 (c89_grpc (fun _ => None) PropGoFile.shop s [] R M PropGoFile.shop_ok LF LO eq_refl N)))).
  - exact (proj2 (proj2 (proj1 (proj1 (c89_nats (fun _ => None) PropGoFile.shop s [] R M PropGoFile.shop_ok LF LO eq_refl N))))).
  - eexists; eexists. split; [reflexivity|]. eexists. split; [vm_compute; reflexivity|]. split; vm_compute; reflexivity.
Qed.
