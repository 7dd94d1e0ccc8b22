(** The library that MakeHTTPHandler, NewHTTPClient and copyURL of the generated file use (HttpProg.v), and what they do with it.  The library is a specification: gorilla/mux's router, go-kit's
    transport/http options, servers and clients, strings.HasPrefix, and url.Parse (Client.v). *)
From Coq Require Import String Lia.
From Verif Require Import GoStr GoStrProofs GoMap Strs StrsSpec SvcTypes HttpTransport GoLex GoDecls GoGlue GlueProg WireProg WireGrpc HttpProg.
From Verif Require Client PropGlue GenHttp ErrorHop.

(** The i-th element changed *)
Fixpoint change {X} (i : nat) (g : X -> X) (l : list X) : list X := match l, i with [], _ => [] | x :: l', 0 => g x :: l' | x :: l', S j => x :: change j g l' end.
Lemma change_last {X} (g : X -> X) l x : change (length l) g (l ++ [x]) = l ++ [g x].
Proof. induction l as [|y l IH]; [reflexivity|]. cbn [length app change]. rewrite IH. reflexivity. Qed.
Lemma u_var (b : str) : str_eqb (T "u") (b ++ T "Endpoint") = false.
Proof. apply str_eqb_neq. intro E. apply (f_equal (@length _)) in E. rewrite app_length in E. cbn in E. lia. Qed.

Section Http.
  Variable Ep : Type.                                         (* endpoints *)
  Variable other_auth : str -> option str.                     (* url.Parse, see Client.v *)
  (** Options of go-kit's server: a function that is given the context, the function that answers errors, the content type of what is not an error; others *)
  Inductive hopt := HBefore (f : str) | HErrors (f : str) | HType (s : str) | HOther (n : nat).
  (** A route: its verb, path and handler; a handler: its endpoint, the functions that decode and encode, and its options *)
  Record handler := mkHandler { h_ep : Ep; h_dec : str; h_enc : str; h_options : list hopt }.
  Record mroute := mkMRoute { mr_verb : str; mr_path : option str; mr_handler : option handler }.
  (** An endpoint of the client: the verb and URL of its requests, the functions that encode and decode, and its options *)
  Record remote_call := mkRemote { rc_verb : str; rc_url : Client.url; rc_enc : str; rc_dec : str; rc_options : list nat }.
  Inductive hob := HEp (e : Ep) | HFn (name : str) | HOpt (o : hopt) | HSetType (s : str) | HRouter | HRoute (i : nat) | HServer (h : handler) | HErr | HCOpt (n : nat) | HClient (c : remote_call) | HCall (c : remote_call).
  (** The router, if there is one: its routes *)
  Definition world := option (list mroute).
  Definition url_struct (u : Client.url) : gval hob :=
    VStruct (sel "url" "URL") [(T "Scheme", VStr (Client.u_scheme u)); (T "Opaque", VStr (Client.u_opaque u)); (T "Host", VStr (Client.u_host u)); (T "Path", VStr (Client.u_path u)); (T "RawQuery", VStr (Client.u_query u))].
  Definition url_of (x : gval hob) : option Client.url :=
    match x with VStruct _ [(_, VStr a); (_, VStr b); (_, VStr c); (_, VStr p); (_, VStr q)] => Some (Client.mkUrl a b c p q) | _ => None end.
  Definition hoptions (os : list hopt) : gval hob := match os with [] => VNil | _ => VList (map (fun o => VObj (HOpt o)) os) end.
  Fixpoint as_hoptions (l : list (gval hob)) : option (list hopt) := match l with [] => Some [] | VObj (HOpt o) :: l' => option_map (cons o) (as_hoptions l') | _ => None end.
  Definition hoptions_in (x : gval hob) : option (list hopt) := match x with VNil => Some [] | VList l => as_hoptions l | _ => None end.
  Definition coptions (os : list nat) : gval hob := match os with [] => VNil | _ => VList (map (fun o => VObj (HCOpt o)) os) end.
  Fixpoint as_coptions (l : list (gval hob)) : option (list nat) := match l with [] => Some [] | VObj (HCOpt o) :: l' => option_map (cons o) (as_coptions l') | _ => None end.
  Definition coptions_in (x : gval hob) : option (list nat) := match x with VNil => Some [] | VList l => as_coptions l | _ => None end.
  (** copyURL uses nothing of a library. *)
  Definition hlib0 : golib hob world := mkLib _ _ (fun _ _ _ => None) (fun _ _ _ _ => None) (fun _ _ _ => None) (fun _ => None) (fun _ _ => false) (fun _ _ _ => None) (fun _ _ => false) (fun _ => VNil) (fun _ _ => None) (fun l => l).
  Variable is_fun : str -> bool.                               (* the functions of the package *)
  Definition one (n : string) (l : list str) : bool := match l with [a] => str_eqb a (T n) | _ => false end.
  Definition hlib : golib hob world := mkLib _ _
    (fun f args w =>
      if one "append" f then match args with [VList a; VList b] => Some ([VList (a ++ b)], w) | [VList a; VNil] => Some ([VList a], w) | _ => None end
      else if one "copyURL" f then match run_func _ _ hlib0 copy_url_fun [] args w with Return vs _ w' => Some (vs, w') | _ => None end
      else if names "httptransport" "ServerBefore" f then match args with [VObj (HFn n)] => Some ([VObj (HOpt (HBefore n))], w) | _ => None end
      else if names "httptransport" "ServerErrorEncoder" f then match args with [VObj (HFn n)] => Some ([VObj (HOpt (HErrors n))], w) | _ => None end
      else if names "httptransport" "SetContentType" f then match args with [VStr s] => Some ([VObj (HSetType s)], w) | _ => None end
      else if names "httptransport" "ServerAfter" f then match args with [VObj (HSetType s)] => Some ([VObj (HOpt (HType s))], w) | _ => None end
      else if names "httptransport" "NewServer" f then
        match args with [VObj (HEp e); VObj (HFn dec); VObj (HFn enc); os] => match hoptions_in os with Some os => Some ([VObj (HServer (mkHandler e dec enc os))], w) | None => None end | _ => None end
      else if names "httptransport" "NewClient" f then
        match args with [VStr vb; u; VObj (HFn enc); VObj (HFn dec); os] => match url_of u, coptions_in os with Some u, Some os => Some ([VObj (HClient (mkRemote vb u enc dec os))], w) | _, _ => None end | _ => None end
      else if names "mux" "NewRouter" f then match args, w with [], None => Some ([VObj HRouter], Some []) | _, _ => None end
      else if names "strings" "HasPrefix" f then match args with [VStr a; VStr b] => Some ([VBool (has_prefix a b)], w) | _ => None end
      else if names "url" "Parse" f then match args with [VStr a] => match Client.url_parse other_auth a with Some u => Some ([url_struct u; VNil], w) | None => Some ([VNil; VObj HErr], w) end | _ => None end
      else None)                                              (* panic *)
    (fun n x args w =>
      if str_eqb n (T "Methods") then match x, args, w with VObj HRouter, [VStr vb], Some rs => Some ([VObj (HRoute (length rs))], Some (rs ++ [mkMRoute vb None None])) | _, _, _ => None end
      else if str_eqb n (T "Path") then match x, args, w with VObj (HRoute i), [VStr p], Some rs => Some ([VObj (HRoute i)], Some (change i (fun r => mkMRoute (mr_verb r) (Some p) (mr_handler r)) rs)) | _, _, _ => None end
      else if str_eqb n (T "Handler") then match x, args, w with VObj (HRoute i), [VObj (HServer h)], Some rs => Some ([VObj (HRoute i)], Some (change i (fun r => mkMRoute (mr_verb r) (mr_path r) (Some h)) rs)) | _, _, _ => None end
      else if str_eqb n (T "Endpoint") then match x, args with VObj (HClient c), [] => Some ([VObj (HCall c)], w) | _, _ => None end
      else None)
    (fun _ _ _ => None)
    (fun l => if one "contentType" l then Some (VStr ErrorHop.content_type) else match l with [n] => if is_fun n then Some (VObj (HFn n)) else None | _ => None end)
    (fun _ _ => false) (fun _ _ _ => None) (fun _ _ => false) (fun _ => VNil) (fun _ _ => None) (fun l => l).
  Notation run := (run_func _ _ hlib).
  (** gorilla/mux: the first route that has the verb and the path serves the request. *)
  Fixpoint dispatch (rs : list mroute) (h : GenHttp.http_request) : option (handler * gomap str) :=
    match rs with
    | [] => None
    | r :: rs' =>
        match mr_path r, mr_handler r with
        | Some p, Some x => if str_eqb (mr_verb r) (GenHttp.rq_verb h) then match GenHttp.mux_match p (GenHttp.rq_path h) with Some vars => Some (x, vars) | None => dispatch rs' h end else dispatch rs' h
        | _, _ => dispatch rs' h
        end
    end.

  Variable svc : str.
  Variables (all : list str) (ms : list hmeth).                (* the methods, and those with bindings *)
  Hypothesis Hall : NoDup all.
  Hypothesis Hin : forall m, In m ms -> In (hm_name m) all.
  Hypothesis Hnames : is_fun (T "HTTPHeadersToContext") = true /\ is_fun (T "errorEncoder") = true /\ is_fun (T "EncodeHTTPGenericResponse") = true.
  Hypothesis Hdec : forall m b, In m ms -> In b (hm_binds m) -> is_fun (http_dec b) = true /\ is_fun (http_enc b) = true.
  Hypothesis Hresp : forall m, In m ms -> is_fun (http_resp m) = true.
  Hypothesis Hbinds : forall m, In m ms -> hm_binds m <> [].
  Hypothesis Hlabels : NoDup (map (fun m => hb_label (main m)) ms).
  (** *** MakeHTTPHandler *)
  Variable eps : str -> Ep.
  Definition hendpoints : gval hob := VStruct [kw "Endpoints"] (map (fun n => (n ++ T "Endpoint", VObj (HEp (eps n)))) all).
  Definition at_http (os : list hopt) : list hopt := HBefore (T "HTTPHeadersToContext") :: HErrors (T "errorEncoder") :: HType ErrorHop.content_type :: os.
  Definition route_of (os : list hopt) (m : hmeth) (b : hbind) : mroute :=
    mkMRoute (to_upper (hb_verb b)) (Some (hb_path b)) (Some (mkHandler (eps (hm_name m)) (http_dec b) (T "EncodeHTTPGenericResponse") (at_http os))).
  Definition routes_of (os : list hopt) (l : list hmeth) : list mroute := flat_map (fun m => flat_map (fun b => [route_of os m b]) (hm_binds m)) l.
  Definition hall (os : list hopt) : gval hob := VList (map (fun o => VObj (HOpt o)) (at_http os)).
  Lemma hall_in os : hoptions_in (hall os) = Some (at_http os).
  Proof. unfold hall, hoptions_in. induction (at_http os) as [|a l IH]; [reflexivity|]. cbn [map as_hoptions]. rewrite IH. reflexivity. Qed.
  Definition henv (os : list hopt) : genv hob := [(T "m", VObj HRouter); (T "serverOptions", hall os); (T "options", hoptions os); (T "endpoints", hendpoints)].
  Lemma find_endpoint m : In m ms -> lookup _ (http_field m) (map (fun n => (n ++ T "Endpoint", VObj (HEp (eps n)))) all) = Some (VObj (HEp (eps (hm_name m)))).
  Proof.
    intro H. unfold http_field. apply (lookup_row (fun n => n ++ T "Endpoint") (fun n => VObj (HEp (eps n))) all (hm_name m)); [|apply Hin; exact H].
    exact (nodup_suffix (fun n => n) (T "Endpoint") all (eq_ind_r (fun l => NoDup l) Hall (map_id all))).
  Qed.
  Lemma route_runs os m b rs : In m ms -> In b (hm_binds m) -> exec _ _ hlib (http_route m b) (henv os) (Some rs) = Next (henv os) (Some (rs ++ [route_of os m b])).
  Proof.
    intros Hm Hb. unfold http_route, henv. cbn [exec].
    match goal with |- match ?e with _ => _ end = _ => assert (E : e = Some ([VObj (HRoute (length rs))], Some (rs ++ [route_of os m b]))) end; [|rewrite E; reflexivity].
    pose proof (proj2 (proj2 Hnames)) as F1. pose proof (proj1 (Hdec m b Hm Hb)) as F2. cbn -[http_dec] in F1, F2.
    cbn -[hall hendpoints hoptions http_field http_dec hoptions_in to_upper change]. unfold hendpoints at 1. rewrite find_endpoint by exact Hm.
    change (str_eqb (http_dec b) _) with false. cbn -[hall hendpoints hoptions http_field http_dec hoptions_in to_upper change]. change (str_eqb (http_dec b) _) with false.
    cbn -[hall hendpoints hoptions http_field http_dec hoptions_in to_upper change].
    rewrite F2. cbn -[hall hendpoints hoptions http_field http_dec hoptions_in to_upper change]. rewrite F1. cbn -[hall hendpoints hoptions http_field http_dec hoptions_in to_upper change].
    rewrite hall_in. cbn -[hall hendpoints hoptions http_field http_dec hoptions_in to_upper change]. rewrite !change_last. reflexivity.
  Qed.
  Lemma binds_run os m rest : In m ms -> forall bs rs, incl bs (hm_binds m) ->
    exec_block _ _ hlib (flat_map (fun b => [http_route m b]) bs ++ rest) (henv os) (Some rs) = exec_block _ _ hlib rest (henv os) (Some (rs ++ flat_map (fun b => [route_of os m b]) bs)).
  Proof.
    intro Hm. induction bs as [|b bs IH]; intros rs Hi; [rewrite app_nil_r; reflexivity|]. cbn [flat_map app].
    rewrite (PropGlue.block_step _ _ _ _ _ _ _ _ _ (route_runs os m b rs Hm (Hi b (or_introl eq_refl)))), IH by (intros y Hy; apply Hi; right; exact Hy). rewrite <- app_assoc. reflexivity.
  Qed.
  Lemma routes_run os rest : forall l rs, incl l ms -> exec_block _ _ hlib (http_routes l ++ rest) (henv os) (Some rs) = exec_block _ _ hlib rest (henv os) (Some (rs ++ routes_of os l)).
  Proof.
    induction l as [|m l IH]; intros rs Hi; [rewrite app_nil_r; reflexivity|]. unfold http_routes. cbn [flat_map]. rewrite <- app_assoc. rewrite binds_run; [|apply Hi; left; reflexivity|apply incl_refl].
    fold (http_routes l). rewrite IH by (intros y Hy; apply Hi; right; exact Hy). unfold routes_of. cbn [flat_map]. rewrite <- app_assoc. reflexivity.
  Qed.
  Lemma make_http_runs os : results (run (make_http_fun ms) [] [hendpoints; hoptions os] None) = Some [VObj HRouter] /\ after (run (make_http_fun ms) [] [hendpoints; hoptions os] None) = Some (Some (routes_of os ms)).
  Proof.
    unfold run_func, run_body. cbn [f_recv f_params f_body make_http_fun app map fst]. set (env0 := binds _ _ _ _). assert (E0 : env0 = [(T "options", hoptions os); (T "endpoints", hendpoints)]) by reflexivity. clearbody env0. subst env0.
    assert (O : ms = [] \/ (match ms with [] => [] | _ :: _ => http_options end) = http_options) by (destruct ms; [left|right]; reflexivity).
    destruct O as [O|O]; [rewrite O; split; reflexivity|]. rewrite O. clear O. destruct Hnames as (F1 & F2 & _). cbn in F1, F2.
    pose (env1 := [(T "serverOptions", VList (map (fun o => VObj (HOpt o)) (at_http []))); (T "options", hoptions os); (T "endpoints", hendpoints)]).
    pose (env2 := [(T "serverOptions", hall os); (T "options", hoptions os); (T "endpoints", hendpoints)]).
    unfold http_options, with_options. cbn [app].
    match goal with |- context [exec_block _ _ _ (?a :: ?b :: ?c :: _)] =>
      assert (S1 : exec _ _ hlib a [(T "options", hoptions os); (T "endpoints", hendpoints)] None = Next env1 None); [|assert (S2 : exec _ _ hlib b env1 None = Next env2 None); [|assert (S3 : exec _ _ hlib c env2 None = Next (henv os) (Some [])) by reflexivity]] end.
    { cbn -[hoptions hendpoints]. rewrite F1, F2. reflexivity. }
    { cbn -[hoptions hendpoints]. destruct os as [|o os]; reflexivity. }
    rewrite (PropGlue.block_step _ _ _ _ _ _ _ _ _ S1), (PropGlue.block_step _ _ _ _ _ _ _ _ _ S2), (PropGlue.block_step _ _ _ _ _ _ _ _ _ S3).
    rewrite routes_run by apply incl_refl. split; reflexivity.
  Qed.
  (** What the routes do *)
  Lemma dispatches os h : dispatch (routes_of os ms) h = match GenHttp.serve (GenHttp.make_routes ms) h with
    | Some (m, b, vars) => Some (mkHandler (eps m) (http_dec b) (T "EncodeHTTPGenericResponse") (at_http os), vars) | None => None end.
  Proof.
    unfold routes_of, GenHttp.make_routes. generalize ms. intro l. induction l as [|m l IH]; [reflexivity|]. cbn [flat_map]. generalize (hm_binds m). intro bs. induction bs as [|b bs IHb]; [exact IH|].
    cbn [flat_map map app dispatch route_of mr_path mr_handler mr_verb GenHttp.serve]. destruct (str_eqb _ _); [|exact IHb]. destruct (GenHttp.mux_match _ _); [reflexivity|exact IHb].
  Qed.
  (** *** copyURL *)
  Lemma copy_url_runs u p w : results (run_func _ _ hlib0 copy_url_fun [] [url_struct u; VStr p] w) = Some [url_struct (Client.copy_url u p)]. Proof. reflexivity. Qed.
  (** *** NewHTTPClient *)
  Definition remote_of (os : list nat) (u : Client.url) (m : hmeth) : remote_call :=
    mkRemote (to_upper (hb_verb (main m))) (Client.copy_url u (hb_base (main m))) (http_enc (main m)) (http_resp m) os.
  Definition hbase (i : str) (os : list nat) (u : Client.url) : genv hob := [(T "err", VNil); (T "u", url_struct u); (T "options", coptions os); (T "instance", VStr i)].
  Definition hmade (os : list nat) (u : Client.url) (l : list hmeth) : genv hob := map (fun m => (main_var m, VObj (HCall (remote_of os u m)))) l.
  Lemma coptions_made os : coptions_in (coptions os) = Some os.
  Proof. destruct os as [|o os]; [reflexivity|]. unfold coptions, coptions_in. generalize (o :: os). induction l as [|a l IH]; [reflexivity|]. cbn [map as_coptions]. rewrite IH. reflexivity. Qed.
  Lemma main_in m : In m ms -> In (main m) (hm_binds m).
  Proof. intro H. specialize (Hbinds m H). unfold main. destruct (hm_binds m); [contradiction|left; reflexivity]. Qed.
  Lemma hendpoint_runs i os u l m w : In m ms -> exec_block _ _ hlib (http_endpoint m) (hmade os u l ++ hbase i os u) w = Next (hmade os u (m :: l) ++ hbase i os u) w.
  Proof.
    intro Hm. unfold http_endpoint.
    assert (K : str_eqb (main_var m) (T "_") = false) by (unfold main_var; change (T "_") with ([] ++ T "_"); change (T "Endpoint") with (T "Endpoin" ++ T "t"); rewrite app_assoc; apply tails; [reflexivity|intro K; discriminate K]).
    assert (S1 : exec _ _ hlib (SVar (main_var m) endpoint_ty) (hmade os u l ++ hbase i os u) w = Next ((main_var m, VNil) :: hmade os u l ++ hbase i os u) w).
    { cbn [exec l_zero hlib]. unfold bind. rewrite K. reflexivity. }
    rewrite (PropGlue.block_step _ _ _ _ _ _ _ _ _ S1). clear S1.
    set (env := (main_var m, VNil) :: hmade os u l ++ hbase i os u).
    assert (Look : forall x, (forall b, str_eqb x (b ++ T "Endpoint") = false) -> lookup _ x env = lookup _ x (hbase i os u)).
    { intros x H. unfold env. cbn [lookup]. unfold main_var at 1. rewrite H. apply lookup_skip. intros p Hp. apply in_map_iff in Hp. destruct Hp as (y & <- & _). apply H. }
    assert (L1 : lookup _ (T "httptransport") env = None) by (rewrite Look; [reflexivity|intro b; exact (not_var (T "httptranspo") (T "rt") b eq_refl ltac:(intro Z; discriminate Z))]).
    assert (L2 : lookup _ (T "u") env = Some (url_struct u)) by (rewrite Look; [reflexivity|exact u_var]).
    assert (L3 : lookup _ (T "options") env = Some (coptions os)) by (rewrite Look; [reflexivity|intro b; exact (not_var (T "optio") (T "ns") b eq_refl ltac:(intro Z; discriminate Z))]).
    assert (L4 : lookup _ (http_enc (main m)) env = None).
    { rewrite Look; [reflexivity|]. intro b. unfold http_enc. change (T "Request") with (T "Reque" ++ T "st"). rewrite !app_assoc. apply not_var; [reflexivity|intro Z; discriminate Z]. }
    assert (L5 : lookup _ (http_resp m) env = None).
    { rewrite Look; [reflexivity|]. intro b. unfold http_resp. change (T "Response") with (T "Respon" ++ T "se"). rewrite !app_assoc. apply not_var; [reflexivity|intro Z; discriminate Z]. }
    assert (L6 : lookup _ (T "copyURL") env = None) by (rewrite Look; [reflexivity|intro b; exact (not_var (T "copyU") (T "RL") b eq_refl ltac:(intro Z; discriminate Z))]).
    assert (G4 : l_global _ _ hlib [http_enc (main m)] = Some (VObj (HFn (http_enc (main m))))).
    { cbn [l_global hlib]. change (one "contentType" [http_enc (main m)]) with false. cbv iota. rewrite (proj2 (Hdec m (main m) Hm (main_in m Hm))). reflexivity. }
    assert (G5 : l_global _ _ hlib [http_resp m] = Some (VObj (HFn (http_resp m)))).
    { cbn [l_global hlib]. change (one "contentType" [http_resp m]) with false. cbv iota. rewrite (Hresp m Hm). reflexivity. }
    assert (CU : forall p, l_call _ _ hlib [T "copyURL"] [url_struct u; VStr p] w = Some ([url_struct (Client.copy_url u p)], w)) by reflexivity.
    assert (NC : forall vb p enc dec, l_call _ _ hlib [T "httptransport"; T "NewClient"] [VStr vb; url_struct (Client.copy_url u p); VObj (HFn enc); VObj (HFn dec); coptions os] w = Some ([VObj (HClient (mkRemote vb (Client.copy_url u p) enc dec os))], w)).
    { intros. cbn -[coptions coptions_in]. rewrite coptions_made. reflexivity. }
    match goal with |- context [SSet _ ?e] => assert (V : eval _ _ hlib e env w 1 = Some ([VObj (HCall (remote_of os u m))], w)) end.
    { unfold v, pkg. cbn -[env lookup coptions coptions_in http_enc http_resp main to_upper str_eqb names one T l_call l_global hlib url_struct]. unfold v. cbn -[env lookup coptions coptions_in http_enc http_resp main to_upper str_eqb names one T l_call l_global hlib url_struct].
      rewrite L1, L2, L3, L4, L5, L6, G4, G5. cbn -[env lookup coptions coptions_in http_enc http_resp main to_upper str_eqb names one T l_call l_global hlib url_struct Client.copy_url].
      rewrite CU. cbn -[env lookup coptions coptions_in http_enc http_resp main to_upper str_eqb names one T l_call l_global hlib url_struct Client.copy_url]. rewrite NC. reflexivity. }
    unfold exec_block. cbn [block_of exec]. unfold eval_into. cbn [length]. rewrite V. cbn [assigns assign]. rewrite K. unfold env. cbn [update]. rewrite str_eqb_refl.
    unfold leave. cbn [length]. rewrite Nat.sub_diag. reflexivity.
  Qed.
  Lemma hclient_block i os u w : forall todo l rest, incl todo ms -> exec_block _ _ hlib (flat_map http_endpoint todo ++ rest) (hmade os u l ++ hbase i os u) w = exec_block _ _ hlib rest (hmade os u (rev todo ++ l) ++ hbase i os u) w.
  Proof.
    induction todo as [|m todo IH]; intros l rest Hi; [reflexivity|]. cbn [flat_map]. rewrite <- app_assoc, PropGlue.block_app, hendpoint_runs by (apply Hi; left; reflexivity).
    rewrite IH by (intros y Hy; apply Hi; right; exact Hy). cbn [rev]. rewrite <- app_assoc. reflexivity.
  Qed.
  Definition hclient_struct (os : list nat) (u : Client.url) : gval hob := VStruct [kw "Endpoints"] (map (fun m => (http_field m, VObj (HCall (remote_of os u m)))) ms).
  Definition target (i : str) : str := if has_prefix i (T "http") then i else T "http://" ++ i.
  Lemma parse_runs i os rest w : exec_block _ _ hlib (parse_instance ++ rest) [(T "options", coptions os); (T "instance", VStr i)] w =
    match Client.url_parse other_auth (target i) with
    | Some u => exec_block _ _ hlib rest (hbase (target i) os u) w
    | None => Return [VNil; VObj HErr] [(T "err", VObj HErr); (T "u", VNil); (T "options", coptions os); (T "instance", VStr (target i))] w
    end.
  Proof.
    unfold parse_instance. cbn [app].
    match goal with |- exec_block _ _ _ (?a :: ?b :: ?c :: _) _ _ = _ =>
      assert (S1 : exec _ _ hlib a [(T "options", coptions os); (T "instance", VStr i)] w = Next [(T "options", coptions os); (T "instance", VStr (target i))] w) end.
    { unfold target. cbn -[coptions has_prefix]. destruct (has_prefix i _); reflexivity. }
    rewrite (PropGlue.block_step _ _ _ _ _ _ _ _ _ S1). clear S1.
    destruct (Client.url_parse other_auth (target i)) as [u|] eqn:U.
    - match goal with |- exec_block _ _ _ (?b :: ?c :: ?e :: _) _ _ = _ =>
        assert (S2 : exec _ _ hlib b [(T "options", coptions os); (T "instance", VStr (target i))] w = Next (hbase (target i) os u) w);
        [|assert (S3 : exec _ _ hlib c (hbase (target i) os u) w = Next (hbase (target i) os u) w) by reflexivity; assert (S4 : exec _ _ hlib e (hbase (target i) os u) w = Next (hbase (target i) os u) w) by reflexivity] end.
      { cbn -[coptions target Client.url_parse]. rewrite U. reflexivity. }
      rewrite (PropGlue.block_step _ _ _ _ _ _ _ _ _ S2), (PropGlue.block_step _ _ _ _ _ _ _ _ _ S3), (PropGlue.block_step _ _ _ _ _ _ _ _ _ S4). reflexivity.
    - match goal with |- exec_block _ _ _ (?b :: ?c :: ?e :: _) _ _ = _ =>
        assert (S2 : exec _ _ hlib b [(T "options", coptions os); (T "instance", VStr (target i))] w = Next [(T "err", VObj HErr); (T "u", VNil); (T "options", coptions os); (T "instance", VStr (target i))] w) end.
      { cbn -[coptions target Client.url_parse]. rewrite U. reflexivity. }
      rewrite (PropGlue.block_step _ _ _ _ _ _ _ _ _ S2). apply PropGlue.block_return. reflexivity.
  Qed.
  Lemma new_http_runs i os w : match Client.url_parse other_auth (target i) with
    | None => results (run (new_http_fun svc ms) [] [VStr i; coptions os] w) = Some [VNil; VObj HErr]
    | Some u => match ms with [] => run (new_http_fun svc ms) [] [VStr i; coptions os] w = Panic | _ => results (run (new_http_fun svc ms) [] [VStr i; coptions os] w) = Some [hclient_struct os u; VNil] end
    end.
  Proof.
    unfold run_func, run_body. cbn [f_recv f_params f_body new_http_fun app map fst]. set (env0 := binds _ _ _ _). assert (E0 : env0 = [(T "options", coptions os); (T "instance", VStr i)]) by reflexivity. clearbody env0. subst env0.
    rewrite parse_runs. destruct (Client.url_parse other_auth (target i)) as [u|]; [|reflexivity].
    assert (O : ms = [] \/ (match ms with [] => [no_endpoints] | _ :: _ => [] end) = [] /\ exists m l, ms = m :: l) by (destruct ms as [|m l]; [left; reflexivity|right; split; [reflexivity|exists m, l; reflexivity]]).
    destruct O as [O|[O (m0 & l0 & E)]]; [rewrite O; reflexivity|].
    assert (G : results (match exec_block hob world hlib ((match ms with [] => [no_endpoints] | _ :: _ => [] end) ++ flat_map http_endpoint ms ++ [SRet [ELit [kw "Endpoints"] (map http_endpoint_field ms); ENil]]) (hbase (target i) os u) w with Next env1 w1 => Return [] env1 w1 | r => r end) = Some [hclient_struct os u; VNil]).
    2: { rewrite E in G |- *. exact G. }
    rewrite O. cbn [app]. change (hbase (target i) os u) with (hmade os u [] ++ hbase (target i) os u). rewrite hclient_block by apply incl_refl. rewrite app_nil_r.
    assert (L : eval _ _ hlib (ELit [kw "Endpoints"] (map http_endpoint_field ms)) (hmade os u (rev ms) ++ hbase (target i) os u) w 1 = Some ([hclient_struct os u], w)).
    { refine (eval_lit hlib [kw "Endpoints"] http_endpoint_field (fun m => VObj (HCall (remote_of os u m))) _ w ms _). intros m Hm. unfold http_endpoint_field. cbn [snd eval].
      assert (N : NoDup (map main_var (rev ms))) by (rewrite map_rev; apply NoDup_rev; exact (nodup_suffix (fun m => hb_label (main m)) (T "Endpoint") ms Hlabels)).
      rewrite (lookup_app _ _ _ (VObj (HCall (remote_of os u m)))) by (apply (lookup_row main_var (fun m => VObj (HCall (remote_of os u m))) (rev ms) m N); apply in_rev in Hm; exact Hm). reflexivity. }
    unfold exec_block. cbn [block_of exec eval_all]. unfold eval1. cbn [eval]. cbn [eval] in L. rewrite L. reflexivity.
  Qed.
End Http.
