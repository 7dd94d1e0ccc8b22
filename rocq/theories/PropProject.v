(** C85: the generated packages fit together.  The files of package server, of package service (first version) and of the two main packages, read as Go (GoLex.v, GoDecls.v, GoUse.v), and the
    package of the messages with baron/NAME.pb.baron.go (C84): every name that one takes from another is declared there (GoPackage.v). *)
From Coq Require Import String.
From Verif Require Import GoStr GoStrProofs GoMap Strs StrsSpec SvcTypes Generator HttpTransport Render TextSpec GoLex GoDecls GoUse GoPackage DecoderTexts DecoderProto EncoderProto.
From Verif Require TextFile GoLexProofs WiringProofs PathsProofs TextOthers TextOthersProofs FileService FileOthers FileOthers2 FileOthers3 FileOthers4 PropService Wiring.
From Verif Require Import WiringSpec PropWiring PropGoFile.

(** What protoc-gen-go and protoc-gen-go-grpc declare for the service and its messages (a part). *)
Definition protoc_names (d : tdata) : list str :=
  [sv_name (td_service d) ++ T "Server"; T "Register" ++ sv_name (td_service d) ++ T "Server"; T "Unimplemented" ++ sv_name (td_service d) ++ T "Server"]
  ++ flat_map (fun m => [go_camel_case (ft_name (sm_req m)); go_camel_case (ft_name (sm_resp m))]) (sv_methods (td_service d)).
(** Something is served: there is a method, and a transport for it. *)
Definition serves (d : tdata) : Prop := sv_methods (td_service d) <> [] /\ (td_helper d <> [] \/ TextFile.with_grpc d = true \/ TextFile.with_nats d = true).

Definition capitalb (x : str) : bool := match x with c :: _ => is_upper c | [] => false end.
Lemma capital_dec x : capitalb x = true -> capital x. Proof. destruct x; [discriminate|auto]. Qed.
Lemma capital_app x y : capital x -> capital (x ++ y). Proof. destruct x; [intros []|auto]. Qed.
Lemma capital_exported x : exported_ident x -> capital x. Proof. destruct x; [intros []|intros [H _]; exact H]. Qed.
(** Names used of a package *)
Definition known (E : list str) (l : list str) : Prop := forall x, In x l -> In x E /\ capital x.
Lemma known_app E a b : known E a -> known E b -> known E (a ++ b). Proof. intros A B x Hx. apply in_app_or in Hx. destruct Hx; auto. Qed.
Lemma known_cons E x l : In x E /\ capital x -> known E l -> known E (x :: l). Proof. intros A B y [<-|Hy]; auto. Qed.
Lemma known_nil E : known E []. Proof. intros x []. Qed.
Lemma known_when E (b : bool) l : (b = true -> known E l) -> known E (FileOthers.when b l). Proof. destruct b; [auto|intros _; apply known_nil]. Qed.
Lemma known_flat {A} E (f : A -> list str) l : (forall x, In x l -> known E (f x)) -> known E (flat_map f l).
Proof. intros H x Hx. apply in_flat_map in Hx. destruct Hx as (y & Hy & Hx). exact (H y Hy x Hx). Qed.
Lemma known_map {A} E (f : A -> str) l : (forall x, In x l -> In (f x) E /\ capital (f x)) -> known E (map f l).
Proof. intros H x Hx. apply in_map_iff in Hx. destruct Hx as (y & <- & Hy). exact (H y Hy). Qed.
Lemma ne_map {A B} (f : A -> B) l : l <> [] -> map f l <> []. Proof. destruct l; [auto|discriminate]. Qed.
Lemma ne_left {A} (a b : list A) : a <> [] -> a ++ b <> []. Proof. destruct a; [contradiction|discriminate]. Qed.
Lemma ne_right {A} (a b : list A) : b <> [] -> a ++ b <> []. Proof. destruct a; [auto|discriminate]. Qed.
Lemma only_pln {A} (l : list A) a : In (T "pln") a -> incl (map (fun _ => T "pln") l) a. Proof. intros H x Hx. apply in_map_iff in Hx. destruct Hx as (_ & <- & _). exact H. Qed.
Lemma known_one {A} E (f : A -> str) l : (forall x, In x l -> known E [f x]) -> known E (map f l).
Proof. intro H. apply known_map. intros x Hx. exact (H x Hx (f x) (or_introl eq_refl)). Qed.
Lemma known_list E l L : incl L E -> forallb (fun x => existsb (str_eqb x) L && capitalb x) l = true -> known E l.
Proof.
  intros I H x Hx. rewrite forallb_forall in H. specialize (H x Hx). apply andb_prop in H. destruct H as [H1 H2]. split; [|apply capital_dec; exact H2]. apply I. apply existsb_exists in H1. destruct H1 as (y & Hy & E1).
  apply str_eqb_eq in E1. subst y. exact Hy.
Qed.
Lemma flat_map_ne {A B} (f : A -> list B) l : l <> [] -> (forall x, f x <> []) -> flat_map f l <> [].
Proof. destruct l as [|x l]; [contradiction|]. intros _ H E. cbn [flat_map] in E. apply app_eq_nil in E. exact (H x (proj1 E)). Qed.

Lemma fits_of exports pkg imports names table called ds all : FileOthers.file_says pkg imports names table called ds ->
  scope_ok (map (local_name package_name) imports ++ all) ->
  Forall (fun i => exists l, In (local_name package_name i, l) table /\ l <> [] /\ known (exports (snd i)) l) imports ->
  incl called (T "make" :: all) -> file_fits package_name exports pkg all ds.
Proof.
  intros (P & I & N & U & C) S K F. rewrite Forall_forall in U, K.
  assert (X : forall i, In i imports -> exists l, flat_map (uses_of (local_name package_name i)) ds = l /\ l <> [] /\ known (exports (snd i)) l).
  { intros i Hi. destruct (K i Hi) as (l & Hl & NE & Kn). exists l. split; [exact (U _ Hl)|]. split; assumption. }
  split.
  - exact P.
  - rewrite I. exact S.
  - intros i Hi. rewrite I in Hi. destruct (X i Hi) as (l & -> & NE & _). exact NE.
  - intros i x Hi Hx. rewrite I in Hi. destruct (X i Hi) as (l & E & _ & Kn). rewrite E in Hx. exact (Kn x Hx).
  - rewrite C. exact F.
Qed.

(** The name of a package in a directory of the module *)
Lemma package_under a w : existsb (N.eqb c_slash) w = false -> str_eqb w (T "nats.go") = false -> package_name (a ++ T "/" ++ w) = w.
Proof.
  intros H1 H2. assert (L : last (split1 c_slash (a ++ T "/" ++ w)) [] = w).
  { change (a ++ T "/" ++ w) with (a ++ c_slash :: w). rewrite PathsProofs.split1_join2. assert (E : split1 c_slash w = [w]).
    { clear -H1. induction w as [|c w IH]; [reflexivity|]. cbn [existsb] in H1. apply Bool.orb_false_iff in H1. destruct H1 as [A B]. cbn [split1]. rewrite N.eqb_sym, A, (IH B). reflexivity. }
    rewrite E. apply last_last. }
  unfold package_name. destruct (str_eqb (a ++ T "/" ++ w) (T "github.com/nats-io/nats.go")) eqn:E; [|exact L].
  apply str_eqb_eq in E. rewrite E in L. vm_compute in L. rewrite <- L in H2. discriminate.
Qed.

Section C85.
  Variable format_source : str -> option str.
  Variables (d : tdata) (ms : list message).
  Notation methods := (sv_methods (td_service d)).
  Notation service := (sv_name (td_service d)).
  Hypothesis made : new_helper ms methods = Ret (td_helper d).
  Hypothesis ok : file_ok ms d.
  Hypothesis imports_ok : GoLexProofs.safe (td_import d) /\ GoLexProofs.safe (td_pb_import d).
  (** go/format changes the layout of the code of parameters only (C84). *)
  Hypothesis lays_f : forall hm b f t, In hm (td_helper d) -> In b (hm_binds hm) -> In f (hb_fields b) -> field_text f = Some t -> lays_out format_source t.
  Hypothesis lays_o : forall hm b o t, In hm (td_helper d) -> In b (hm_binds hm) -> In o (hb_oneofs b) -> oneof_text o = Some t -> lays_out format_source t.
  (** The files of a new project *)
  Variables s_baron s_service s_wrapper s_server s_endpoints s_interrupt s_options s_main s_client : str.
  Hypothesis t_baron : render_asset format_source BaronPath d = Some s_baron.
  Hypothesis t_service : render_asset format_source ServicePath d = Some s_service.
  Hypothesis t_wrapper : render_asset format_source ServiceWrapperPath d = Some s_wrapper.
  Hypothesis t_server : render_asset format_source ServerPath d = Some s_server.
  Hypothesis t_endpoints : render_asset format_source ServerEndpointsPath d = Some s_endpoints.
  Hypothesis t_interrupt : render_asset format_source ServerInterruptPath d = Some s_interrupt.
  Hypothesis t_options : render_asset format_source ServerWrapperPath d = Some s_options.
  Hypothesis t_main : render_asset format_source CmdServerPath d = Some s_main.
  Hypothesis t_client : render_asset format_source CmdClientPath d = Some s_client.
  (** What the packages declare: the generated ones what their files declare, and what protoc adds *)
  Variable exports : str -> list str.
  Hypothesis exp_pb : incl (protoc_names d ++ declared [s_baron]) (exports (td_pb_import d)).
  Hypothesis exp_service : incl (declared [s_service; s_wrapper]) (exports (td_import d ++ T "/service")).
  Hypothesis exp_server : incl (declared [s_server; s_endpoints; s_interrupt; s_options]) (exports (td_import d ++ T "/server")).
  Hypothesis exp_outside : forall p l, In (p, l) outside -> incl l (exports p).

  Lemma handlers : PropService.handlers_ok service methods.
  Proof. split; [apply (ok_service ms d ok)|]. intros m Hm. destruct (ok_method ms d ok m Hm) as ([A _] & B & C). auto. Qed.
  Lemma svc_ident : Forall ident [service].
  Proof. apply Forall_cons; [apply WiringProofs.exported_is_ident, (ok_service ms d ok)|apply Forall_nil]. Qed.
  Lemma inner_data : Forall GoLexProofs.inner [td_version d; td_date d; td_pb_import d; td_import d].
  Proof. destruct (ok_stamp ms d ok), imports_ok. repeat (apply Forall_cons; [apply GoLexProofs.safe_inner; assumption|]). apply Forall_nil. Qed.
  Lemma inner_paths : Forall GoLexProofs.inner [td_pb_import d; td_import d].
  Proof. pose proof inner_data as H. inversion H as [|? ? _ H1]. inversion H1. assumption. Qed.
  (** What each file says *)
  Notation says := FileOthers.file_says.
  Lemma d_server : exists ds, declarations s_server = Some ds /\ (says (T "server")
    (map (fun p => (None, p)) ([T "log"; T "net"; T "net/http"; T "net/http/pprof"; T "runtime"] ++ FileOthers.when (TextFile.with_nats d) [T "github.com/nats-io/nats.go"] ++ FileOthers.when (TextFile.with_grpc d) [T "google.golang.org/grpc"]) ++
     [(Some (T "pb"), td_pb_import d); (None, td_import d ++ T "/service")])
    [T "Config"; T "Run"; T "NewEndpoints"] (FileOthers.server_uses d)
    ([T "Endpoints"; T "make"; T "Interrupt"] ++ FileOthers.when (nonempty (td_helper d)) [T "HTTPServerOptions"] ++ FileOthers.when (TextFile.with_grpc d) [T "GRPCServerOptions"] ++ FileOthers.when (TextFile.with_nats d) [T "NATSSubscriberOptions"]) ds /\
    flat_map (fields_of (T "Config")) ds = [T "HTTPAddr"; T "DebugAddr"; T "GRPCAddr"; T "NATSAddr"; T "Debug"] /\ nth 5 ds [] = plain (FileOthers.new_endpoints d) /\
    nth 4 ds [] = plain (ServerProg.run_fun (ServerProg.starts (nonempty (td_helper d)) (TextFile.with_grpc d) (TextFile.with_nats d) service))).
  Proof.
    pose proof t_server as R. rewrite TextOthersProofs.server_is in R. assert (E : concat (TextOthers.server_pieces d) = s_server) by congruence. rewrite <- E. apply FileService.filed_reads. apply FileOthers.server_reads.
    - intros m Hm. destruct (ok_method ms d ok m Hm) as ([A _] & _). apply Forall_cons; [apply WiringProofs.exported_is_ident; exact A|]. apply Forall_cons; [|apply Forall_nil].
      unfold FileOthers.endpoint_var. apply FileService.suffixed; [exact A|repeat constructor|]. apply Forall_forall. vm_compute. repeat constructor.
    - exact svc_ident.
    - exact inner_data.
  Qed.
  Lemma d_endpoints : exists ds, declarations s_endpoints = Some ds /\ says (T "server") [(Some (T "pb"), td_pb_import d); (None, td_import d ++ T "/service")] [T "Endpoints"]
    [(T "pb", [T "Endpoints"]); (T "service", [T "NewService"])] [T "NewEndpoints"] ds.
  Proof.
    pose proof t_endpoints as R. rewrite TextOthersProofs.server_endpoints_is in R. assert (E : concat (TextOthers.server_endpoints_pieces d) = s_endpoints) by congruence. rewrite <- E. apply FileService.filed_reads.
    apply FileOthers2.server_endpoints_reads; [exact svc_ident|exact inner_paths].
  Qed.
  Lemma d_interrupt : exists ds, declarations s_interrupt = Some ds /\ says (T "server") [(None, T "fmt"); (None, T "os"); (None, T "os/signal"); (None, T "syscall")] [T "Interrupt"]
    [(T "fmt", [T "Errorf"]); (T "os", [T "Signal"]); (T "signal", [T "Notify"]); (T "syscall", [T "SIGINT"; T "SIGTERM"])] [T "make"] ds.
  Proof.
    pose proof t_interrupt as R. rewrite TextOthersProofs.server_interrupt_is in R. assert (E : concat (TextOthers.server_interrupt_pieces d) = s_interrupt) by congruence. rewrite <- E. apply FileService.filed_reads.
    apply FileOthers2.server_interrupt_reads; [exact svc_ident|exact inner_paths].
  Qed.
  Lemma d_options : exists ds, declarations s_options = Some ds /\ says (T "server")
    [(Some (T "grpctransport"), T "github.com/go-kit/kit/transport/grpc"); (Some (T "httptransport"), T "github.com/go-kit/kit/transport/http"); (Some (T "natstransport"), T "github.com/go-kit/kit/transport/nats")]
    [T "GRPCServerOptions"; T "HTTPServerOptions"; T "NATSSubscriberOptions"]
    [(T "grpctransport", [T "Server"; T "ServerOption"]); (T "httptransport", [T "Server"; T "ServerOption"]); (T "natstransport", [T "Subscriber"; T "SubscriberOption"])] [] ds.
  Proof.
    pose proof t_options as R. rewrite TextOthersProofs.server_wrapper_is in R. assert (E : concat (TextOthers.server_wrapper_pieces d) = s_options) by congruence. rewrite <- E. apply FileService.filed_reads.
    apply FileOthers2.server_wrapper_reads; [exact svc_ident|exact inner_paths].
  Qed.
  Lemma d_wrapper : exists ds, declarations s_wrapper = Some ds /\ says (T "service") [(Some (T "pb"), td_pb_import d)] [T "WrapEndpoints"; T "WrapService"]
    [(T "pb", [T "Endpoints"; T "Endpoints"; service ++ T "Server"; service ++ T "Server"])] [] ds.
  Proof.
    pose proof t_wrapper as R. rewrite TextOthersProofs.service_wrapper_is in R. assert (E : concat (TextOthers.service_wrapper_pieces d) = s_wrapper) by congruence. rewrite <- E. apply FileService.filed_reads.
    apply FileOthers2.service_wrapper_reads; [exact svc_ident|exact inner_paths].
  Qed.
  Lemma d_main : exists ds, declarations s_main = Some ds /\ says (T "main") [(None, T "flag"); (None, T "fmt"); (None, T "os"); (None, T "strings"); (None, td_import d ++ T "/server")] [T "config"; T "init"; T "main"]
    [(T "server", [T "Config"; T "Run"]); (T "flag", [T "StringVar"; T "StringVar"; T "StringVar"; T "StringVar"; T "BoolVar"; T "Parse"]); (T "fmt", [T "Sprintf"; T "Println"]);
     (T "os", repeat (T "Getenv") 6); (T "strings", [T "ToLower"]);
     (T "config", [T "DebugAddr"; T "HTTPAddr"; T "GRPCAddr"; T "NATSAddr"; T "Debug"; T "Debug"; T "DebugAddr"; T "HTTPAddr"; T "HTTPAddr"; T "GRPCAddr"; T "NATSAddr"; T "HTTPAddr"; T "GRPCAddr"; T "NATSAddr"])] [] ds.
  Proof.
    pose proof t_main as R. rewrite TextOthersProofs.cmd_server_is in R. assert (E : concat (TextOthers.cmd_server_pieces d) = s_main) by congruence. rewrite <- E. apply FileService.filed_reads.
    apply FileOthers2.cmd_server_reads; [exact svc_ident|exact inner_paths].
  Qed.
  Lemma d_service : exists ds, declarations s_service = Some ds /\ says (T "service") [(None, T "context"); (Some (T "pb"), td_pb_import d)] [T "NewService"; FileService.service_type service]
    [(T "pb", (T "Unimplemented" ++ service ++ T "Server") :: flat_map (fun i => [go_camel_case (ft_name (sm_req i)); go_camel_case (ft_name (sm_resp i)); go_camel_case (ft_name (sm_resp i))]) methods);
     (T "context", flat_map (fun i => [T "Context"]) methods)] [] ds.
  Proof.
    pose proof t_service as R. rewrite TextOthersProofs.service_is in R. assert (E : concat (TextOthers.service_pieces d) = s_service) by congruence. rewrite <- E. apply FileOthers3.service_reads.
    - apply PropService.hnames_ok. exact handlers.
    - apply Forall_cons; [apply FileService.service_type_ident, handlers|exact svc_ident].
    - pose proof inner_paths as H. inversion H. apply Forall_cons; [assumption|apply Forall_nil].
  Qed.
  Lemma helper_from hm : In hm (td_helper d) -> exists m, In m methods /\ hm_name hm = sm_name m /\ hm_req hm = ft_name (sm_req m).
  Proof. intro H. destruct (made_in _ _ _ hm made H) as (m & I & E & _). destruct (method_made ms m hm E) as (A & B & _). exists m. auto. Qed.
  Lemma d_client : exists ds, declarations s_client = Some ds /\ says (T "main")
    (map (fun p => (None, p)) ([T "context"; T "flag"; T "log"] ++ FileOthers.when (TextFile.with_nats d) [T "github.com/nats-io/nats.go"]) ++ [(Some (T "pb"), td_pb_import d)] ++ map (fun p => (None, p)) (FileOthers.when (TextFile.with_grpc d) [T "google.golang.org/grpc"]))
    [T "grpcAddr"; T "httpAddr"; T "natsAddr"; T "init"; T "main"; T "pln"] (FileOthers4.client_uses d)
    (FileOthers.when (TextFile.with_grpc d) (T "pln" :: map (fun _ => T "pln") methods) ++ FileOthers.when (nonempty (td_helper d)) (T "pln" :: map (fun _ => T "pln") (td_helper d)) ++ FileOthers.when (TextFile.with_nats d) (T "pln" :: map (fun _ => T "pln") methods)) ds.
  Proof.
    pose proof t_client as R. rewrite TextOthersProofs.cmd_client_is in R. assert (E : concat (TextOthers.cmd_client_pieces d) = s_client) by congruence. rewrite <- E. apply FileService.filed_reads.
    assert (M : forall m, In m methods -> Forall ident [sm_name m; go_camel_case (sm_name m); go_camel_case (ft_name (sm_req m)); service]).
    { intros m Hm. destruct (ok_method ms d ok m Hm) as ([A C] & B & _). rewrite C. repeat (apply Forall_cons; [apply WiringProofs.exported_is_ident; try assumption; apply (ok_service ms d ok)|]). apply Forall_nil. }
    apply FileOthers4.client_reads.
    - exact M.
    - intros hm Hm. destruct (helper_from hm Hm) as (m & Im & -> & ->). exact (M m Im).
    - exact svc_ident.
    - pose proof inner_paths as H. inversion H. apply Forall_cons; [assumption|apply Forall_nil].
  Qed.
  (** What the package of the messages declares *)
  Lemma pb_has x : In x (protoc_names d) \/ In x (Wiring.package_names (names d)) -> In x (exports (td_pb_import d)).
  Proof.
    intro H. apply exp_pb. apply in_or_app. destruct H as [H|H]; [left; exact H|right]. destruct (c84_declarations format_source d s_baron ms t_baron made ok lays_f lays_o) as (ds & D & E & _).
    unfold declared. cbn [flat_map]. rewrite D, E, app_nil_r. exact H.
  Qed.
  Lemma pb_protoc x : In x (protoc_names d) -> capital x.
  Proof.
    unfold protoc_names. intro H. apply in_app_or in H. destruct H as [[<-|[<-|[<-|[]]]]|H].
    - apply capital_app, capital_exported, (ok_service ms d ok).
    - reflexivity.
    - reflexivity.
    - apply in_flat_map in H. destruct H as (m & Hm & [<-|[<-|[]]]); apply capital_exported, (ok_method ms d ok m Hm).
  Qed.
  Lemma pb_from_protoc x : In x (protoc_names d) -> In x (exports (td_pb_import d)) /\ capital x. Proof. intro H. split; [apply pb_has; left; exact H|apply pb_protoc; exact H]. Qed.
  Lemma pb_req m : In m methods -> In (go_camel_case (ft_name (sm_req m))) (exports (td_pb_import d)) /\ capital (go_camel_case (ft_name (sm_req m))).
  Proof. intro H. apply pb_from_protoc. unfold protoc_names. apply in_or_app. right. apply in_flat_map. exists m. split; [exact H|left; reflexivity]. Qed.
  Lemma pb_resp m : In m methods -> In (go_camel_case (ft_name (sm_resp m))) (exports (td_pb_import d)) /\ capital (go_camel_case (ft_name (sm_resp m))).
  Proof. intro H. apply pb_from_protoc. unfold protoc_names. apply in_or_app. right. apply in_flat_map. exists m. split; [exact H|right; left; reflexivity]. Qed.
  Lemma pb_server : In (service ++ T "Server") (exports (td_pb_import d)) /\ capital (service ++ T "Server"). Proof. apply pb_from_protoc. left. reflexivity. Qed.
  Lemma pb_fixed x : In x [T "Endpoints"; T "MakeHTTPHandler"; T "NewHTTPClient"] -> In x (exports (td_pb_import d)) /\ capital x.
  Proof.
    intro H. split.
    - apply pb_has. right. unfold Wiring.package_names. rewrite !in_app_iff. cbn [In] in *. intuition.
    - destruct H as [<-|[<-|[<-|[]]]]; reflexivity.
  Qed.
  Lemma pb_grpc x : TextFile.with_grpc d = true -> In x [T "MakeGRPCServer"; T "NewGRPCClient"] -> In x (exports (td_pb_import d)) /\ capital x.
  Proof.
    intros G H. split.
    - apply pb_has. right. unfold Wiring.package_names. change (Wiring.with_grpc (names d)) with (TextFile.with_grpc d). rewrite G. unfold Wiring.when. rewrite !in_app_iff. cbn [In] in *. intuition.
    - destruct H as [<-|[<-|[]]]; reflexivity.
  Qed.
  Lemma pb_nats x : TextFile.with_nats d = true -> In x [T "MakeNATSServer"; T "ServeNATS"; T "NewNATSClient"] -> In x (exports (td_pb_import d)) /\ capital x.
  Proof.
    intros G H. split.
    - apply pb_has. right. unfold Wiring.package_names. change (Wiring.with_nats (names d)) with (TextFile.with_nats d). rewrite G. unfold Wiring.when. rewrite !in_app_iff. cbn [In] in *. intuition.
    - destruct H as [<-|[<-|[<-|[]]]]; reflexivity.
  Qed.
  Lemma pb_make m : In m methods -> In (T "Make" ++ sm_name m ++ T "Endpoint") (exports (td_pb_import d)) /\ capital (T "Make" ++ sm_name m ++ T "Endpoint").
  Proof.
    intro H. split; [|reflexivity]. apply pb_has. right. unfold Wiring.package_names. rewrite !in_app_iff. right. left. unfold Wiring.each, names, rendered. cbn [Wiring.in_methods]. rewrite map_map.
    apply (in_map (fun m => T "Make" ++ sm_name m ++ T "Endpoint")). exact H.
  Qed.
  Lemma known_outside p l : match find (fun e => str_eqb (fst e) p) outside with Some e => forallb (fun x => existsb (str_eqb x) (snd e) && capitalb x) l | None => false end = true -> known (exports p) l.
  Proof.
    destruct (find _ outside) as [[q L]|] eqn:E; [|discriminate]. intro H. apply find_some in E. destruct E as [I E]. cbn [fst] in E. apply str_eqb_eq in E. subst q. exact (known_list _ _ L (exp_outside _ _ I) H).
  Qed.
  Lemma service_has x : In x [T "NewService"; T "WrapEndpoints"; T "WrapService"] -> In x (exports (td_import d ++ T "/service")) /\ capital x.
  Proof.
    intro H. split; [|destruct H as [<-|[<-|[<-|[]]]]; reflexivity]. apply exp_service. destruct d_service as (a & D1 & (_ & _ & N1 & _)). destruct d_wrapper as (b & D2 & (_ & _ & N2 & _)).
    unfold declared. cbn [flat_map]. rewrite D1, D2, N1, N2. cbn [app In] in *. intuition.
  Qed.
  Lemma server_has x : In x [T "Config"; T "Run"] -> In x (exports (td_import d ++ T "/server")) /\ capital x.
  Proof.
    intro H. split; [|destruct H as [<-|[<-|[]]]; reflexivity]. apply exp_server. destruct d_server as (a & D1 & ((_ & _ & N1 & _) & _)).
    unfold declared. cbn [flat_map]. rewrite D1, N1. cbn [app In] in *. intuition.
  Qed.
  Lemma local_service : package_name (td_import d ++ T "/service") = T "service". Proof. exact (package_under (td_import d) (T "service") eq_refl eq_refl). Qed.
  Lemma local_server : package_name (td_import d ++ T "/server") = T "server". Proof. exact (package_under (td_import d) (T "server") eq_refl eq_refl). Qed.
  Lemma fixed_scope l : nodupb l = true -> fixed_ok l = true -> scope_ok l. Proof. intros H1 H2. split; [apply nodup_dec; exact H1|apply fixed_idents; exact H2]. Qed.
  Definition server_names : list str := [T "Config"; T "Run"; T "NewEndpoints"; T "Endpoints"; T "Interrupt"; T "GRPCServerOptions"; T "HTTPServerOptions"; T "NATSSubscriberOptions"].
  Ltac leaf := first [exact pb_server | match goal with H : forall hm, In hm _ -> _ |- _ => apply H; assumption end | apply pb_req; assumption | apply pb_resp; assumption | apply pb_make; assumption
    | apply pb_fixed; cbn [In]; auto; fail | apply pb_grpc; [assumption|cbn [In]; auto; fail] | apply pb_nats; [assumption|cbn [In]; auto; fail]
    | apply service_has; cbn [In]; auto; fail | apply server_has; cbn [In]; auto; fail | apply pb_from_protoc; unfold protoc_names; cbn [app In]; auto; fail].
  Ltac all_known := repeat first [apply known_nil | apply known_app | apply known_cons; [leaf|] | apply known_flat; intros; cbv beta | apply known_map; intros; cbv beta; leaf].
  Ltac outs := lazymatch goal with
    | |- known _ (_ ++ _) => apply known_app; outs
    | |- known _ (flat_map _ _) => apply known_flat; intros; cbv beta; outs
    | |- known _ (map _ _) => apply known_one; intros; cbv beta; outs
    | |- known _ (?x :: ?l) => first [apply known_outside; vm_compute; reflexivity | apply (known_app _ [x] l); [outs|outs]]
    | |- _ => apply known_outside; vm_compute; reflexivity
    end.
  (** The import has an entry in the table, which is not empty; its names are known. *)
  Ltac entry := match goal with |- exists l, In (?n, l) ?t /\ _ => eexists; split; [repeat first [left; reflexivity | right]|]; split; [|lazymatch goal with |- known (exports (td_pb_import _)) _ => all_known | |- known (exports (_ ++ _)) _ => all_known | _ => outs end] end.
  Ltac entries := cbn [app map]; repeat (apply Forall_cons; [unfold local_name; cbn [fst snd]; rewrite ?local_service, ?local_server; entry|]); try apply Forall_nil; try (let H := fresh in intro H; discriminate H).
  Ltac among := let x := fresh in let H := fresh in intros x H; cbn [app In] in *; intuition.
  Ltac scope := rewrite ?map_app; cbn [map app]; unfold local_name; cbn [fst snd]; rewrite ?local_service, ?local_server; apply fixed_scope; vm_compute; reflexivity.

  (** Package server: the four files fit together, and into the others. *)
  Theorem c85_server : package_fits package_name exports (T "server") [s_server; s_endpoints; s_interrupt; s_options].
  Proof.
    destruct d_server as (a & D1 & S1 & _). destruct d_endpoints as (b & D2 & S2). destruct d_interrupt as (c & D3 & S3). destruct d_options as (e & D4 & S4).
    exists [a; b; c; e]. split; [cbn [map]; rewrite D1, D2, D3, D4; reflexivity|].
    assert (N : flat_map declares (concat [a; b; c; e]) = server_names).
    { cbn [concat]. rewrite !flat_map_app. destruct S1 as (_ & _ & -> & _), S2 as (_ & _ & -> & _), S3 as (_ & _ & -> & _), S4 as (_ & _ & -> & _). reflexivity. }
    rewrite N. unfold server_names. clear N D1 D2 D3 D4. apply Forall_cons; [|apply Forall_cons; [|apply Forall_cons; [|apply Forall_cons; [|apply Forall_nil]]]].
    - unfold FileOthers.server_uses, FileOthers.when in S1. destruct (TextFile.with_nats d) eqn:Nt, (TextFile.with_grpc d) eqn:Gt, (nonempty (td_helper d)) eqn:Ht; (refine (fits_of _ _ _ _ _ _ _ _ S1 _ _ _); [scope|entries|among]).
    - refine (fits_of _ _ _ _ _ _ _ _ S2 _ _ _); [scope|entries|among].
    - refine (fits_of _ _ _ _ _ _ _ _ S3 _ _ _); [scope|entries|among].
    - refine (fits_of _ _ _ _ _ _ _ _ S4 _ _ _); [scope|entries|among].
  Qed.
  (** Package service, first version: it fits exactly when the service has a method (otherwise service.go imports context and does not use it). *)
  Theorem c85_service : package_fits package_name exports (T "service") [s_service; s_wrapper] <-> methods <> [].
  Proof.
    destruct d_service as (a & D1 & S1). destruct d_wrapper as (b & D2 & S2). split.
    - intros (dss & M & F) E. cbn [map] in M. rewrite D1, D2 in M. destruct dss as [|x [|y [|z dss]]]; try discriminate M. injection M as <- <-. inversion F as [|? ? H1 _]; subst.
      apply (fits_used _ _ _ _ _ H1 (None, T "context")); [destruct S1 as (_ & -> & _); left; reflexivity|]. destruct S1 as (_ & _ & _ & U & _). rewrite Forall_forall in U.
      specialize (U (T "context", flat_map (fun _ => [T "Context"]) methods) (or_intror (or_introl eq_refl))). cbn [fst snd] in U. rewrite E in U. exact U.
    - intro NE. exists [a; b]. split; [cbn [map]; rewrite D1, D2; reflexivity|].
      assert (N : flat_map declares (concat [a; b]) = [T "NewService"; FileService.service_type service; T "WrapEndpoints"; T "WrapService"]).
      { cbn [concat]. rewrite !flat_map_app. destruct S1 as (_ & _ & -> & _), S2 as (_ & _ & -> & _). reflexivity. }
      rewrite N. clear N D1 D2.
      assert (I : ident (FileService.service_type service)) by apply FileService.service_type_ident, handlers.
      assert (L : forall w, match rev w with c1 :: c2 :: _ => negb (N.eqb c1 101) || negb (N.eqb c2 99) | _ => true end = true -> FileService.service_type service <> w).
      { intros w Hw E. subst w. unfold FileService.service_type in Hw. rewrite rev_app_distr in Hw. cbn in Hw. discriminate. }
      assert (U : FileService.service_type service <> T "NewService" /\ FileService.service_type service <> T "WrapService").
      { assert (C : forall c s, c :: s = FileService.service_type service -> is_upper c = false).
        { destruct handlers as [Hx _]. pose proof (FileService.lower_runes service Hx) as R. unfold FileService.service_type. destruct service as [|c0 s0]; [destruct Hx|]. intros c s E. cbn [to_lower map app] in E. injection E as -> _.
          unfold lower1. destruct (is_upper c0) eqn:Eu; [|exact Eu]. unfold is_upper, in_range in *. apply andb_prop in Eu. rewrite !N.leb_le in Eu. apply Bool.andb_false_iff. right. apply N.leb_gt. lia. }
        split; intro E; symmetry in E; pose proof (C _ _ E) as K; discriminate K. }
      assert (SC : forall i, nodupb (i ++ [T "NewService"; T "WrapEndpoints"; T "WrapService"]) = true -> fixed_ok (i ++ [T "NewService"; T "WrapEndpoints"; T "WrapService"]) = true ->
        Forall (fun w => FileService.service_type service <> w) i -> scope_ok (i ++ [T "NewService"; FileService.service_type service; T "WrapEndpoints"; T "WrapService"])).
      { intros i H1 H2 H3. destruct (fixed_scope _ H1 H2) as [A B]. rewrite Forall_app in B. destruct B as [B1 B2]. split.
        - change [T "NewService"; FileService.service_type service; T "WrapEndpoints"; T "WrapService"] with ([T "NewService"] ++ FileService.service_type service :: [T "WrapEndpoints"; T "WrapService"]).
          rewrite app_assoc. apply (proj2 (NoDup_Add (Add_app (FileService.service_type service) (i ++ [T "NewService"]) [T "WrapEndpoints"; T "WrapService"]))). rewrite <- app_assoc. cbn [app].
          split; [exact A|]. intro K. apply in_app_or in K. destruct K as [K|K]; [rewrite Forall_forall in H3; exact (H3 _ K eq_refl)|].
            destruct K as [K|[K|[K|[]]]]; [exact (proj1 U (eq_sym K))|exact (L (T "WrapEndpoints") eq_refl (eq_sym K))|exact (proj2 U (eq_sym K))].
        - apply Forall_app. split; [exact B1|]. inversion B2 as [|? ? B3 B4]; subst. constructor; [exact B3|]. constructor; [exact I|exact B4]. }
      apply Forall_cons; [|apply Forall_cons; [|apply Forall_nil]].
      + refine (fits_of _ _ _ _ _ _ _ _ S1 _ _ _); [|entries|among].
        * apply SC; [reflexivity|reflexivity|]. repeat (apply Forall_cons; [apply L; reflexivity|]). apply Forall_nil.
        * apply flat_map_ne; [exact NE|intros ? K; discriminate K].
      + refine (fits_of _ _ _ _ _ _ _ _ S2 _ _ _); [|entries|among].
        apply SC; [reflexivity|reflexivity|]. repeat (apply Forall_cons; [apply L; reflexivity|]). apply Forall_nil.
  Qed.
  (** The server's main package *)
  Theorem c85_main : package_fits package_name exports (T "main") [s_main] /\ In (T "main") (declared [s_main]).
  Proof.
    destruct d_main as (a & D1 & S1). split.
    - exists [a]. split; [cbn [map]; rewrite D1; reflexivity|].
      assert (N : flat_map declares (concat [a]) = [T "config"; T "init"; T "main"]) by (cbn [concat]; rewrite app_nil_r; apply S1).
      rewrite N. apply Forall_cons; [|apply Forall_nil]. refine (fits_of _ _ _ _ _ _ _ _ S1 _ _ _); [scope|entries|among].
    - unfold declared. cbn [flat_map]. rewrite D1. destruct S1 as (_ & _ & -> & _). cbn [app In]. auto.
  Qed.
  Ltac nonvoid := cbn [app]; solve [let H := fresh in intro H; discriminate H | apply ne_map; assumption | apply flat_map_ne; [assumption|let H := fresh in intros ? H; discriminate H] | apply ne_left; nonvoid | apply ne_right; nonvoid].
  Ltac calls := repeat first [apply incl_nil_l | apply incl_cons; [cbn [In]; auto 8|] | apply incl_app | apply only_pln; cbn [In]; auto 8].
  (** The client's main package: it fits exactly when there is something to call (otherwise it imports context and does not use it). *)
  Theorem c85_client : (package_fits package_name exports (T "main") [s_client] <-> serves d) /\ In (T "main") (declared [s_client]).
  Proof.
    destruct d_client as (a & D1 & S1). split; [split|].
    - intros (dss & M & F). cbn [map] in M. rewrite D1 in M. destruct dss as [|x [|y dss]]; try discriminate M. injection M as <-. inversion F as [|? ? H1 _]; subst.
      pose proof (fits_used _ _ _ _ _ H1 (None, T "context")) as K. destruct S1 as (_ & E & _ & U & _). rewrite E in K. specialize (K (or_introl eq_refl)).
      rewrite Forall_forall in U. specialize (U _ (or_intror (or_introl eq_refl))). cbn [fst snd] in U.
      change (local_name package_name (None, T "context")) with (T "context") in K. rewrite U in K. clear U E. unfold serves.
      assert (HM : methods = [] -> td_helper d = []) by (intro Em; pose proof made as Md; rewrite Em in Md; cbn in Md; congruence).
      destruct methods as [|m l]; [rewrite HM in K by reflexivity; cbn in K; unfold FileOthers.when in K; destruct (TextFile.with_grpc d), (TextFile.with_nats d); elim K; reflexivity|]. split; [discriminate|].
      destruct (TextFile.with_grpc d); [auto|]. destruct (TextFile.with_nats d); [auto|]. left. intro Eh. rewrite Eh in K. apply K. reflexivity.
    - intros [NE T']. exists [a]. split; [cbn [map]; rewrite D1; reflexivity|].
      assert (N : flat_map declares (concat [a]) = [T "grpcAddr"; T "httpAddr"; T "natsAddr"; T "init"; T "main"; T "pln"]) by (cbn [concat]; rewrite app_nil_r; apply S1).
      rewrite N. clear N D1. apply Forall_cons; [|apply Forall_nil].
      assert (HR : forall hm, In hm (td_helper d) -> In (go_camel_case (hm_req hm)) (exports (td_pb_import d)) /\ capital (go_camel_case (hm_req hm))).
      { intros hm Hm. destruct (helper_from hm Hm) as (m & Im & _ & ->). apply pb_req. exact Im. }
      unfold FileOthers4.client_uses, FileOthers.when in S1.
      assert (NH : nonempty (td_helper d) = true -> td_helper d <> []) by (intros Hx Ex; rewrite Ex in Hx; discriminate Hx).
      assert (HE : nonempty (td_helper d) = false -> td_helper d = []) by (destruct (td_helper d); [reflexivity|intro Hx; discriminate Hx]).
      destruct (TextFile.with_nats d) eqn:Nt, (TextFile.with_grpc d) eqn:Gt, (nonempty (td_helper d)) eqn:Ht; try (specialize (NH eq_refl)); try (exfalso; destruct T' as [T'|[T'|T']]; [exact (T' (HE eq_refl))|discriminate T'|discriminate T']);
        (refine (fits_of _ _ _ _ _ _ _ _ S1 _ _ _); [scope|entries; nonvoid|]); calls.
    - unfold declared. cbn [flat_map]. rewrite D1. destruct S1 as (_ & _ & -> & _). cbn [app In]. auto 8.
  Qed.
  (** server.Config: the fields that the server's main package sets, and Run reads, are fields of it, and main sets all of them. *)
  Theorem c85_config : forall dm dv, declarations s_main = Some dm -> declarations s_server = Some dv ->
    incl (flat_map (uses_of (T "config")) dm) (flat_map (fields_of (T "Config")) dv) /\ incl (flat_map (uses_of (T "cfg")) dv) (flat_map (fields_of (T "Config")) dv) /\
    incl (flat_map (fields_of (T "Config")) dv) (flat_map (uses_of (T "config")) dm).
  Proof.
    intros dm dv D1 D2. destruct d_main as (a & D1' & (_ & _ & _ & U1 & _)). destruct d_server as (b & D2' & ((_ & _ & _ & U2 & _) & F & _)). rewrite D1 in D1'. rewrite D2 in D2'. injection D1' as <-. injection D2' as <-.
    rewrite F. rewrite Forall_forall in U1, U2. assert (E1 := U1 _ (or_intror (or_intror (or_intror (or_intror (or_intror (or_introl eq_refl))))))). cbn [fst snd] in E1. rewrite E1.
    assert (E2 : exists l, flat_map (uses_of (T "cfg")) dv = l /\ incl l [T "HTTPAddr"; T "DebugAddr"; T "GRPCAddr"; T "NATSAddr"; T "Debug"]).
    { unfold FileOthers.server_uses in U2. eexists. split; [refine (U2 (T "cfg", _) _); cbn [In]; do 9 right; left; reflexivity|]. cbn [snd]. unfold FileOthers.when.
      destruct (nonempty (td_helper d)), (TextFile.with_grpc d), (TextFile.with_nats d); cbn [app]; intros x Hx; cbn [In] in *; intuition. }
    destruct E2 as (l & -> & I). split; [|split; [exact I|]]; intros x Hx; cbn [In] in *; intuition.
  Qed.
  (** NewEndpoints of server.go: one variable and one field for each method, made with the constructor of the method; between WrapService and WrapEndpoints. *)
  Definition endpoints_fun : list token :=
    [Word (T "func"); Word (T "NewEndpoints"); Op (T "("); Word (T "svc"); Word (T "pb"); Op (T "."); Word (service ++ T "Server"); Op (T ")"); Word (T "pb"); Op (T "."); Word (T "Endpoints"); Op (T "{");
     Word (T "svc"); Op (T "="); Word (T "service"); Op (T "."); Word (T "WrapService"); Op (T "("); Word (T "svc"); Op (T ")"); Semi; Word (T "var"); Op (T "(")]
    ++ concat (map (fun m => [Word (to_lower (sm_name m) ++ T "Endpoint"); Op (T "="); Word (T "pb"); Op (T "."); Word (T "Make" ++ sm_name m ++ T "Endpoint"); Op (T "("); Word (T "svc"); Op (T ")"); Semi]) methods)
    ++ [Op (T ")"); Semi; Word (T "endpoints"); Op (T ":="); Word (T "pb"); Op (T "."); Word (T "Endpoints"); Op (T "{")]
    ++ concat (map (fun m => [Word (sm_name m ++ T "Endpoint"); Op (T ":"); Word (to_lower (sm_name m) ++ T "Endpoint"); Op (T ",")]) methods)
    ++ [Op (T "}"); Semi; Word (T "endpoints"); Op (T "="); Word (T "service"); Op (T "."); Word (T "WrapEndpoints"); Op (T "("); Word (T "endpoints"); Op (T ")"); Semi; Word (T "return"); Word (T "endpoints"); Semi; Op (T "}")].
  Definition endpoints_locals : list str := [T "svc"; T "endpoints"] ++ map (fun m => to_lower (sm_name m) ++ T "Endpoint") methods.
  Theorem c85_endpoints : forall dv db, declarations s_server = Some dv -> declarations s_baron = Some db ->
    In (plain endpoints_fun) dv /\
    (forall m, In m methods -> In (sm_name m ++ T "Endpoint") (flat_map (fields_of (T "Endpoints")) db) /\ In (T "Make" ++ sm_name m ++ T "Endpoint") (flat_map declares db)) /\
    (scope_ok endpoints_locals <-> NoDup (map to_lower (map sm_name methods))).
  Proof.
    intros dv db D1 D2. destruct d_server as (a & D1' & (_ & _ & E & _)). rewrite D1 in D1'. injection D1' as <-. split; [|split].
    - change endpoints_fun with (FileOthers.new_endpoints d). rewrite <- E. apply nth_In. destruct (Nat.lt_ge_cases 5 (length dv)) as [L|L]; [exact L|]. exfalso. rewrite (nth_overflow _ _ L) in E.
      assert (B : exists r, FileOthers.new_endpoints d = Word (T "func") :: r) by (eexists; unfold FileOthers.new_endpoints; cbn [app]; reflexivity). destruct B as (r & B). rewrite B in E. cbn [plain] in E. discriminate E.
    - intros m Hm. destruct (c84_declarations format_source d s_baron ms t_baron made ok lays_f lays_o) as (ds & D & En & _ & Ef & _). rewrite D2 in D. injection D as <-. split.
      + destruct (file_is format_source d s_baron ms t_baron made ok lays_f lays_o) as (ds' & D' & V & _). rewrite D2 in D'. injection D' as <-. pose proof (V FileText.EField) as K. cbn [FileText.ask] in K. rewrite K.
        unfold FileAll.view, FileHead.v17. right. unfold Wiring.each. rewrite map_map. apply (in_map (fun m => [] ++ sm_name m ++ T "Endpoint")). exact Hm.
      + rewrite En. unfold Wiring.package_names. apply in_or_app. right. apply in_or_app. left. unfold Wiring.each, names, rendered. cbn [Wiring.in_methods]. rewrite map_map.
        apply (in_map (fun m => T "Make" ++ sm_name m ++ T "Endpoint")). exact Hm.
    - unfold scope_ok, endpoints_locals. assert (X : map (fun m => to_lower (sm_name m) ++ T "Endpoint") methods = Wiring.each [] (map to_lower (map sm_name methods)) (T "Endpoint")) by (unfold Wiring.each; rewrite !map_map; reflexivity).
      rewrite X. rewrite with_family; [|apply nodup_dec; reflexivity|reflexivity]. split; [tauto|]. intro H. split; [exact H|]. apply Forall_app. split; [apply fixed_idents; reflexivity|]. rewrite <- X.
      apply Forall_map. apply Forall_forall. intros m Hm. apply FileService.suffixed; [apply (ok_method ms d ok m Hm)|repeat constructor|]. apply Forall_forall. vm_compute. repeat constructor.
  Qed.
End C85.
Definition c85_all := (@c85_server, @c85_service, @c85_main, @c85_client, @c85_config, @c85_endpoints).
Print Assumptions c85_all.

(** ** A case: the service Shop of PropGoFile.v *)
Example c85_case : exists s_baron s_service s_wrapper s_server s_endpoints s_interrupt s_options s_main s_client exports,
  (render_asset (fun _ => None) BaronPath shop = Some s_baron /\ render_asset (fun _ => None) ServicePath shop = Some s_service /\ render_asset (fun _ => None) ServiceWrapperPath shop = Some s_wrapper /\
   render_asset (fun _ => None) ServerPath shop = Some s_server /\ render_asset (fun _ => None) ServerEndpointsPath shop = Some s_endpoints /\ render_asset (fun _ => None) ServerInterruptPath shop = Some s_interrupt /\
   render_asset (fun _ => None) ServerWrapperPath shop = Some s_options /\ render_asset (fun _ => None) CmdServerPath shop = Some s_main /\ render_asset (fun _ => None) CmdClientPath shop = Some s_client) /\
  (exports (T "x/y/service") = [T "NewService"; T "shopService"; T "WrapEndpoints"; T "WrapService"] /\ In (T "RegisterShopServer") (exports (T "x/pb")) /\ In (T "MakeWatchEndpoint") (exports (T "x/pb"))) /\
  package_fits package_name exports (T "server") [s_server; s_endpoints; s_interrupt; s_options] /\ package_fits package_name exports (T "service") [s_service; s_wrapper] /\
  package_fits package_name exports (T "main") [s_main] /\ package_fits package_name exports (T "main") [s_client].
Proof.
  assert (Hm : new_helper [] (sv_methods (td_service shop)) = Ret (td_helper shop)) by reflexivity.
  assert (Sf : GoLexProofs.safe (td_import shop) /\ GoLexProofs.safe (td_pb_import shop)) by (split; intros c Hc; cbn in Hc; repeat destruct Hc as [<-|Hc]; try (repeat split; discriminate); destruct Hc).
  assert (F1 : forall hm b f t, In hm (td_helper shop) -> In b (hm_binds hm) -> In f (hb_fields b) -> field_text f = Some t -> lays_out (fun _ : str => None) t) by (intros; intros x Hx; discriminate Hx).
  assert (F2 : forall hm b o t, In hm (td_helper shop) -> In b (hm_binds hm) -> In o (hb_oneofs b) -> oneof_text o = Some t -> lays_out (fun _ : str => None) t) by (intros; intros x Hx; discriminate Hx).
  assert (Ok : file_ok [] shop) by exact shop_ok.
  pose proof (TextProofs.baron_is (fun _ => None) shop) as T0. pose proof (TextOthersProofs.service_is (fun _ => None) shop) as T1. pose proof (TextOthersProofs.service_wrapper_is (fun _ => None) shop) as T2.
  pose proof (TextOthersProofs.server_is (fun _ => None) shop) as T3. pose proof (TextOthersProofs.server_endpoints_is (fun _ => None) shop) as T4. pose proof (TextOthersProofs.server_interrupt_is (fun _ => None) shop) as T5.
  pose proof (TextOthersProofs.server_wrapper_is (fun _ => None) shop) as T6. pose proof (TextOthersProofs.cmd_server_is (fun _ => None) shop) as T7. pose proof (TextOthersProofs.cmd_client_is (fun _ => None) shop) as T8.
  match type of T0 with _ = Some ?x => remember x as s0 eqn:X; clear X end. match type of T1 with _ = Some ?x => remember x as s1 eqn:X; clear X end. match type of T2 with _ = Some ?x => remember x as s2 eqn:X; clear X end.
  match type of T3 with _ = Some ?x => remember x as s3 eqn:X; clear X end. match type of T4 with _ = Some ?x => remember x as s4 eqn:X; clear X end. match type of T5 with _ = Some ?x => remember x as s5 eqn:X; clear X end.
  match type of T6 with _ = Some ?x => remember x as s6 eqn:X; clear X end. match type of T7 with _ = Some ?x => remember x as s7 eqn:X; clear X end. match type of T8 with _ = Some ?x => remember x as s8 eqn:X; clear X end.
  pose (exports := fun p => if str_eqb p (T "x/pb") then protoc_names shop ++ declared [s0] else if str_eqb p (T "x/y/service") then declared [s1; s2] else if str_eqb p (T "x/y/server") then declared [s3; s4; s5; s6]
    else match find (fun e => str_eqb (fst e) p) outside with Some e => snd e | None => [] end).
  assert (X1 : incl (protoc_names shop ++ declared [s0]) (exports (td_pb_import shop))) by (intros x Hx; exact Hx).
  assert (X2 : incl (declared [s1; s2]) (exports (td_import shop ++ T "/service"))) by (intros x Hx; exact Hx).
  assert (X3 : incl (declared [s3; s4; s5; s6]) (exports (td_import shop ++ T "/server"))) by (intros x Hx; exact Hx).
  assert (X4 : forall p l, In (p, l) outside -> incl l (exports p)).
  { intros p l Hp. assert (E : exports p = l) by (unfold outside in Hp; repeat (destruct Hp as [Hp|Hp]; [inversion Hp; subst; reflexivity|]); destruct Hp). rewrite E. apply incl_refl. }
  exists s0, s1, s2, s3, s4, s5, s6, s7, s8, exports. split; [repeat (split; [assumption|]); assumption|].
  assert (NE : sv_methods (td_service shop) <> []) by discriminate. assert (SV : serves shop) by (split; [exact NE|left; discriminate]).
  split; [|split; [|split; [|split]]].
  - split; [|split].
    + change (exports (T "x/y/service")) with (declared [s1; s2]). destruct (d_service (fun _ => None) shop [] Ok Sf s1 T1) as (a & D1 & (_ & _ & N1 & _)). destruct (d_wrapper (fun _ => None) shop [] Ok Sf s2 T2) as (b & D2 & (_ & _ & N2 & _)).
      unfold declared. cbn [flat_map]. rewrite D1, D2, N1, N2. reflexivity.
    + change (exports (T "x/pb")) with (protoc_names shop ++ declared [s0]). right. left. reflexivity.
    + change (T "x/pb") with (td_pb_import shop). refine (pb_has (fun _ => None) shop [] Hm Ok F1 F2 s0 T0 exports X1 _ _). right. unfold Wiring.package_names. right. right. left. reflexivity.
  - exact (c85_server _ shop [] Hm Ok Sf F1 F2 s0 s1 s2 s3 s4 s5 s6 T0 T1 T2 T3 T4 T5 T6 exports X1 X2 X4).
  - exact (proj2 (c85_service _ shop [] Hm Ok Sf F1 F2 s0 s1 s2 T0 T1 T2 exports X1 X4) NE).
  - exact (proj1 (c85_main _ shop [] Ok Sf s3 s4 s5 s6 s7 T3 T7 exports X3 X4)).
  - exact (proj2 (proj1 (c85_client _ shop [] Hm Ok Sf F1 F2 s0 s8 T0 T8 exports X1 X4)) SV).
Qed.
