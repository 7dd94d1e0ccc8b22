(** C70, C71: calls over gRPC and NATS. *)
From Verif Require Import GoStr GoStrProofs SplitJoin GoMap Strs StrsSpec StrsProofs GenHttp Json JsonProofs JsonSpec JsonProofs2 Rpc RpcSpec RpcProofs.

(** ** Names *)
Lemma name_free : forall c s, is_alnum c = false -> c <> c_underscore -> name s -> ~ In c s.
Proof. intros c [|x s] Ha Hu H K; [destruct H|]. destruct H as [_ H]. rewrite Forall_forall in H. destruct (H c K); congruence. Qed.
Lemma name_dot : forall s, name s -> ~ In c_dot s.
Proof. intro s. apply name_free; [reflexivity|discriminate]. Qed.
Lemma name_slash : forall s, name s -> ~ In c_slash s.
Proof. intro s. apply name_free; [reflexivity|discriminate]. Qed.
Lemma name_camel : forall s, name s -> name (go_camel_case s).
Proof.
  intros s H. assert (E : exported_ident (go_camel_case s)).
  { apply camel_exported. destruct s as [|c s]; [destruct H|]. destruct H as [H1 H2]. split; [|exact H1]. eapply Forall_impl; [|exact H2]. intros a [K|K]; [left; exact K|right; left; exact K]. }
  destruct (go_camel_case s) as [|c t]; [destruct E|]. destruct E as [E1 E2]. assert (L : is_letter c = true) by (unfold is_letter; rewrite E1; apply orb_true_r || reflexivity).
  split; [left; exact L|]. constructor; [left; unfold is_alnum; rewrite L; reflexivity|exact E2].
Qed.

(** ** C70: a call reaches its method *)
(** The services of a gRPC server, one of them that of the .proto file with this package, service and methods. *)
Definition serves (reg : list registered) (pkg svc : str) (methods : list str) : Prop :=
  NoDup (map rg_service reg) /\ In (mkReg (full_name pkg svc) methods) reg /\ name svc /\ Forall name methods.
(** Over gRPC: exactly if the package of the .proto file is named like the Go package and the service and the method have
    names in CamelCase. *)
Theorem c70_grpc : forall reg pkg go_pkg svc methods m, serves reg pkg svc methods -> name go_pkg -> In m methods ->
  (grpc_dispatch reg (grpc_call_path go_pkg svc m) = Some (full_name pkg svc, m) <-> pkg = go_pkg /\ go_camel_case svc = svc /\ go_camel_case m = m).
Proof.
  intros reg pkg go_pkg svc methods m (Hn & Hr & Hs & Hms) Hg Hm. assert (Nm : name m) by (rewrite Forall_forall in Hms; exact (Hms m Hm)).
  unfold grpc_call_path. rewrite dispatch_path by (apply name_slash, name_camel; exact Nm). split.
  - intro H. destruct (find _ reg) as [r|]; [|discriminate]. destruct (existsb _ (rg_methods r)); [|discriminate]. injection H as E1 E2.
    unfold full_name in E1. destruct pkg as [|c0 pkg].
    + exfalso. apply (name_dot svc Hs). rewrite <- E1. apply in_or_app. right. left. reflexivity.
    + change (T "." ++ go_camel_case svc) with (c_dot :: go_camel_case svc) in E1. change (T "." ++ svc) with (c_dot :: svc) in E1.
      apply last_unique in E1; [|apply name_dot, name_camel; exact Hs|apply name_dot; exact Hs]. destruct E1 as [-> ->]. auto.
  - intros (-> & -> & ->). assert (Ef : full_name go_pkg svc = go_pkg ++ T "." ++ svc) by (destruct go_pkg; [destruct Hg|reflexivity]). rewrite Ef in *.
    pose proof (find_reg reg _ Hn Hr) as F. cbn [rg_service] in F. rewrite F. cbn [rg_methods].
    assert (E : existsb (str_eqb m) methods = true) by (apply existsb_exists; exists m; split; [exact Hm|apply str_eqb_refl]). rewrite E. reflexivity.
Qed.
Print Assumptions c70_grpc.
(** A call never reaches another method of the service, as long as the Go names of the methods differ. *)
Theorem c70_grpc_no_other : forall reg pkg go_pkg svc methods m m', serves reg pkg svc methods -> name go_pkg -> In m methods -> NoDup (map go_camel_case methods) ->
  grpc_dispatch reg (grpc_call_path go_pkg svc m) = Some (full_name pkg svc, m') -> m' = m.
Proof.
  intros reg pkg go_pkg svc methods m m' (Hn & Hr & Hs & Hms) Hg Hm Hd. assert (Nm : name m) by (rewrite Forall_forall in Hms; exact (Hms m Hm)).
  unfold grpc_call_path. rewrite dispatch_path by (apply name_slash, name_camel; exact Nm). intro H.
  destruct (find _ reg) as [r|] eqn:F; [|discriminate]. destruct (existsb _ (rg_methods r)) eqn:X; [|discriminate]. injection H as E1 E2.
  assert (E1' : go_pkg ++ T "." ++ go_camel_case svc = full_name pkg svc) by exact E1. rewrite E1' in F. pose proof (find_reg reg _ Hn Hr) as F2. cbn [rg_service] in F2. rewrite F2 in F. injection F as <-. cbn [rg_methods] in X.
  apply existsb_exists in X. destruct X as (x & Hx & Ex). apply str_eqb_eq in Ex. subst x. rewrite E2 in Hx.
  assert (Ec : go_camel_case m' = go_camel_case m) by (rewrite <- E2; apply camel_stable; apply name_dot; exact Nm).
  clear - Hd Hx Hm Ec. induction methods as [|y l IH]; [destruct Hm|]. inversion Hd; subst. destruct Hx as [->|Hx]; destruct Hm as [->|Hm]; auto.
  - exfalso. apply H1. rewrite Ec. apply in_map. exact Hm.
  - exfalso. apply H1. rewrite <- Ec. apply in_map. exact Hx.
Qed.
Print Assumptions c70_grpc_no_other.
(** So with a dotted package, without a package, or with any package not named like the Go package, no method can be
    called: a server of this service alone answers Unimplemented to every call. *)
Theorem c70_grpc_dotted_refuted : forall pkg go_pkg svc methods m, name svc -> Forall name methods -> name go_pkg -> In m methods -> In c_dot pkg \/ pkg = [] ->
  grpc_dispatch [mkReg (full_name pkg svc) methods] (grpc_call_path go_pkg svc m) = None.
Proof.
  intros pkg go_pkg svc methods m Hs Hms Hg Hm Hp. assert (Nm : name m) by (rewrite Forall_forall in Hms; exact (Hms m Hm)).
  unfold grpc_call_path. rewrite dispatch_path by (apply name_slash, name_camel; exact Nm). cbn [find rg_service].
  destruct (str_eqb_spec (full_name pkg svc) (go_pkg ++ T "." ++ go_camel_case svc)) as [E|_]; [|reflexivity]. exfalso.
  unfold full_name in E. destruct pkg as [|c0 pkg].
  - apply (name_dot svc Hs). rewrite E. apply in_or_app. right. left. reflexivity.
  - change (T "." ++ go_camel_case svc) with (c_dot :: go_camel_case svc) in E. change (T "." ++ svc) with (c_dot :: svc) in E.
    apply last_unique in E; [|apply name_dot; exact Hs|apply name_dot, name_camel; exact Hs]. destruct E as [E _].
    destruct Hp as [Hp|Hp]; [|discriminate]. rewrite E in Hp. exact (name_dot go_pkg Hg Hp).
Qed.
Print Assumptions c70_grpc_dotted_refuted.
(** Next to another service it may even be called instead: a.b.Users with the Go package b next to b.Users. *)
Theorem c70_grpc_stray_refuted : exists reg, serves reg (T "a.b") (T "Users") [T "Get"] /\ serves reg (T "b") (T "Users") [T "Get"] /\
  grpc_dispatch reg (grpc_call_path (T "b") (T "Users") (T "Get")) = Some (T "b.Users", T "Get").
Proof.
  exists [mkReg (T "a.b.Users") [T "Get"]; mkReg (T "b.Users") [T "Get"]]. assert (N1 : name (T "Users")) by (split; [left; reflexivity|repeat constructor]).
  assert (N2 : Forall name [T "Get"]) by (constructor; [split; [left; reflexivity|repeat constructor]|constructor]).
  assert (D : NoDup (map rg_service [mkReg (T "a.b.Users") [T "Get"]; mkReg (T "b.Users") [T "Get"]])).
  { cbn [map rg_service]. constructor; [intros [K|[]]; discriminate|]. constructor; [intros []|constructor]. }
  split; [split; [exact D|split; [left; reflexivity|auto]]|]. split; [split; [exact D|split; [right; left; reflexivity|auto]]|]. vm_compute. reflexivity.
Qed.
(** A name in lower case. *)
Theorem c70_grpc_lower_refuted : exists m, grpc_dispatch [mkReg (T "p.Svc") [m]] (grpc_call_path (T "p") (T "Svc") m) = None.
Proof. exists (T "get"). reflexivity. Qed.
Example c70_grpc_ex : serves [mkReg (T "x.Y") []; mkReg (T "p.Svc") [T "A"; T "GetIt"]] (T "p") (T "Svc") [T "A"; T "GetIt"] /\
  grpc_dispatch [mkReg (T "x.Y") []; mkReg (T "p.Svc") [T "A"; T "GetIt"]] (grpc_call_path (T "p") (T "Svc") (T "GetIt")) = Some (T "p.Svc", T "GetIt").
Proof.
  split; [|reflexivity]. split; [cbn [map rg_service]; constructor; [intros [K|[]]; discriminate|]; constructor; [intros []|constructor]|]. split; [right; left; reflexivity|].
  split; [split; [left; reflexivity|repeat constructor]|]. constructor; [split; [left; reflexivity|repeat constructor]|]. constructor; [split; [left; reflexivity|repeat constructor]|constructor].
Qed.

(** Over NATS: the running processes, each with the package and service it serves and the methods of that. *)
Record process := mkProc { pr_id : nat; pr_pkg : str; pr_service : str; pr_methods : list str }.
Definition subscriptions (ps : list process) : list subscription := flat_map (fun p => serve_nats (pr_id p) (pr_service p) (pr_methods p)) ps.
(** A request goes to one process, which has a service of that name with that method, and it is handled as that method;
    every such process may get it. *)
Theorem c70_nats : forall ps svc m s, Forall (fun p => name (pr_service p) /\ Forall name (pr_methods p)) ps -> name svc -> name m ->
  (delivered (subscriptions ps) (nats_subject svc m) s <->
   sb_subject s = nats_subject svc m /\ sb_group s = svc /\ sb_handler s = m /\ exists p, In p ps /\ sb_instance s = pr_id p /\ pr_service p = svc /\ In m (pr_methods p)).
Proof.
  intros ps svc m s Hps Hs Hm. unfold delivered, subscriptions. split.
  - intros [Hi E]. apply in_flat_map in Hi. destruct Hi as (p & Hp & Hi). unfold serve_nats in Hi. apply in_map_iff in Hi. destruct Hi as (m' & <- & Hm'). cbn [sb_subject sb_group sb_handler sb_instance] in *.
    rewrite Forall_forall in Hps. destruct (Hps p Hp) as [N1 N2]. rewrite Forall_forall in N2. pose proof (N2 m' Hm') as N3. unfold nats_subject in E. change (T "." ++ m') with (c_dot :: m') in E. change (T "." ++ m) with (c_dot :: m) in E.
    apply last_unique in E; [|apply name_dot; exact N3|apply name_dot; exact Hm]. destruct E as [E1 E2]. subst m' svc. split; [reflexivity|]. split; [reflexivity|]. split; [reflexivity|]. exists p. auto.
  - intros (E1 & E2 & E3 & p & Hp & E4 & E5 & Hm'). split; [|exact E1]. apply in_flat_map. exists p. split; [exact Hp|]. unfold serve_nats. apply in_map_iff. exists m. split; [|exact Hm'].
    destruct s as [i sj g h]. cbn [sb_subject sb_group sb_handler sb_instance] in *. subst. reflexivity.
Qed.
Print Assumptions c70_nats.
(** Refuted: it goes to the service of its own package.  Services of one name in two packages share subject and group, so
    each gets some of the other's requests. *)
Theorem c70_nats_package_refuted : forall i j svc m, exists s t, let ps := [mkProc i (T "shop") svc [m]; mkProc j (T "bank") svc [m]] in
  delivered (subscriptions ps) (nats_subject svc m) s /\ delivered (subscriptions ps) (nats_subject svc m) t /\ sb_group s = sb_group t /\ sb_instance s = i /\ sb_instance t = j.
Proof.
  intros i j svc m. exists (mkSub i (nats_subject svc m) svc m), (mkSub j (nats_subject svc m) svc m). cbn. split; [split; [left; reflexivity|reflexivity]|]. split; [split; [right; left; reflexivity|reflexivity]|].
  split; [reflexivity|]. split; reflexivity.
Qed.

(** ** C71: a call over NATS *)
Section Hop.
  Variable P : Type.
  Notation NR := (NatsResponse (P := P)).
  (** Requests and responses whose fields JSON carries arrive, as long as no oneof is set. *)
  Theorem c71_response : forall dt et qs rs svc q r, carried_by_json qs q -> extensional qs svc -> svc q = (r, None) -> carried_by_json rs r ->
    exists r', nats_call P dt et qs rs svc q = NR r' /\ same rs r' r.
  Proof.
    intros dt et qs rs svc q r Hq He Hs Hr. destruct (round_trip P qs q Hq) as (d & q1 & E1 & E2 & E3). destruct (round_trip P rs r Hr) as (d2 & r1 & F1 & F2 & F3).
    exists r1. split; [|exact F3]. unfold nats_call, nats_serve. rewrite E1, E2, (He q1 q E3), Hs, F1, F2. reflexivity.
  Qed.
  (** REFUTED for errors: the caller gets an empty response and no error, whatever the error of the service was, unless the response has a field named err. *)
  Theorem c71_error_lost : forall dt et qs rs svc q r e, carried_by_json qs q -> extensional qs svc -> svc q = (r, Some e) -> (forall f, In f rs -> ~ named_err f) ->
    nats_call P dt et qs rs svc q = NR (zero_msg P rs).
  Proof.
    intros dt et qs rs svc q r e Hq He Hs Hn. destruct (round_trip P qs q Hq) as (d & q1 & E1 & E2 & E3). unfold nats_call, nats_serve. rewrite E1, E2, (He q1 q E3), Hs, err_read, (no_err_field P rs Hn). reflexivity.
  Qed.
  (** ... which then has the text of the error, if it is a string. *)
  Theorem c71_error_field : forall dt et qs rs svc q r e c p, carried_by_json qs q -> extensional qs svc -> svc q = (r, Some e) ->
    NoDup (map (jf_name P) rs) -> In (mkJF (T "err") (FPlain c)) rs -> Forall (fun c => (c < 1114112)%N) e -> f_dec P c (JStr e) = Some p ->
    nats_call P dt et qs rs svc q = NR (put P (zero_msg P rs) (T "err") (VPlain p)).
  Proof.
    intros dt et qs rs svc q r e c p Hq He Hs Hn Hi Hu Hd. destruct (round_trip P qs q Hq) as (d & q1 & E1 & E2 & E3). unfold nats_call, nats_serve. rewrite E1, E2, (He q1 q E3), Hs, err_read.
    pose proof (field_of_name P rs _ Hn Hi) as F. cbn [jf_name] in F. rewrite F. unfold dec_field. cbn [jf_kind]. rewrite (fix_valid e Hu), Hd. reflexivity.
  Qed.
  (** REFUTED for requests with a oneof that is set: they never reach the service, and the caller gets an empty response and no error. *)
  Theorem c71_oneof_lost : forall dt et qs rs svc q d, NoDup (map (jf_name P) qs) -> writable qs q -> oneof_set qs q -> marshal P qs q = Some d ->
    (forall f, In f rs -> ~ named_err f) -> unmarshal P qs d = None /\ nats_call P dt et qs rs svc q = NR (zero_msg P rs).
  Proof.
    intros dt et qs rs svc q d Hn Hw Ho Hm Hr. pose proof (oneof_refused P qs q d Hn Hw Ho Hm) as U. split; [exact U|]. unfold nats_call, nats_serve. rewrite Hm, U, err_read, (no_err_field P rs Hr). reflexivity.
  Qed.
  (** REFUTED for responses with a oneof that is set: the caller gets an error. *)
  Theorem c71_oneof_response_lost : forall dt et qs rs svc q r d, carried_by_json qs q -> extensional qs svc -> svc q = (r, None) ->
    NoDup (map (jf_name P) rs) -> writable rs r -> oneof_set rs r -> marshal P rs r = Some d -> nats_call P dt et qs rs svc q = NatsDecodeError.
  Proof.
    intros dt et qs rs svc q r d Hq He Hs Hn Hw Ho Hm. destruct (round_trip P qs q Hq) as (d1 & q1 & E1 & E2 & E3). unfold nats_call, nats_serve. rewrite E1, E2, (He q1 q E3), Hs, Hm, (oneof_refused P rs r d Hn Hw Ho Hm). reflexivity.
  Qed.
  (** A request from any client: the service is called only with a request that was read. *)
  Theorem c71_refused : forall dt et qs rs svc data, unmarshal P qs data = None -> nats_serve P dt et qs rs svc data = T "{""err"":" ++ json_quote dt ++ T "}".
  Proof. intros dt et qs rs svc data H. unfold nats_serve. rewrite H. reflexivity. Qed.
  (** A request of null is the request with nothing set, not an error. *)
  Theorem c71_null : forall dt et qs rs svc r d, svc (zero_msg P qs) = (r, None) -> marshal P rs r = Some d -> nats_serve P dt et qs rs svc (T "null") = d.
  Proof. intros dt et qs rs svc r d Hs Hm. unfold nats_serve. change (unmarshal P qs (T "null")) with (Some (zero_msg P qs)). cbv iota beta. rewrite Hs, Hm. reflexivity. Qed.
  (** A request that JSON cannot write is an error of the caller, whatever the service is: nothing is sent. *)
  Theorem c71_unwritable : forall dt et qs rs svc q, marshal P qs q = None -> nats_call P dt et qs rs svc q = NatsEncodeError.
  Proof. intros dt et qs rs svc q H. unfold nats_call. rewrite H. reflexivity. Qed.
End Hop.
Print Assumptions c71_null.
Print Assumptions c71_unwritable.
Print Assumptions c71_response.
Print Assumptions c71_error_lost.
Print Assumptions c71_error_field.
Print Assumptions c71_oneof_lost.
Print Assumptions c71_oneof_response_lost.
Print Assumptions c71_refused.

(** *** The hypotheses are met: a request with a string and a oneof of strings, answered by an echo that fails for the empty one. *)
Definition str_codec : codec str :=
  mkCodec [] (fun s => match s with [] => true | _ => false end) (fun s => Some (JStr s)) (fun j => match j with JStr s => Some s | JNull => Some [] | _ => None end).
Definition ex_qs : list (jfield str) := [mkJF (T "text") (FPlain str_codec); mkJF (T "Choice") (FOneof [(T "A", str_codec); (T "B", str_codec)])].
Definition ex_rs : list (jfield str) := [mkJF (T "answer") (FPlain str_codec)].
Definition ex_echo (q : msg str) : msg str * option str :=
  match q (T "text") with VPlain (c :: s) => ((fun _ => VPlain (c :: s)), None) | _ => ((fun _ => VPlain []), Some (T "no text")) end.
Definition ex_q (t : str) (o : option (str * str)) : msg str := fun n => if str_eqb n (T "text") then VPlain t else VOne o.
Lemma ex_carried : forall t, Forall (fun c => (c < 1114112)%N) t -> carried_by_json ex_qs (ex_q t None).
Proof.
  intros t Ht. split; [cbn; constructor; [intros [K|[]]; discriminate|constructor; [intros []|constructor]]|]. split.
  - constructor; [|constructor; [|constructor]]; apply Forall_forall; intros c Hc; vm_compute in Hc; repeat destruct Hc as [<-|Hc]; reflexivity || contradiction.
  - constructor; [|constructor; [reflexivity|constructor]]. exists t. split; [reflexivity|]. unfold plain_ok. destruct t as [|c t]; [reflexivity|]. cbn [f_empty str_codec]. exists (JStr (c :: t)). split; [reflexivity|]. split; [exact Ht|reflexivity].
Qed.
Lemma ex_ext : extensional ex_qs ex_echo.
Proof. intros a b H. unfold ex_echo. assert (E : a (T "text") = b (T "text")) by exact (H (mkJF (T "text") (FPlain str_codec)) (or_introl eq_refl)). rewrite E. reflexivity. Qed.
Example c71_ex : exists r, nats_call str [] [] ex_qs ex_rs ex_echo (ex_q (T "hi ""you""") None) = NatsResponse r /\ r (T "answer") = VPlain (T "hi ""you""").
Proof.
  eexists. split; [vm_compute; reflexivity|]. vm_compute. reflexivity.
Qed.
Example c71_lost_ex : nats_call str [] [] ex_qs ex_rs ex_echo (ex_q [] None) = NatsResponse (zero_msg str ex_rs) /\
  nats_call str [] [] ex_qs ex_rs ex_echo (ex_q (T "hi") (Some (T "A", T "x"))) = NatsResponse (zero_msg str ex_rs).
Proof.
  assert (Nr : forall f, In f ex_rs -> ~ named_err f) by (intros f [<-|[]] K; discriminate K). split.
  - apply (c71_error_lost str [] [] ex_qs ex_rs ex_echo (ex_q [] None) (fun _ => VPlain []) (T "no text")); [apply ex_carried; constructor|exact ex_ext|reflexivity|exact Nr].
  - destruct (marshal str ex_qs (ex_q (T "hi") (Some (T "A", T "x")))) as [d|] eqn:E; [|vm_compute in E; discriminate].
    apply (c71_oneof_lost str [] [] ex_qs ex_rs ex_echo (ex_q (T "hi") (Some (T "A", T "x"))) d); [| | |exact E|exact Nr].
    + cbn; constructor; [intros [K|[]]; discriminate|constructor; [intros []|constructor]].
    + intros f Hf. destruct Hf as [<-|[<-|[]]]; (split; [apply Forall_forall; intros c Hc; vm_compute in Hc; repeat destruct Hc as [<-|Hc]; reflexivity || contradiction|]); intros j Hj; vm_compute in Hj; injection Hj as <-.
      * repeat constructor.
      * cbn. repeat constructor.
    + exists (mkJF (T "Choice") (FOneof [(T "A", str_codec); (T "B", str_codec)])), [(T "A", str_codec); (T "B", str_codec)], (T "A"), (T "x"). split; [right; left; reflexivity|]. split; reflexivity.
Qed.
