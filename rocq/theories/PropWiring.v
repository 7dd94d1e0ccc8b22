(** C67 and C68: the names the generated transport file declares. *)
From Verif Require Import GoStr GoStrProofs SvcTypes Strs StrsSpec StrsProofs HttpSpec HttpTransport HttpProofs WiringSpec Wiring WiringProofs PropHttp.

(** The input made from a definition. *)
Definition rendered (name : str) (svc : list smethod) (hs : list hmeth) (transport : str) : input := mkInput name (map sm_name svc) hs transport.
(** The names compile: every scope is in order, and the loop variable of the wrap functions is used. *)
Definition names_compile (i : input) (pb : list str) : Prop := inc_used i = true /\ Forall scope_ok (scopes i pb).
(** The rules for the names of a service. *)
Record name_rules (i : input) (pb : list str) : Prop := {
  has_methods : in_methods i <> [];
  methods_differ : NoDup (in_methods i);
  differ_without_case : with_grpc i || with_nats i = true -> NoDup (map to_lower (in_methods i));
  no_keyword : with_grpc i = true -> forall n, In n (in_methods i) -> ~ In (to_lower n) go_keywords;
  no_endpoint_pair : forall n m, In n (in_methods i) -> In m (in_methods i) -> n <> m ++ T "Endpoint";
  not_reserved : forall n, In n (in_methods i) -> ~ In n [T "WrapAllExcept"; T "WrapAllLabeledExcept"; T "Unimplemented" ++ in_service i ++ T "Server"];
  labels_differ : NoDup (labels i);
  pb_apart : forall x, In x pb -> ~ In x (imports i ++ package_names i) }.

(** What NewHelper made. *)
Lemma helper_labels : forall ms svc hs, new_helper ms svc = Ret hs -> Forall (fun h => exists m, In m svc /\ hm_name h = sm_name m /\ hm_binds h <> [] /\
  map hb_label (hm_binds h) = map (fun i => sm_name m ++ english_number (Z.of_nat i)) (seq 0 (length (sm_bindings m)))) hs.
Proof.
  intros ms. induction svc as [|m svc IH]; intros hs H; cbn [new_helper] in H; [injection H as <-; constructor|].
  assert (W : forall hs', new_helper ms svc = Ret hs' -> Forall (fun h => exists m0, In m0 (m :: svc) /\ hm_name h = sm_name m0 /\ hm_binds h <> [] /\
    map hb_label (hm_binds h) = map (fun i => sm_name m0 ++ english_number (Z.of_nat i)) (seq 0 (length (sm_bindings m0)))) hs').
  { intros hs' E. eapply Forall_impl; [|exact (IH hs' E)]. intros h (m0 & H1 & H2). exists m0. split; [right; exact H1|exact H2]. }
  destruct (sm_bindings m) as [|b bs] eqn:Eb; [apply W; exact H|]. destruct (new_method ms m) as [h| |] eqn:Em; try discriminate.
  destruct (new_helper ms svc) as [hs2| |] eqn:Eh; try discriminate. injection H as <-. constructor; [|apply W; reflexivity].
  exists m. split; [left; reflexivity|]. pose proof (c27_labels ms m h Em) as [L _]. unfold new_method in Em.
  destruct (new_bindings _ _ _) as [bs2| |]; try discriminate. injection Em as <-. cbn [hm_name hm_binds] in *. split; [reflexivity|]. split; [|exact L].
  intros ->. rewrite Eb in L. discriminate.
Qed.
Lemma helper_names : forall ms svc hs, new_helper ms svc = Ret hs -> map hm_name hs = map sm_name (filter (fun m => match sm_bindings m with [] => false | _ => true end) svc).
Proof.
  intros ms svc hs H. apply c50_methods in H. apply (f_equal (map (fun p => fst (fst (fst p))))) in H. rewrite !map_map in H. exact H.
Qed.
Lemma nodup_map_filter : forall (A B : Type) (f : A -> B) (p : A -> bool) l, NoDup (map f l) -> NoDup (map f (filter p l)).
Proof.
  intros A B f p. induction l as [|x l IH]; intro H; [constructor|]. cbn [map] in H. inversion H as [|? ? H1 H2]; subst. cbn [filter].
  destruct (p x); [|apply IH; exact H2]. cbn [map]. constructor; [|apply IH; exact H2]. intro K. apply H1. apply in_map_iff in K.
  destruct K as (y & E & Iy). apply filter_In in Iy. apply in_map_iff. exists y. split; [exact E|apply Iy].
Qed.
Lemma first_labels_nodup : forall i, NoDup (labels i) -> NoDup (first_labels i).
Proof.
  intros [sv ms hs tr]. unfold labels, first_labels. cbn [in_http]. induction hs as [|h hs IH]; intro H; [constructor|]. cbn [flat_map] in *.
  apply nodup_app_iff in H. destruct H as (H1 & H2 & H3). apply nodup_app_iff. split; [destruct (hm_binds h); constructor; [intros []|constructor]|]. split; [apply IH; exact H2|].
  intros x Hx Hy. apply (H3 x).
  - destruct (hm_binds h) as [|b bs]; [destruct Hx|]. destruct Hx as [<-|[]]. left. reflexivity.
  - apply in_flat_map in Hy. destruct Hy as (h2 & I2 & Hy). apply in_flat_map. exists h2. split; [exact I2|].
    destruct (hm_binds h2) as [|b bs]; [destruct Hy|]. destruct Hy as [<-|[]]. left. reflexivity.
Qed.

(** ** The package scope *)
Definition groups (i : input) : list group :=
  map fixed (imports i) ++
  let ms := in_methods i in
  [fixed (T "Endpoints"); family (T "Make") ms (T "Endpoint"); fixed (T "LabeledMiddleware")]
  ++ when (with_grpc i) [fixed (T "MakeGRPCServer"); fixed (T "grpcServer"); family (T "DecodeGRPC") ms (T "Request"); family (T "EncodeGRPC") ms (T "Response");
       fixed (T "GRPCMetadataToContext"); fixed (T "NewGRPCClient"); family (T "DecodeGRPC") ms (T "Response"); family (T "EncodeGRPC") ms (T "Request");
       fixed (T "ContextValuesToGRPCMetadata")]
  ++ [fixed (T "contentType"); fixed (T "MakeHTTPHandler"); fixed (T "errorEncoder"); fixed (T "errorDecoder"); fixed (T "errorWrapper"); fixed (T "httpError");
      family (T "DecodeHTTP") (labels i) (T "Request"); fixed (T "EncodeHTTPGenericResponse"); fixed (T "HTTPHeadersToContext"); fixed (T "NewHTTPClient");
      fixed (T "copyURL"); fixed (T "CtxValuesToSend"); family (T "DecodeHTTP") (map hm_name (in_http i)) (T "Response"); family (T "EncodeHTTP") (labels i) (T "Request")]
  ++ when (with_nats i) [fixed (T "ServeNATS"); fixed (T "MakeNATSServer"); fixed (T "natsServer"); family (T "DecodeNATS") ms (T "Request");
       fixed (T "EncodeNATSGenericResponse"); fixed (T "NewNATSClient"); family (T "DecodeNATS") ms (T "Response"); fixed (T "EncodeNATSGenericRequest")].
Lemma groups_names : forall i, concat (map g_names (groups i)) = imports i ++ package_names i.
Proof.
  intro i. unfold groups. rewrite map_app, concat_app. f_equal.
  - rewrite map_map. cbn [g_names fixed]. induction (imports i) as [|x l IH]; [reflexivity|]. cbn [map concat app]. rewrite IH. reflexivity.
  - unfold package_names. destruct (with_grpc i), (with_nats i); cbn [when app map concat g_names fixed family]; rewrite ?app_nil_r, <- ?app_assoc; cbn [app]; rewrite ?app_nil_r, <- ?app_assoc; cbn [app]; reflexivity.
Qed.
Lemma groups_shaped : forall i, Forall shaped (groups i).
Proof.
  intro i. unfold groups, when. apply Forall_app. split; [apply Forall_map; apply Forall_forall; intros; apply shaped_fixed|].
  destruct (with_grpc i), (with_nats i); cbn [app]; repeat (apply Forall_cons; [apply shaped_fixed || apply shaped_family|]); apply Forall_nil.
Qed.
Lemma groups_apart : forall i, all_apart (groups i) = true.
Proof.
  intro i. assert (E : forall gs, all_apart gs = all_apart (map (fun g => mkG (g_pre g) (g_suf g) []) gs)).
  { induction gs as [|g gs IH]; [reflexivity|]. cbn [all_apart map]. rewrite <- IH. f_equal. clear IH. induction gs as [|h gs IH]; [reflexivity|]. cbn [forallb map]. rewrite IH. reflexivity. }
  rewrite E. clear E. unfold groups, imports. destruct (with_grpc i), (with_nats i); cbn [when app map g_pre g_suf fixed family]; vm_compute; reflexivity.
Qed.
Lemma package_nodup : forall i, NoDup (in_methods i) -> NoDup (map hm_name (in_http i)) -> (NoDup (imports i ++ package_names i) <-> NoDup (labels i)).
Proof.
  intros i Hm Hh. rewrite <- groups_names, (nodup_groups _ (groups_shaped i) (groups_apart i)).
  assert (F : forall w, NoDup (g_names (fixed w))) by (intro w; constructor; [intros []|constructor]). split.
  - intro H. rewrite Forall_forall in H. apply (each_nodup (T "DecodeHTTP") (labels i) (T "Request")).
    apply (H (family (T "DecodeHTTP") (labels i) (T "Request"))). unfold groups. apply in_or_app. right. apply in_or_app. right. apply in_or_app. right. apply in_or_app. left.
    do 6 right. left. reflexivity.
  - intro H. unfold groups. apply Forall_app. split; [apply Forall_map; apply Forall_forall; intros; apply F|]. unfold when.
    destruct (with_grpc i), (with_nats i); cbn [app]; repeat (apply Forall_cons; [apply F || (apply each_nodup; assumption)|]); apply Forall_nil.
Qed.
Lemma package_idents : forall i, Forall exported_ident (in_methods i) -> Forall (Forall ident_rune) (labels i) -> Forall (Forall ident_rune) (map hm_name (in_http i)) ->
  Forall ident (imports i ++ package_names i).
Proof.
  intros i Hm Hl Hh. rewrite <- groups_names.
  assert (Hm2 : Forall (Forall ident_rune) (in_methods i)) by (eapply Forall_impl; [|exact Hm]; intros a Ha; apply exported_runes; exact Ha).
  assert (Fx : forall w, identb w = true -> Forall ident (g_names (fixed w))) by (intros w H; constructor; [apply ident_b; exact H|constructor]).
  assert (Fa : forall p l s, Forall (Forall ident_rune) l -> begins p = true -> existsb is_upper p = true -> forallb ident_runeb s = true -> Forall ident (g_names (family p l s))).
  { intros p l s Hr H1 H2 H3. cbn [g_names family]. unfold each. apply Forall_map. eapply Forall_impl; [|exact Hr]. intros n Hn. apply family_ident; assumption. }
  apply Forall_concat. apply Forall_map. unfold groups, imports, when. destruct (with_grpc i), (with_nats i); cbn [app map];
  repeat (apply Forall_cons; [(apply Fx; reflexivity) || (apply Fa; [assumption|reflexivity|reflexivity|reflexivity])|]); apply Forall_nil.
Qed.

(** ** The other scopes *)
Fixpoint nodupb (l : list str) : bool := match l with [] => true | x :: l' => negb (existsb (str_eqb x) l') && nodupb l' end.
Lemma nodup_dec : forall l, nodupb l = true -> NoDup l.
Proof.
  induction l as [|x l IH]; intro H; constructor; cbn in H; apply andb_true_iff in H; destruct H as [H1 H2]; [|apply IH; exact H2].
  intro Hi. apply negb_true_iff in H1. apply not_true_iff_false in H1. apply H1. apply existsb_exists. exists x. split; [exact Hi|apply str_eqb_refl].
Qed.
Definition fixed_ok (l : list str) : bool := forallb identb l.
Lemma fixed_idents : forall l, fixed_ok l = true -> Forall ident l.
Proof. intros l H. unfold fixed_ok in H. rewrite forallb_forall in H. apply Forall_forall. intros x Hx. apply ident_b. auto. Qed.
(** Fixed names, then a family with a suffix none of them ends in. *)
Lemma with_family : forall fx l s, NoDup fx -> forallb (fun w => negb (has_suffix w s)) fx = true -> (NoDup (fx ++ each [] l s) <-> NoDup l).
Proof.
  intros fx l s Hf Hs. rewrite nodup_app_iff, each_nodup. split; [tauto|]. intro H. split; [exact Hf|]. split; [exact H|]. intros x Hx Hy.
  apply in_each in Hy. destruct Hy as (n & _ & ->). rewrite forallb_forall in Hs. specialize (Hs _ Hx). apply Bool.negb_true_iff in Hs.
  unfold has_suffix in Hs. cbn [app] in Hs. rewrite rev_app_distr, has_prefix_app in Hs. discriminate.
Qed.
Lemma client_scope : forall i, Forall exported_ident (in_methods i) -> (scope_ok (client_names i) <-> NoDup (map to_lower (in_methods i))).
Proof.
  intros i Hm. unfold scope_ok, client_names. rewrite with_family; [|apply nodup_dec; reflexivity|reflexivity]. split; [tauto|]. intro H. split; [exact H|].
  apply Forall_app. split; [apply fixed_idents; reflexivity|]. unfold each. apply Forall_map. apply Forall_map. eapply Forall_impl; [|exact Hm].
  intros n Hn. cbn [app]. apply lowered_ident; [exact Hn|reflexivity|reflexivity].
Qed.
Lemma serve_scope : forall i, Forall exported_ident (in_methods i) -> (scope_ok (serve_nats_names i) <-> NoDup (map to_lower (in_methods i))).
Proof.
  intros i Hm. unfold scope_ok, serve_nats_names. rewrite with_family; [|apply nodup_dec; reflexivity|reflexivity]. split; [tauto|]. intro H. split; [exact H|].
  apply Forall_app. split; [apply fixed_idents; reflexivity|]. unfold each. apply Forall_map. apply Forall_map. eapply Forall_impl; [|exact Hm].
  intros n Hn. cbn [app]. apply lowered_ident; [exact Hn|reflexivity|reflexivity].
Qed.
Lemma http_scope : forall i, NoDup (first_labels i) -> Forall exported_ident (first_labels i) -> scope_ok (http_client_names i).
Proof.
  intros i Hn Hm. unfold scope_ok, http_client_names. rewrite with_family; [|apply nodup_dec; reflexivity|reflexivity]. split; [exact Hn|].
  apply Forall_app. split; [apply fixed_idents; reflexivity|]. unfold each. apply Forall_map. eapply Forall_impl; [|exact Hm].
  intros n Hx. cbn [app]. apply exported_suffix; [exact Hx|reflexivity].
Qed.
Lemma embedded_ident : forall i, exported_ident (in_service i) -> ident (embedded i).
Proof. intros i H. unfold embedded. apply family_ident; [reflexivity|reflexivity|apply exported_runes; exact H|reflexivity]. Qed.
Lemma endpoints_scope : forall i, exported_ident (in_service i) -> Forall exported_ident (in_methods i) -> NoDup (in_methods i) ->
  (scope_ok (endpoints_names i) <-> (forall n m, In n (in_methods i) -> In m (in_methods i) -> n <> m ++ T "Endpoint")
    /\ (forall n, In n (in_methods i) -> ~ In n [T "WrapAllExcept"; T "WrapAllLabeledExcept"; embedded i])).
Proof.
  intros i Hs Hm Hd. unfold scope_ok, endpoints_names. assert (I : Forall ident ([embedded i] ++ each [] (in_methods i) (T "Endpoint") ++ in_methods i ++ [T "WrapAllExcept"; T "WrapAllLabeledExcept"])).
  { apply Forall_app. split; [constructor; [apply embedded_ident; exact Hs|constructor]|]. apply Forall_app. split.
    - unfold each. apply Forall_map. eapply Forall_impl; [|exact Hm]. intros n Hn. cbn [app]. apply exported_suffix; [exact Hn|reflexivity].
    - apply Forall_app. split; [eapply Forall_impl; [|exact Hm]; intros n Hn; apply exported_is_ident; exact Hn|apply fixed_idents; reflexivity]. }
  rewrite !nodup_app_iff, each_nodup. split.
  - intros ((_ & (_ & (_ & _ & D1) & D2) & D3) & _). split.
    + intros n m Hn Hx ->. apply (D2 (m ++ T "Endpoint")); [apply in_each; exists m; split; [exact Hx|reflexivity]|]. apply in_or_app. left. exact Hn.
    + intros n Hn [<-|[<-|[E|[]]]]; [apply (D1 (T "WrapAllExcept")); [exact Hn|left; reflexivity]|apply (D1 (T "WrapAllLabeledExcept")); [exact Hn|right; left; reflexivity]|].
      subst n. apply (D3 (embedded i)); [left; reflexivity|]. apply in_or_app. right. apply in_or_app. left. exact Hn.
  - intros (R1 & R2). split; [|exact I]. split; [constructor; [intros []|constructor]|]. split.
    + split; [exact Hd|]. split.
      * split; [exact Hd|]. split; [apply nodup_dec; reflexivity|]. intros x Hx [<-|[<-|[]]]; exact (R2 _ Hx ltac:(cbn [In]; auto)).
      * intros x Hx Hy. apply in_each in Hx. destruct Hx as (m & Im & ->). cbn [app] in Hy. apply in_app_or in Hy. destruct Hy as [Hy|Hy]; [exact (R1 _ _ Hy Im eq_refl)|].
        destruct Hy as [E|[E|[]]]; apply (f_equal (@rev N)) in E; rewrite rev_app_distr in E; vm_compute in E; discriminate.
    + intros x [<-|[]] Hy. apply in_app_or in Hy. destruct Hy as [Hy|Hy]; [|apply in_app_or in Hy; destruct Hy as [Hy|Hy]].
      * apply in_each in Hy. destruct Hy as (m & _ & E). cbn [app] in E. unfold embedded in E. rewrite app_assoc in E. apply (f_equal (@rev N)) in E. rewrite !rev_app_distr in E. vm_compute in E. discriminate.
      * exact (R2 _ Hy ltac:(cbn [In]; auto)).
      * destruct Hy as [E|[E|[]]]; unfold embedded in E; vm_compute in E; discriminate.
Qed.
Lemma grpc_scope : forall i, exported_ident (in_service i) -> Forall exported_ident (in_methods i) -> Forall (fun n => go_camel_case n = n) (in_methods i) -> NoDup (in_methods i) ->
  (forall n, In n (in_methods i) -> n <> embedded i) ->
  (scope_ok (grpc_server_names i) <-> NoDup (map to_lower (in_methods i)) /\ (forall n, In n (in_methods i) -> ~ In (to_lower n) go_keywords)).
Proof.
  intros i Hs Hm Hc Hd Hr. unfold scope_ok, grpc_server_names. assert (Ec : map go_camel_case (in_methods i) = in_methods i).
  { clear -Hc. induction Hc as [|n l E Hc IH]; [reflexivity|]. cbn [map]. rewrite E, IH. reflexivity. }
  rewrite Ec, !nodup_app_iff, !Forall_app. rewrite Forall_forall in Hm. split.
  - intros ((_ & (D1 & _) & _) & _ & (K & _)). split; [exact D1|]. intros n Hn. rewrite Forall_forall in K. apply lowered_ident0; [apply Hm; exact Hn|]. apply K. apply in_map. exact Hn.
  - intros (D1 & K). split; [|split; [constructor; [apply embedded_ident; exact Hs|constructor]|split]].
    + split; [constructor; [intros []|constructor]|]. split.
      * split; [exact D1|]. split; [exact Hd|]. intros x Hx Hy. apply in_map_iff in Hx. destruct Hx as (n & <- & _).
        pose proof (exported_has_upper _ (Hm _ Hy)) as U. rewrite lower_no_upper in U. discriminate.
      * intros x [<-|[]] Hy. apply in_app_or in Hy. destruct Hy as [Hy|Hy]; [|exact (Hr _ Hy eq_refl)]. apply in_map_iff in Hy. destruct Hy as (n & E & _).
        pose proof (lower_no_upper n) as U. rewrite E in U. unfold embedded in U. rewrite existsb_app in U. discriminate.
    + apply Forall_forall. intros x Hx. apply in_map_iff in Hx. destruct Hx as (n & <- & Hn). apply lowered_ident0; [apply Hm; exact Hn|apply K; exact Hn].
    + apply Forall_forall. intros n Hn. apply exported_is_ident. apply Hm. exact Hn.
Qed.

(** ** C67: the names compile exactly if the rules hold. *)
Theorem c67_names_compile : forall name ms svc hs transport pb,
  new_helper ms svc = Ret hs -> exported_ident name ->
  Forall (fun m => exported_ident (sm_name m) /\ go_camel_case (sm_name m) = sm_name m) svc ->
  scope_ok pb ->
  (names_compile (rendered name svc hs transport) pb <-> name_rules (rendered name svc hs transport) pb).
Proof.
  intros name ms svc hs tr pb Hh Hname Hsvc [Hpb1 Hpb2]. set (i := rendered name svc hs tr).
  assert (Hm : Forall exported_ident (in_methods i)) by (unfold i, rendered; cbn [in_methods]; apply Forall_map; eapply Forall_impl; [|exact Hsvc]; intros m [H _]; exact H).
  assert (Hc : Forall (fun n => go_camel_case n = n) (in_methods i)) by (unfold i, rendered; cbn [in_methods]; apply Forall_map; eapply Forall_impl; [|exact Hsvc]; intros m [_ H]; exact H).
  assert (Hlab : Forall exported_ident (labels i)).
  { apply Forall_forall. intros x Hx. unfold labels, i, rendered in Hx. cbn [in_http] in Hx. apply in_flat_map in Hx. destruct Hx as (h & Ih & Hx).
    pose proof (helper_labels ms svc hs Hh) as L. rewrite Forall_forall in L. destruct (L h Ih) as (m & Im & _ & _ & E). rewrite E in Hx. apply in_map_iff in Hx. destruct Hx as (k & <- & _).
    rewrite Forall_forall in Hsvc. destruct (Hsvc m Im) as [He _]. destruct (sm_name m) as [|c n]; [destruct He|]. destruct He as [H1 H2]. cbn [app]. split; [exact H1|].
    apply Forall_app. split; [exact H2|]. rewrite <- nat_N_Z. pose proof (english_runes (N.of_nat k)) as R. eapply Forall_impl; [|exact R]. intros d Hd. exact Hd. }
  assert (Hhn : Forall (Forall ident_rune) (map hm_name (in_http i))).
  { unfold i, rendered. cbn [in_http]. apply Forall_forall. intros x Hx. apply in_map_iff in Hx. destruct Hx as (h & <- & Ih). pose proof (helper_labels ms svc hs Hh) as L.
    rewrite Forall_forall in L. destruct (L h Ih) as (m & Im & -> & _). apply exported_runes. rewrite Forall_forall in Hsvc. apply (Hsvc m Im). }
  assert (Hlr : Forall (Forall ident_rune) (labels i)) by (eapply Forall_impl; [|exact Hlab]; intros a Ha; apply exported_runes; exact Ha).
  assert (Hfl : Forall exported_ident (first_labels i)).
  { apply Forall_forall. intros x Hx. rewrite Forall_forall in Hlab. apply Hlab. unfold first_labels in Hx. unfold labels. apply in_flat_map in Hx. destruct Hx as (h & Ih & Hx).
    apply in_flat_map. exists h. split; [exact Ih|]. destruct (hm_binds h) as [|b bs]; [destruct Hx|]. destruct Hx as [<-|[]]. left. reflexivity. }
  assert (Hhd : NoDup (in_methods i) -> NoDup (map hm_name (in_http i))).
  { intro H. unfold i, rendered in *. cbn [in_http in_methods] in *. rewrite (helper_names ms svc hs Hh). apply nodup_map_filter. exact H. }
  assert (Pk : NoDup (in_methods i) -> (scope_ok (pb ++ imports i ++ package_names i) <-> NoDup (labels i) /\ (forall x, In x pb -> ~ In x (imports i ++ package_names i)))).
  { intro D. unfold scope_ok. rewrite nodup_app_iff, (package_nodup i D (Hhd D)), Forall_app. pose proof (package_idents i Hm Hlr Hhn) as PI. split.
    - intros ((_ & L & A) & _). split; [exact L|]. intros x H1 H2. exact (A x H1 H2).
    - intros (L & A). split; [split; [exact Hpb1|split; [exact L|intros x H1 H2; exact (A x H1 H2)]]|split; [exact Hpb2|exact PI]]. }
  assert (NM : NoDup (in_methods i) -> scope_ok (nats_server_names i)).
  { intro D. split; [exact D|]. unfold nats_server_names. eapply Forall_impl; [|exact Hm]. intros n Hn. apply exported_is_ident. exact Hn. }
  unfold names_compile, scopes. split.
  - intros (Hinc & Hsc). apply Forall_app in Hsc. destruct Hsc as [Hs1 Hs2]. apply Forall_app in Hs2. destruct Hs2 as [Hs2 Hs3].
    inversion Hs1 as [|? ? S1 Hs1']; subst. inversion Hs1' as [|? ? S2 Hs1'']; subst. clear Hs1 Hs1' Hs1''.
    assert (D : NoDup (in_methods i)).
    { destruct S2 as [S2 _]. unfold endpoints_names in S2. apply nodup_app_iff in S2. destruct S2 as (_ & S2 & _). apply nodup_app_iff in S2. destruct S2 as (_ & S2 & _).
      apply nodup_app_iff in S2. apply S2. }
    apply (Pk D) in S1. destruct S1 as [S1 S1']. apply (endpoints_scope i Hname Hm D) in S2. destruct S2 as [S2 S2'].
    assert (Sg : with_grpc i = true -> scope_ok (grpc_server_names i)) by (intro G; rewrite G in Hs2; cbn [when] in Hs2; inversion Hs2; assumption).
    assert (Sc : with_grpc i = true -> scope_ok (client_names i)) by (intro G; rewrite G in Hs2; cbn [when] in Hs2; inversion Hs2 as [|? ? ? Q]; inversion Q; assumption).
    assert (Sn : with_nats i = true -> scope_ok (client_names i)) by (intro G; rewrite G in Hs3; cbn [when] in Hs3; inversion Hs3; assumption).
    constructor; try assumption.
    + intro E. unfold inc_used in Hinc. rewrite E in Hinc. discriminate.
    + intro B. apply Bool.orb_true_iff in B. apply (client_scope i Hm). destruct B as [B|B]; [apply Sc|apply Sn]; exact B.
    + intro G. apply (grpc_scope i Hname Hm Hc D); [|apply Sg; exact G]. intros n Hn E. apply (S2' n Hn). subst n. cbn [In]. auto.
  - intros [R1 R2 R3 R4 R5 R6 R7 R8]. split; [unfold inc_used; destruct (in_methods i); [contradiction|reflexivity]|].
    assert (Cl : with_grpc i || with_nats i = true -> scope_ok (client_names i)) by (intro B; apply (client_scope i Hm); exact (R3 B)).
    apply Forall_app. split; [|apply Forall_app; split].
    + apply Forall_cons; [apply (Pk R2); split; assumption|]. apply Forall_cons; [apply (endpoints_scope i Hname Hm R2); split; assumption|].
      apply Forall_cons; [|apply Forall_nil]. apply http_scope; [apply first_labels_nodup; exact R7|exact Hfl].
    + destruct (with_grpc i) eqn:G; [|apply Forall_nil]. cbn [when]. apply Forall_cons; [|apply Forall_cons; [apply Cl; reflexivity|apply Forall_nil]].
      apply (grpc_scope i Hname Hm Hc R2); [intros n Hn E; apply (R6 n Hn); subst n; cbn [In]; auto|]. split; [apply R3; reflexivity|apply R4; reflexivity].
    + destruct (with_nats i) eqn:G; [|apply Forall_nil]. cbn [when]. apply Forall_cons; [apply Cl; apply Bool.orb_true_r|].
      apply Forall_cons; [apply (serve_scope i Hm); apply R3; apply Bool.orb_true_r|]. apply Forall_cons; [apply NM; exact R2|apply Forall_nil].
Qed.
Print Assumptions c67_names_compile.

(** Labels that do differ: method names differ, and no method has more than ten bindings. *)
Lemma short_words : forall i, (i < 10)%nat -> english_number (Z.of_nat i) = concat (map digit_word [i]).
Proof. intros i H. do 10 (destruct i as [|i]; [reflexivity|]). lia. Qed.
Lemma short_labels : forall m m' i j, (i < 10)%nat -> (j < 10)%nat -> m ++ english_number (Z.of_nat i) = m' ++ english_number (Z.of_nat j) -> m = m'.
Proof.
  intros m m' i j Hi Hj E.
  assert (Q : forall n ds k l, (k < 10)%nat -> (l < 10)%nat -> Forall (fun d => (d < 10)%nat) ds -> n ++ english_number (Z.of_nat k) = (n ++ concat (map digit_word ds)) ++ english_number (Z.of_nat l) -> ds = []).
  { intros n ds k l Hk Hl Hd Q. rewrite <- app_assoc in Q. apply app_inv_head in Q. rewrite !short_words, <- concat_app, <- map_app in Q by assumption.
    apply words_inj in Q; [|constructor; [lia|constructor]|apply Forall_app; split; [exact Hd|constructor; [lia|constructor]]].
    destruct ds as [|d ds]; [reflexivity|]. apply (f_equal (@length nat)) in Q. rewrite app_length in Q. cbn [length] in Q. lia. }
  pose proof E as E2. rewrite <- (nat_N_Z i), <- (nat_N_Z j) in E2. apply c27_across_methods in E2. destruct E2 as (ds & Hd & [->| ->]).
  - rewrite (Q m ds i j Hi Hj Hd E). cbn [map concat]. rewrite app_nil_r. reflexivity.
  - symmetry in E. rewrite (Q m' ds j i Hj Hi Hd E). cbn [map concat]. rewrite app_nil_r. reflexivity.
Qed.
Lemma helper_split : forall ms m svc hs, new_helper ms (m :: svc) = Ret hs -> exists hs', new_helper ms svc = Ret hs' /\
  (hs = hs' \/ exists h, new_method ms m = Ret h /\ hs = h :: hs').
Proof.
  intros ms m svc hs H. cbn [new_helper] in H. destruct (sm_bindings m); [exists hs; split; [exact H|left; reflexivity]|].
  destruct (new_method ms m) as [h| |] eqn:E; try discriminate. destruct (new_helper ms svc) as [hs'| |]; try discriminate. injection H as <-.
  exists hs'. split; [reflexivity|]. right. exists h. split; reflexivity.
Qed.
Theorem c67_ten_bindings : forall name ms svc hs transport, new_helper ms svc = Ret hs -> NoDup (map sm_name svc) ->
  Forall (fun m => (length (sm_bindings m) <= 10)%nat) svc -> NoDup (labels (rendered name svc hs transport)).
Proof.
  intros name ms svc hs tr H Hd Hl. unfold labels, rendered. cbn [in_http]. revert hs H. induction svc as [|m svc IH]; intros hs H; [injection H as <-; constructor|].
  apply helper_split in H. destruct H as (hs' & H' & H). inversion Hd as [|? ? D1 D2]; subst. inversion Hl as [|? ? L1 L2]; subst. specialize (IH D2 L2 hs' H').
  destruct H as [->|(h & Eh & ->)]; [exact IH|]. cbn [flat_map]. destruct (c27_labels ms m h Eh) as [Lh Nh]. apply nodup_app_iff. split; [exact Nh|]. split; [exact IH|].
  intros x Hx Hy. rewrite Lh in Hx. apply in_map_iff in Hx. destruct Hx as (k & <- & Hk). apply in_seq in Hk. apply in_flat_map in Hy. destruct Hy as (h2 & I2 & Hy).
  pose proof (helper_labels ms svc hs' H') as L. rewrite Forall_forall in L. destruct (L h2 I2) as (m2 & Im2 & _ & _ & E2). rewrite E2 in Hy. apply in_map_iff in Hy.
  destruct Hy as (k2 & E & Hk2). apply in_seq in Hk2. rewrite Forall_forall in L2. specialize (L2 m2 Im2). apply short_labels in E; [|lia|lia].
  apply D1. rewrite <- E. apply in_map. exact Im2.
Qed.
Print Assumptions c67_ten_bindings.

(** ** Services whose names do not compile, and one whose names do. *)
Definition mth (n : str) (binds : nat) : smethod := mkSMeth n (mkFT (T "Req") None None None None true false) (mkFT (T "Resp") None None None None true false) (repeat (mkSBind (T "get") (T "/v1") []) binds).
Definition svc_of (l : list (str * nat)) : list smethod := map (fun p => mth (fst p) (snd p)) l.
Definition input_of (l : list (str * nat)) (transport : str) : option input :=
  match new_helper [] (svc_of l) with Ret hs => Some (rendered (T "Shop") (svc_of l) hs transport) | _ => None end.
(** What protoc-gen-go and protoc-gen-go-grpc declare for these examples. *)
Definition pb0 : list str := [T "Req"; T "Resp"; T "ShopClient"; T "NewShopClient"; T "ShopServer"; T "UnimplementedShopServer"; T "RegisterShopServer"; T "Shop_ServiceDesc"].
Definition compiles (l : list (str * nat)) (transport : str) (pb : list str) : Prop := exists i, input_of l transport = Some i /\ names_compile i pb.
Fixpoint scopesb (l : list (list str)) : bool := match l with [] => true | s :: l' => nodupb s && forallb identb s && scopesb l' end.
Definition compilesb (l : list (str * nat)) (transport : str) (pb : list str) : bool :=
  match input_of l transport with Some i => inc_used i && scopesb (scopes i pb) | None => false end.
Lemma nodupb_iff : forall l, nodupb l = true <-> NoDup l.
Proof.
  intro l. split; [apply nodup_dec|]. induction 1 as [|x l H _ IH]; [reflexivity|]. cbn [nodupb]. rewrite IH, Bool.andb_true_r. apply Bool.negb_true_iff.
  apply Bool.not_true_iff_false. intro K. apply existsb_exists in K. destruct K as (y & Iy & E). apply str_eqb_eq in E. subst y. contradiction.
Qed.
Lemma identb_iff : forall s, identb s = true <-> ident s.
Proof.
  intro s. split; [apply ident_b|]. intros [H K]. unfold identb. apply andb_true_intro. split.
  - destruct s as [|c s]; [destruct H|]. destruct H as [H1 H2]. apply andb_true_intro. split; [apply Bool.orb_true_iff; rewrite N.eqb_eq; exact H1|].
    apply forallb_forall. intros x Hx. apply ident_rune_b. rewrite Forall_forall in H2. auto.
  - apply Bool.negb_true_iff. apply Bool.not_true_iff_false. intro E. apply existsb_exists in E. destruct E as (y & Iy & E). apply str_eqb_eq in E. subst y. contradiction.
Qed.
Lemma scopesb_iff : forall l, scopesb l = true <-> Forall scope_ok l.
Proof.
  induction l as [|s l IH]; cbn [scopesb]; [split; [intros _; constructor|reflexivity]|]. rewrite !Bool.andb_true_iff, nodupb_iff, forallb_forall, IH. split.
  - intros ((H1 & H2) & H3). constructor; [|exact H3]. split; [exact H1|]. apply Forall_forall. intros x Hx. apply identb_iff. auto.
  - intro H. inversion H as [|? ? [H1 H2] H3]; subst. split; [split; [exact H1|]|exact H3]. intros x Hx. apply identb_iff. rewrite Forall_forall in H2. auto.
Qed.
Lemma compilesb_iff : forall l tr pb, compilesb l tr pb = true <-> compiles l tr pb.
Proof.
  intros l tr pb. unfold compilesb, compiles. destruct (input_of l tr) as [i|].
  - rewrite Bool.andb_true_iff, scopesb_iff. split; [intros [H1 H2]; exists i; split; [reflexivity|split; assumption]|]. intros (j & E & H1 & H2). injection E as <-. split; assumption.
  - split; [discriminate|]. intros (i & E & _). discriminate.
Qed.
Ltac no := let K := fresh in intro K; apply (proj2 (compilesb_iff _ _ _)) in K; vm_compute in K; discriminate K.
Ltac yes := apply compilesb_iff; vm_compute; reflexivity.
(** Names that differ only in case: fine over HTTP alone, refused by the Go compiler with gRPC or NATS. *)
Theorem c67_case_refuted : ~ compiles [(T "GetX", 1%nat); (T "Getx", 1%nat)] (T "grpc") pb0 /\ ~ compiles [(T "GetX", 1%nat); (T "Getx", 1%nat)] (T "nats") pb0
  /\ compiles [(T "GetX", 1%nat); (T "Getx", 1%nat)] (T "http") pb0.
Proof. split; [no|]. split; [no|yes]. Qed.
(** A name whose lower case is a Go keyword: refused with gRPC only. *)
Theorem c67_keyword_refuted : ~ compiles [(T "Select", 1%nat)] (T "all") pb0 /\ ~ compiles [(T "Import", 0%nat)] (T "grpc") pb0 /\ compiles [(T "Select", 1%nat)] (T "nats") pb0.
Proof. split; [no|]. split; [no|yes]. Qed.
(** Pairs Foo and FooEndpoint, and names the template uses itself. *)
Theorem c67_reserved_refuted : ~ compiles [(T "Foo", 1%nat); (T "FooEndpoint", 1%nat)] (T "http") pb0 /\ ~ compiles [(T "WrapAllExcept", 0%nat)] (T "http") pb0
  /\ ~ compiles [(T "Foo", 1%nat)] (T "http") (T "Endpoints" :: pb0) /\ ~ compiles [(T "Foo", 1%nat)] (T "http") (T "DecodeHTTPFooResponse" :: pb0).
Proof. split; [no|]. split; [no|]. split; no. Qed.
(** A service without methods. *)
Theorem c67_empty_refuted : forall transport pb, ~ compiles [] transport pb.
Proof. intros tr pb (i & E & H & _). cbn in E. injection E as <-. discriminate. Qed.
(** The eleventh binding of Foo and the first of FooOne; ten bindings are fine. *)
Theorem c67_eleven_refuted : ~ compiles [(T "Foo", 11%nat); (T "FooOne", 1%nat)] (T "http") pb0 /\ compiles [(T "Foo", 10%nat); (T "FooOne", 1%nat)] (T "http") pb0.
Proof. split; [no|yes]. Qed.
(** The hypotheses of the theorem hold of a service with several bindings and all transports, and its names compile. *)
Example c67_ex : forall hs, new_helper [] (svc_of [(T "GetItem", 2%nat); (T "Put_Item", 1%nat); (T "Watch", 0%nat)]) = Ret hs ->
  Forall (fun m => exported_ident (sm_name m) /\ go_camel_case (sm_name m) = sm_name m) (svc_of [(T "GetItem", 2%nat); (T "Put_Item", 1%nat); (T "Watch", 0%nat)]) /\
  exported_ident (T "Shop") /\ scope_ok pb0 /\ name_rules (rendered (T "Shop") (svc_of [(T "GetItem", 2%nat); (T "Put_Item", 1%nat); (T "Watch", 0%nat)]) hs (T "all")) pb0.
Proof.
  assert (X : forall s, match s with c :: s' => is_upper c && forallb (fun d => is_alnum d || N.eqb d c_underscore) s' | [] => false end = true -> exported_ident s).
  { intros [|c s] H; [discriminate|]. apply andb_prop in H. destruct H as [H1 H2]. split; [exact H1|]. rewrite forallb_forall in H2. apply Forall_forall. intros d Hd. specialize (H2 d Hd).
    apply Bool.orb_true_iff in H2. rewrite N.eqb_eq in H2. exact H2. }
  intros hs H. assert (S : Forall (fun m => exported_ident (sm_name m) /\ go_camel_case (sm_name m) = sm_name m) (svc_of [(T "GetItem", 2%nat); (T "Put_Item", 1%nat); (T "Watch", 0%nat)])).
  { repeat (apply Forall_cons; [split; [apply X; reflexivity|reflexivity]|]). apply Forall_nil. }
  assert (P : scope_ok pb0) by (split; [apply nodup_dec; reflexivity|apply fixed_idents; reflexivity]).
  split; [exact S|]. split; [apply X; reflexivity|]. split; [exact P|]. apply (c67_names_compile _ _ _ _ _ _ H (X (T "Shop") eq_refl) S P).
  assert (C : compiles [(T "GetItem", 2%nat); (T "Put_Item", 1%nat); (T "Watch", 0%nat)] (T "all") pb0) by yes.
  destruct C as (i & E & C). unfold input_of in E. rewrite H in E. injection E as <-. exact C.
Qed.

(** ** C68: the variables of a decoder.  The Go names of the path parameters, of the options of the oneofs in the query, and
    of these oneofs. *)
From Coq Require Import Permutation.
Definition in_path (p : hparam) : bool := usable p && str_eqb (pm_loc p) (T "path").
Definition path_names (ps : list hparam) : list str := map (fun p => go_camel_case (fd_name (pm_field p))) (filter in_path ps).
Definition query_oneofs (ps : list hparam) : list hparam := filter (fun p => is_oneof p && str_eqb (pm_loc p) (T "query")) ps.
Definition oneof_names (ps : list hparam) : list str := map (fun p => fd_name (pm_field p)) (query_oneofs ps).
Definition query_options (ps : list hparam) : list str :=
  flat_map (fun p => match ft_oneof (fd_type (pm_field p)) with Some os => map (fun o => go_camel_case (fd_name o)) os | None => [] end) (query_oneofs ps).

Lemma not_same_end : forall a b, ~ same_end a b -> compat (rev a) (rev b) = false.
Proof.
  intros a b H. apply Bool.not_true_iff_false. intro K. apply H. unfold compat in K.
  assert (P : forall p s, has_prefix s p = true -> exists r, s = p ++ r).
  { induction p as [|c p IH]; intros s E; [exists s; reflexivity|]. destruct s as [|d s]; [discriminate|]. cbn [has_prefix] in E. apply andb_prop in E.
    destruct E as [E1 E2]. apply N.eqb_eq in E1. subst d. destruct (IH _ E2) as (r & ->). exists r. reflexivity. }
  apply Bool.orb_true_iff in K. destruct K as [K|K]; apply P in K; destruct K as (r & E); apply (f_equal (@rev N)) in E; rewrite rev_app_distr, !rev_involutive in E;
    exists (rev r); [left|right]; exact E.
Qed.
Definition str_dec : forall a b : str, {a = b} + {a <> b} := list_eq_dec N.eq_dec.
Lemma perm_pairs : forall (A B : Type) (a b : A -> B) l, Permutation (flat_map (fun x => [a x; b x]) l) (map a l ++ map b l).
Proof.
  intros A B a b. induction l as [|x l IH]; [constructor|]. cbn [flat_map map app]. apply Permutation_cons; [reflexivity|].
  rewrite IH. apply Permutation_middle.
Qed.
Lemma perm_triples : forall (A B : Type) (a b c : A -> B) l, Permutation (flat_map (fun x => [a x; b x; c x]) l) (map a l ++ map b l ++ map c l).
Proof.
  intros A B a b c. induction l as [|x l IH]; [constructor|]. cbn [flat_map map app]. apply Permutation_cons; [reflexivity|]. rewrite IH.
  etransitivity; [|apply Permutation_middle]. apply Permutation_cons; [reflexivity|].
  rewrite !app_assoc. apply Permutation_middle.
Qed.
Ltac perm := apply (proj2 (Permutation_count_occ str_dec _ _)); let x := fresh in intro x; rewrite ?count_occ_app; lia.
(** The locals of a binding. *)
Definition path_of (b : hbind) : list str := map hf_local (filter (fun f => str_eqb (hf_loc f) (T "path")) (hb_fields b)).
Definition oneofs_of (b : hbind) : list honeof := filter (fun o => str_eqb (ho_loc o) (T "query")) (hb_oneofs b).
Definition options_of (b : hbind) : list str := flat_map (fun o => map hf_local (ho_options o)) (oneofs_of b).
Definition head_locals : list str := [T "r"; T "req"; T "buf"; T "err"; T "pathParams"; T "queryParams"].
Lemma perm_path : forall fs, Permutation (flat_map path_locals fs)
  (each [] (map hf_local (filter (fun f => str_eqb (hf_loc f) (T "path")) fs)) (T "Str") ++ map hf_local (filter (fun f => str_eqb (hf_loc f) (T "path")) fs)).
Proof.
  intro fs. unfold each. rewrite map_map. etransitivity; [|apply perm_pairs].
  assert (E : forall l, flat_map path_locals l = flat_map (fun f => [hf_local f ++ T "Str"; hf_local f]) (filter (fun f => str_eqb (hf_loc f) (T "path")) l)).
  { induction l as [|f l IH]; [reflexivity|]. cbn [flat_map filter]. rewrite IH. unfold path_locals at 1. destruct (str_eqb (hf_loc f) (T "path")); reflexivity. }
  rewrite E. reflexivity.
Qed.
Lemma perm_options : forall os, Permutation (flat_map option_locals os)
  (each [] (map hf_local os) (T "Str") ++ each [] (map hf_local os) (T "StrArr") ++ each [] (map hf_local os) (T "OK")).
Proof. intro os. unfold each. rewrite !map_map. apply perm_triples. Qed.
Lemma each_app : forall p a b s, each p (a ++ b) s = each p a s ++ each p b s.
Proof. intros. unfold each. apply map_app. Qed.
Lemma perm_oneofs : forall l, Permutation (flat_map oneof_locals l)
  (let q := filter (fun o => str_eqb (ho_loc o) (T "query")) l in let xs := flat_map (fun o => map hf_local (ho_options o)) q in
   each [] (map ho_name q) (T "CountSet") ++ each [] xs (T "Str") ++ each [] xs (T "StrArr") ++ each [] xs (T "OK")).
Proof.
  induction l as [|o l IH]; [constructor|]. cbn [flat_map filter]. unfold oneof_locals at 1. destruct (str_eqb (ho_loc o) (T "query")); [|exact IH].
  cbn [flat_map map]. cbv zeta in *. rewrite !each_app. unfold each at 1. cbn [map app]. apply Permutation_cons; [reflexivity|]. fold (each [] (map ho_name (filter (fun o => str_eqb (ho_loc o) (T "query")) l)) (T "CountSet")).
  rewrite IH, perm_options. clear IH. set (A := each [] (map hf_local (ho_options o)) (T "Str")). set (B := each [] (map hf_local (ho_options o)) (T "StrArr")). set (C := each [] (map hf_local (ho_options o)) (T "OK")).
  set (q := filter _ l). set (xs := flat_map _ q). set (N0 := each [] (map ho_name q) (T "CountSet")). set (A' := each [] xs (T "Str")). set (B' := each [] xs (T "StrArr")). set (C' := each [] xs (T "OK")).
  change (map (fun n : list N => n ++ T "CountSet") (map ho_name q)) with N0. perm.
Qed.
Definition local_groups (b : hbind) (M : str) : list group :=
  [family [] (path_of b ++ options_of b) (T "Str"); mkG [] M (path_of b); family [] (map ho_name (oneofs_of b)) (T "CountSet");
   family [] (options_of b) (T "StrArr"); family [] (options_of b) (T "OK")].
Lemma perm_locals : forall b M, Permutation (decoder_locals b) (head_locals ++ concat (map g_names (local_groups b M))).
Proof.
  intros b M. unfold decoder_locals. apply (Permutation_app_head head_locals). rewrite perm_path, perm_oneofs. cbv zeta. fold (path_of b). fold (oneofs_of b). fold (options_of b).
  unfold local_groups. cbn [map concat g_names family]. rewrite app_nil_r, each_app.
  perm.
Qed.

Lemma perm_nodup : forall (l l' : list str), Permutation l l' -> (NoDup l <-> NoDup l').
Proof. intros l l' H. split; intro N; [eapply Permutation_NoDup; [exact H|exact N]|eapply Permutation_NoDup; [apply Permutation_sym; exact H|exact N]]. Qed.
Lemma options_locals : forall ms meth parent os xs, new_options ms meth parent os = Ret xs -> map hf_local xs = map (fun o => go_camel_case (fd_name o) ++ go_camel_case meth) os.
Proof.
  intros ms meth parent. induction os as [|o os IH]; intros xs H; cbn [new_options] in H; [injection H as <-; reflexivity|].
  destruct (new_option ms meth parent o) as [x| |] eqn:E; try discriminate. destruct (new_options ms meth parent os) as [xs'| |]; try discriminate. injection H as <-.
  cbn [map]. rewrite (IH xs' eq_refl). f_equal. unfold new_option in E. destruct (ft_msg (fd_type o)); try discriminate. injection E as <-. reflexivity.
Qed.
Lemma oneof_parts : forall ms meth ps os, oneof_loop ms meth ps = Ret os -> let q := filter (fun o => str_eqb (ho_loc o) (T "query")) os in
  map ho_name q = oneof_names ps /\ flat_map (fun o => map hf_local (ho_options o)) q = each [] (query_options ps) (go_camel_case meth).
Proof.
  intros ms meth. induction ps as [|p ps IH]; intros os H; cbn [oneof_loop] in H; [injection H as <-; split; reflexivity|].
  unfold oneof_names, query_options, query_oneofs. cbn [filter]. destruct (is_oneof p) eqn:Eo; unfold is_oneof in Eo; destruct (ft_oneof (fd_type (pm_field p))) as [fs|] eqn:Ef; try discriminate; [|apply IH; exact H].
  destruct (new_options ms meth (pm_field p) fs) as [xs| |] eqn:Ex; try discriminate. destruct (oneof_loop ms meth ps) as [r| |] eqn:Er; try discriminate. injection H as <-.
  specialize (IH r eq_refl). cbv zeta in *. destruct IH as [IH1 IH2]. cbn [filter ho_loc andb]. destruct (str_eqb (pm_loc p) (T "query")); [|split; [exact IH1|exact IH2]].
  cbn [map flat_map ho_name ho_options]. rewrite Ef, IH1, IH2. split; [reflexivity|]. rewrite each_app. f_equal. rewrite (options_locals _ _ _ _ _ Ex). unfold each. rewrite map_map. reflexivity.
Qed.
Lemma field_parts : forall meth ps, map hf_local (filter (fun f => str_eqb (hf_loc f) (T "path")) (field_loop meth ps)) = each [] (path_names ps) (go_camel_case meth).
Proof.
  intros meth. induction ps as [|p ps IH]; [reflexivity|]. unfold path_names in *. cbn [field_loop flat_map filter]. unfold in_path at 1, usable.
  destruct (ft_oneof (fd_type (pm_field p))) as [fs|] eqn:Ef; [exact IH|]. destruct (ft_name (fd_type (pm_field p))) as [|c n] eqn:En; cbn [str_eqb]; [exact IH|]. cbn [app filter andb].
  unfold new_hfield at 1. cbn [hf_loc]. destruct (str_eqb (pm_loc p) (T "path")) eqn:El; [|exact IH]. cbn [map]. unfold each. cbn [map]. f_equal. exact IH.
Qed.
Lemma exported_app : forall a b, exported_ident a -> Forall ident_rune b -> exported_ident (a ++ b).
Proof. intros [|c a] b H Hb; [destruct H|]. destruct H as [H1 H2]. split; [exact H1|]. apply Forall_app. split; [exact H2|exact Hb]. Qed.

(** With a quiet method name, the variables at the top of a decoder are different identifiers exactly if the Go names of the
    path parameters and the options differ, and those of the oneofs. *)
Theorem c68_decoder_scope : forall ms i m sb b, nth_error (sm_bindings m) i = Some sb -> new_binding ms i m = Ret b ->
  exported_ident (go_camel_case (sm_name m)) -> quiet (go_camel_case (sm_name m)) ->
  Forall exported_ident (path_names (sb_params sb) ++ query_options (sb_params sb) ++ oneof_names (sb_params sb)) ->
  (scope_ok (decoder_locals b) <-> NoDup (path_names (sb_params sb) ++ query_options (sb_params sb)) /\ NoDup (oneof_names (sb_params sb))).
Proof.
  intros ms i m sb b Hb Hn HM HQ HX. set (M := go_camel_case (sm_name m)) in *. set (ps := sb_params sb) in *.
  assert (F : path_of b = each [] (path_names ps) M /\ options_of b = each [] (query_options ps) M /\ map ho_name (oneofs_of b) = oneof_names ps).
  { unfold new_binding in Hn. rewrite Hb in Hn. destruct (oneof_loop ms (sm_name m) (sb_params sb)) as [os| |] eqn:Eo; try discriminate. injection Hn as <-.
    destruct (oneof_parts _ _ _ _ Eo) as [O1 O2]. split; [apply field_parts|]. split; [exact O2|exact O1]. }
  destruct F as (F1 & F2 & F3). apply Forall_app in HX. destruct HX as [X1 HX]. apply Forall_app in HX. destruct HX as [X2 X3].
  assert (L1 : Forall exported_ident (path_of b ++ options_of b)).
  { rewrite F1, F2, <- each_app. unfold each. apply Forall_map. apply (@Forall_impl str exported_ident (fun n => exported_ident ([] ++ n ++ M))).
    - intros n H. cbn [app]. apply exported_app; [exact H|]. apply exported_runes. exact HM.
    - apply Forall_app. split; assumption. }
  assert (Hc : forall s, In s [T "Str"; T "StrArr"; T "OK"; T "CountSet"] -> compat (rev M) (rev s) = false) by (intros s Hs; apply not_same_end; exact (HQ s Hs)).
  assert (Hc2 : forall s, In s [T "Str"; T "StrArr"; T "OK"; T "CountSet"] -> compat (rev s) (rev M) = false).
  { intros s Hs. unfold compat. rewrite Bool.orb_comm. exact (Hc s Hs). }
  assert (G : all_apart (local_groups b M) = true).
  { unfold local_groups, all_apart. cbn [forallb]. unfold apart. cbn [g_pre g_suf family]. rewrite !Hc, !Hc2 by (cbn [In]; auto). reflexivity. }
  assert (Sh : Forall shaped (local_groups b M)).
  { unfold local_groups. constructor; [apply shaped_family|]. constructor; [|repeat (constructor; [apply shaped_family|]); constructor]. rewrite F1. unfold shaped. cbn [g_names g_pre g_suf].
    unfold each. apply Forall_map. apply Forall_forall. intros n _. split; [eexists; reflexivity|exists n; reflexivity]. }
  assert (GE : Forall exported_ident (concat (map g_names (local_groups b M)))).
  { assert (S : forall l s, Forall exported_ident l -> forallb ident_runeb s = true -> Forall exported_ident (each [] l s)).
    { intros l s Hl Hs. unfold each. apply Forall_map. eapply Forall_impl; [|exact Hl]. intros n H. cbn [app]. apply exported_app; [exact H|]. apply Forall_forall. intros c Hc0.
      apply ident_rune_b. rewrite forallb_forall in Hs. auto. }
    pose proof L1 as L2. apply Forall_app in L2. destruct L2 as [L2 L3]. unfold local_groups. cbn [map concat g_names family]. rewrite app_nil_r, F3. repeat (apply Forall_app; split);
      try (apply S; [assumption|reflexivity]); assumption. }
  unfold scope_ok. rewrite (perm_nodup _ _ (perm_locals b M)), nodup_app_iff, (nodup_groups _ Sh G). split.
  - intros ((_ & N & _) & _). unfold local_groups in N. inversion N as [|? ? N1 N']; subst. inversion N' as [|? ? _ N'']; subst. inversion N'' as [|? ? N3 _]; subst.
    cbn [g_names family] in N1, N3. rewrite each_nodup in N1, N3. rewrite F1, F2, <- each_app, each_nodup in N1. rewrite F3 in N3. split; assumption.
  - intros (N1 & N2). split; [split; [apply nodup_dec; reflexivity|split]|].
    + assert (N3 : NoDup (path_of b ++ options_of b)) by (rewrite F1, F2, <- each_app, each_nodup; exact N1).
      pose proof N3 as N4. apply nodup_app_iff in N4. destruct N4 as (N4 & N5 & _). unfold local_groups.
      repeat (constructor; [cbn [g_names family]; rewrite ?each_nodup, ?F3; assumption|]). constructor.
    + intros x Hx Hy. rewrite Forall_forall in GE. specialize (GE x Hy). cbn [In head_locals] in Hx.
      repeat (destruct Hx as [<-|Hx]; [destruct GE as [GE _]; discriminate|]). destruct Hx.
    + apply Forall_forall. intros x Hx. apply (Permutation_in _ (perm_locals b M)) in Hx. apply in_app_or in Hx. destruct Hx as [Hx|Hx].
      * assert (H : Forall ident head_locals) by (apply fixed_idents; reflexivity). rewrite Forall_forall in H. auto.
      * apply exported_is_ident. rewrite Forall_forall in GE. auto.
Qed.
Print Assumptions c68_decoder_scope.
(** The block of a query parameter. *)
Theorem c68_query_scope : forall m p, exported_ident (go_camel_case (sm_name m)) -> exported_ident (go_camel_case (fd_name (pm_field p))) ->
  Forall scope_ok (query_locals (new_hfield (sm_name m) p)).
Proof.
  intros m p HM Hp. unfold query_locals, new_hfield. cbn [hf_local]. set (x := go_camel_case _ ++ _).
  assert (X : exported_ident x) by (apply exported_app; [exact Hp|apply exported_runes; exact HM]).
  assert (XS : forall s, forallb ident_runeb s = true -> ident (x ++ s)) by (intros s Hs; apply exported_suffix; assumption).
  constructor; [|constructor; [|constructor]]; split.
  - constructor; [|constructor; [intros []|constructor]]. intros [E|[]]. apply (f_equal (@length N)) in E. rewrite app_length in E. change (length (T "ok")) with 2%nat in E. change (length (T "StrArr")) with 6%nat in E. lia.
  - constructor; [apply XS; reflexivity|]. constructor; [apply ident_b; reflexivity|constructor].
  - constructor; [|constructor; [intros []|constructor]]. intros [E|[]]. apply (f_equal (@length N)) in E. rewrite app_length in E. change (length (T "Str")) with 3%nat in E. lia.
  - constructor; [apply XS; reflexivity|]. constructor; [apply exported_is_ident; exact X|constructor].
Qed.
Print Assumptions c68_query_scope.

(** Every variable of a decoder is one of a few lower-case words or ends in the method's name or in one of four words. *)
Definition few_words : list str := [T "r"; T "req"; T "buf"; T "err"; T "pathParams"; T "queryParams"; T "ok"].
Theorem c68_local_shape : forall ms i m sb b x, nth_error (sm_bindings m) i = Some sb -> new_binding ms i m = Ret b -> In x (all_locals b) ->
  In x few_words \/ exists y s, In s [go_camel_case (sm_name m); T "Str"; T "StrArr"; T "OK"; T "CountSet"] /\ x = y ++ s.
Proof.
  intros ms i m sb b x Hb Hn Hx. unfold new_binding in Hn. rewrite Hb in Hn. destruct (oneof_loop ms (sm_name m) (sb_params sb)) as [os| |] eqn:Eo; try discriminate. injection Hn as <-.
  unfold all_locals, decoder_locals in Hx. cbn [hb_fields hb_oneofs] in Hx. set (fs := field_loop (sm_name m) (sb_params sb)) in *.
  assert (LF : forall f, In f fs -> exists y, hf_local f = y ++ go_camel_case (sm_name m)).
  { intros f Hf. unfold fs, field_loop in Hf. apply in_flat_map in Hf. destruct Hf as (p & _ & Hf). destruct (ft_oneof _); [destruct Hf|]. destruct (str_eqb _ _); [destruct Hf|].
    destruct Hf as [<-|[]]. eexists. reflexivity. }
  assert (LO : forall o f, In o os -> In f (ho_options o) -> exists y, hf_local f = y ++ go_camel_case (sm_name m)).
  { clear -Eo. revert os Eo. induction (sb_params sb) as [|p ps IH]; intros os Eo o f Ho Hf; cbn [oneof_loop] in Eo; [injection Eo as <-; destruct Ho|].
    destruct (ft_oneof (fd_type (pm_field p))) as [l|]; [|exact (IH os Eo o f Ho Hf)]. destruct (new_options _ _ _ l) as [xs| |] eqn:Ex; try discriminate.
    destruct (oneof_loop ms (sm_name m) ps) as [r| |]; try discriminate. injection Eo as <-. destruct Ho as [<-|Ho]; [|exact (IH r eq_refl o f Ho Hf)].
    cbn [ho_options] in Hf. apply (in_map hf_local) in Hf. rewrite (options_locals _ _ _ _ _ Ex) in Hf. apply in_map_iff in Hf. destruct Hf as (z & E & _). eexists. symmetry. exact E. }
  assert (W : forall y s, In s [go_camel_case (sm_name m); T "Str"; T "StrArr"; T "OK"; T "CountSet"] -> In (y ++ s) few_words \/ exists y' s', In s' [go_camel_case (sm_name m); T "Str"; T "StrArr"; T "OK"; T "CountSet"] /\ y ++ s = y' ++ s').
  { intros y s Hs. right. exists y, s. split; [exact Hs|reflexivity]. }
  rewrite !in_app_iff in Hx. destruct Hx as [[Hx|[Hx|Hx]]|[Hx|Hx]].
  - left. cbn [In few_words] in *. tauto.
  - apply in_flat_map in Hx. destruct Hx as (f & If & Hx). unfold path_locals in Hx. destruct (str_eqb _ _); [|destruct Hx]. destruct Hx as [<-|[<-|[]]]; [apply W; cbn [In]; auto|].
    destruct (LF f If) as (y & ->). apply W. cbn [In]. auto.
  - apply in_flat_map in Hx. destruct Hx as (o & Io & Hx). unfold oneof_locals in Hx. destruct (str_eqb _ _); [|destruct Hx]. destruct Hx as [<-|Hx]; [apply W; cbn [In]; auto 6|].
    apply in_flat_map in Hx. destruct Hx as (f & If & Hx). destruct Hx as [<-|[<-|[<-|[]]]]; apply W; cbn [In]; auto 6.
  - apply in_flat_map in Hx. destruct Hx as (f & If & Hx). destruct (str_eqb _ _); [destruct Hx|]. destruct Hx as [<-|[<-|[<-|[<-|[]]]]]; [apply W; cbn [In]; auto 6|left; cbn [few_words In]; auto 8|apply W; cbn [In]; auto 6|].
    destruct (LF f If) as (y & ->). apply W. cbn [In]. auto.
  - apply in_flat_map in Hx. destruct Hx as (o & Io & Hx). apply in_map_iff in Hx. destruct Hx as (f & <- & If). destruct (LO o f Io If) as (y & ->). apply W. cbn [In]. auto.
Qed.
Print Assumptions c68_local_shape.
(** So no variable of a decoder hides an imported package, if the method's name is exported ... *)
Theorem c68_imports_visible : forall ms i m sb b inp x, nth_error (sm_bindings m) i = Some sb -> new_binding ms i m = Ret b ->
  exported_ident (go_camel_case (sm_name m)) -> In x (imports inp) -> ~ In x (all_locals b).
Proof.
  intros ms i m sb b inp x Hb Hn HM Hi Hx. destruct (c68_local_shape ms i m sb b x Hb Hn Hx) as [K|(y & s & Hs & ->)].
  - assert (A : forallb (fun w => negb (existsb (str_eqb w) few_words)) (imports inp) = true) by (unfold imports; destruct (with_grpc inp), (with_nats inp); reflexivity).
    rewrite forallb_forall in A. specialize (A x Hi). apply Bool.negb_true_iff in A. assert (B : existsb (str_eqb x) few_words = true) by (apply existsb_exists; exists x; split; [exact K|apply str_eqb_refl]). congruence.
  - assert (A : forallb (fun w => negb (existsb is_upper w)) (imports inp) = true) by (unfold imports; destruct (with_grpc inp), (with_nats inp); reflexivity).
    rewrite forallb_forall in A. specialize (A _ Hi). rewrite existsb_app, Bool.negb_orb in A. apply andb_prop in A. destruct A as [_ A]. apply Bool.negb_true_iff in A.
    destruct Hs as [<-|Hs]; [rewrite exported_has_upper in A by exact HM; discriminate|]. repeat (destruct Hs as [<-|Hs]; [discriminate|]). destruct Hs.
Qed.
Print Assumptions c68_imports_visible.
(** ... and none hides a type the decoder names, if that type's name ends in none of these words. *)
Theorem c68_types_visible : forall ms i m sb b t, nth_error (sm_bindings m) i = Some sb -> new_binding ms i m = Ret b ->
  In t (decoder_types b) -> exported_ident t -> (forall y s, In s [go_camel_case (sm_name m); T "Str"; T "StrArr"; T "OK"; T "CountSet"] -> t <> y ++ s) -> ~ In t (all_locals b).
Proof.
  intros ms i m sb b t Hb Hn _ He Ht Hx. destruct (c68_local_shape ms i m sb b t Hb Hn Hx) as [K|(y & s & Hs & ->)]; [|exact (Ht y s Hs eq_refl)].
  cbn [few_words In] in K. repeat (destruct K as [<-|K]; [destruct He as [He _]; discriminate|]). destruct K.
Qed.
Print Assumptions c68_types_visible.

(** ** What goes wrong. *)
Definition rpc (n : str) (verb path : str) (ps : list hparam) : smethod :=
  mkSMeth n (mkFT (T "Req") None None None None true false) (mkFT (T "Resp") None None None None true false) [mkSBind verb path ps].
Definition sc (n : str) : ftype := mkFT n None None None None false false.
Definition opt_of (n pb w : str) : field := mkFld n pb (mkFT (T "string") None None (Some (MSynth w)) None true false).
Definition oneof_of (n pb : str) (os : list field) : hparam := mkParam (mkFld n pb (mkFT [] None (Some os) None None false false)) (T "query").
(** A method called Set, a path parameter foo_count and a oneof foo: FooCountSet is declared twice. *)
Definition clash_ps : list hparam := [mkParam (mkFld (T "FooCount") (T "foo_count") (sc (T "string"))) (T "path"); oneof_of (T "Foo") (T "foo") [opt_of (T "A") (T "a") (T "Req_A")]].
Theorem c68_set_refuted : exists b, new_binding [] 0 (rpc (T "Set") (T "get") (T "/v1/{foo_count}") clash_ps) = Ret b /\ ~ NoDup (decoder_locals b)
  /\ NoDup (path_names clash_ps ++ query_options clash_ps) /\ NoDup (oneof_names clash_ps).
Proof.
  eexists. split; [vm_compute; reflexivity|]. split; [|split; apply nodup_dec; reflexivity]. intro K. apply nodupb_iff in K. vm_compute in K. discriminate.
Qed.
(** Proto names that become the same Go name. *)
Theorem c68_camel_refuted : exists b, new_binding [] 0 (rpc (T "Get") (T "get") (T "/v1/{a_b}/{aB}")
    [mkParam (mkFld (T "AB") (T "a_b") (sc (T "string"))) (T "path"); mkParam (mkFld (T "AB") (T "aB") (sc (T "string"))) (T "path")]) = Ret b /\ ~ NoDup (decoder_locals b).
Proof. eexists. split; [vm_compute; reflexivity|]. intro K. apply nodupb_iff in K. vm_compute in K. discriminate. Qed.
(** A method Status with a field order of the enum OrderStatus: the variable OrderStatus hides the type it is converted to. *)
Theorem c68_hidden_type_refuted : exists b, new_binding [] 0 (rpc (T "Status") (T "get") (T "/v1/{order}")
    [mkParam (mkFld (T "Order") (T "order") (mkFT (T "OrderStatus") (Some 0) None None None false false)) (T "path")]) = Ret b
  /\ In (T "OrderStatus") (decoder_types b) /\ In (T "OrderStatus") (decoder_locals b) /\ map hf_tconv (hb_fields b) = [TcCast (T "OrderStatus")] /\ map hf_local (hb_fields b) = [T "OrderStatus"].
Proof.
  eexists. split; [vm_compute; reflexivity|]. split; [left; reflexivity|]. split; [do 7 right; left; reflexivity|]. split; reflexivity.
Qed.
(** A decoder the theorems apply to: two path parameters, and a oneof with two options. *)
Definition good_ps : list hparam :=
  [mkParam (mkFld (T "Id") (T "id") (sc (T "int64"))) (T "path"); mkParam (mkFld (T "Kind") (T "kind") (mkFT (T "Kind") (Some 0) None None None false false)) (T "path");
   oneof_of (T "Choice") (T "choice") [opt_of (T "A") (T "a") (T "Req_A"); opt_of (T "B") (T "b") (T "Req_B")]].
Example c68_ex : exported_ident (go_camel_case (T "GetItem")) /\ quiet (go_camel_case (T "GetItem")) /\ Forall exported_ident (path_names good_ps ++ query_options good_ps ++ oneof_names good_ps)
  /\ exists b, new_binding [] 0 (rpc (T "GetItem") (T "get") (T "/v1/{id}/{kind}") good_ps) = Ret b /\ scope_ok (decoder_locals b) /\ length (decoder_locals b) = 17%nat
     /\ In (T "Kind") (decoder_types b) /\ forall y s, In s [T "GetItem"; T "Str"; T "StrArr"; T "OK"; T "CountSet"] -> T "Kind" <> y ++ s.
Proof.
  assert (X : forall s, match s with c :: s' => is_upper c && forallb (fun d => is_alnum d || N.eqb d c_underscore) s' | [] => false end = true -> exported_ident s).
  { intros [|c s] H; [discriminate|]. apply andb_prop in H. destruct H as [H1 H2]. split; [exact H1|]. rewrite forallb_forall in H2. apply Forall_forall. intros d Hd. specialize (H2 d Hd).
    apply Bool.orb_true_iff in H2. rewrite N.eqb_eq in H2. exact H2. }
  assert (Q : quiet (go_camel_case (T "GetItem"))).
  { intros s Hs (x & E). assert (C : compat (rev (T "GetItem")) (rev s) = true).
    { destruct E as [E|E]; [apply (same_suffix _ _ [] x)|apply (same_suffix _ _ x [])]; [exact E|symmetry; exact E]. }
    cbn [In] in Hs. repeat (destruct Hs as [<-|Hs]; [discriminate|]). destruct Hs. }
  assert (F : Forall exported_ident (path_names good_ps ++ query_options good_ps ++ oneof_names good_ps)) by (repeat (apply Forall_cons; [apply X; reflexivity|]); apply Forall_nil).
  split; [apply X; reflexivity|]. split; [exact Q|]. split; [exact F|]. destruct (new_binding [] 0 (rpc (T "GetItem") (T "get") (T "/v1/{id}/{kind}") good_ps)) as [b| |] eqn:E; try discriminate.
  exists b. split; [reflexivity|]. split.
  - eapply (c68_decoder_scope [] 0 (rpc (T "GetItem") (T "get") (T "/v1/{id}/{kind}") good_ps) (mkSBind (T "get") (T "/v1/{id}/{kind}") good_ps) b eq_refl E); [apply X; reflexivity|exact Q|exact F|].
    split; apply nodup_dec; reflexivity.
  - split; [|split].
    + vm_compute in E. injection E as <-. reflexivity.
    + vm_compute in E. injection E as <-. left. reflexivity.
    + intros y s Hs K. assert (C : compat (rev (T "Kind")) (rev s) = true) by (apply (same_suffix _ _ [] y); exact K). cbn [In] in Hs. repeat (destruct Hs as [<-|Hs]; [discriminate|]). destruct Hs.
Qed.
