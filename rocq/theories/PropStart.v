(** Property theorems C43 and C44: baron --start (internal/start). *)
From Verif Require Import GoStr GoStrProofs Scanner Lexer Unquote Parser ParserSpec Strs StrsSpec Generator GeneratorProofs SplitJoin
  Start StartSpec StartProofs StartProofs2 StartProofs3.

(** ** C43: nothing is overwritten *)
(** Whatever was there when the run began, and no other process touched, is there afterwards, unchanged. *)
Theorem c43_never_overwrites : forall e t pkg out q x, t q = Some x -> env_other e t q = Some x ->
  fst (do_start e t pkg out) q = Some x.
Proof.
  intros e t pkg out q x H1 H2. destruct (do_start e t pkg out) as [t' code] eqn:E. cbn [fst]. apply do_start_cases in E. cbv zeta in E.
  destruct E as [(_ & _ & -> & _)|(Hp & Hq & Hc)]; [exact H1|].
  destruct (list_eq_dec str_eq_dec q (target pkg out)) as [->|Hn].
  - destruct Hc as [[-> _]|(Hv & _)]; [exact H2|]. destruct Hp as [Hp|Hp]; congruence.
  - destruct (Hq q Hn) as [->|(K & _)]; [exact H2|congruence].
Qed.
Print Assumptions c43_never_overwrites.

(** If there is something by that name, nothing happens and the exit code is 1. *)
Theorem c43_existing_refused : forall e t pkg out x, env_visible e (target pkg out) = true -> t (target pkg out) = Some x ->
  do_start e t pkg out = (t, 1%Z).
Proof.
  intros e t pkg out x Hv H. destruct (do_start e t pkg out) as [t' code] eqn:E. apply do_start_cases in E. cbv zeta in E.
  destruct E as [(_ & _ & -> & ->)|([Hp|Hp] & _)]; [reflexivity|congruence|congruence].
Qed.
Print Assumptions c43_existing_refused.

(** Exit code 0 or 1; with 0 the new file has the whole text, and apart from it only directories on the way to
    it have come into being. *)
Theorem c43_exit_code : forall e t pkg out, let '(t', code) := do_start e t pkg out in
  (code = 0%Z /\ t' (target pkg out) = Some (EFile (start_proto (remove_dot_proto_suffix (given pkg)))))
  \/ code = 1%Z.
Proof.
  intros e t pkg out. destruct (do_start e t pkg out) as [t' code] eqn:E. apply do_start_cases in E. cbv zeta in E.
  destruct E as [(_ & _ & _ & ->)|(_ & _ & [[_ ->]|(_ & _ & [(H & -> & _)|(-> & _)])])]; auto.
Qed.
Print Assumptions c43_exit_code.

Theorem c43_only_one_file : forall e t pkg out q, q <> target pkg out ->
  fst (do_start e t pkg out) q = t q \/ fst (do_start e t pkg out) q = env_other e t q
  \/ (env_other e t q = None /\ fst (do_start e t pkg out) q = Some EDir /\ above q (target pkg out)).
Proof.
  intros e t pkg out q Hn. destruct (do_start e t pkg out) as [t' code] eqn:E. cbn [fst]. apply do_start_cases in E. cbv zeta in E.
  destruct E as [(_ & _ & -> & _)|(_ & Hq & _)]; [left; reflexivity|]. right. exact (Hq q Hn).
Qed.
Print Assumptions c43_only_one_file.

(** A second run after a successful one changes nothing. *)
Theorem c43_second_run : forall e e' t pkg out t', do_start e t pkg out = (t', 0%Z) -> env_visible e' (target pkg out) = true ->
  do_start e' t' pkg out = (t', 1%Z).
Proof.
  intros e e' t pkg out t' H Hv. pose proof (c43_exit_code e t pkg out) as K. rewrite H in K. destruct K as [[_ K]|K]; [|discriminate].
  exact (c43_existing_refused e' t' pkg out _ Hv K).
Qed.
Print Assumptions c43_second_run.

(** With nothing in the way the run succeeds. *)
Definition free_env : env := mkEnv (fun _ => true) (fun _ => true) true None (fun t => t).
Theorem c43_succeeds : forall t pkg, ~ In c_slash (package_name (remove_dot_proto_suffix (given pkg))) -> t (target pkg []) = None ->
  do_start free_env t pkg [] = (put (put t (target pkg []) (EFile [])) (target pkg []) (EFile (start_proto (remove_dot_proto_suffix (given pkg)))), 0%Z).
Proof.
  intros t pkg Hs H.
  assert (Ep : target pkg [] = [package_name (remove_dot_proto_suffix (given pkg)) ++ T ".proto"]).
  { unfold target, file_name. cbn [app]. apply split1_one. intro K. apply in_app_or in K. destruct K as [K|K]; [exact (Hs K)|].
    vm_compute in K. repeat destruct K as [K|K]; discriminate || contradiction. }
  unfold do_start. fold (given pkg). fold (target pkg []). unfold stat_ok. rewrite H, Bool.andb_false_r. cbn [env_other free_env negb].
  unfold create. rewrite Ep in *. cbn [env_create env_visible free_env removelast is_dir andb]. unfold is_dir. rewrite H. reflexivity.
Qed.
Print Assumptions c43_succeeds.

(** Where it fails.  A file another process makes between os.Stat and os.Create is lost: *)
Definition empty_tree : tree := fun _ => None.
Definition there : path := [T "start.proto"].
Theorem c43_race_refuted :
  let e := mkEnv (fun _ => true) (fun _ => true) true None (fun t => put t there (EFile (T "precious"))) in
  env_other e empty_tree there = Some (EFile (T "precious"))
  /\ fst (do_start e empty_tree [] []) there = Some (EFile (start_proto (T "start"))).
Proof. split; reflexivity. Qed.
(** and a failed write leaves a file that the next run takes for the user's. *)
Theorem c43_failed_write_refuted :
  let e := mkEnv (fun _ => true) (fun _ => true) true (Some 7) (fun t => t) in
  let '(t1, c1) := do_start e empty_tree [] [] in
  c1 = 1%Z /\ t1 there <> None /\ t1 there <> Some (EFile (start_proto (T "start"))) /\ do_start free_env t1 [] [] = (t1, 1%Z).
Proof. cbv zeta. split; [reflexivity|]. split; [discriminate|]. split; [vm_compute; discriminate|]. reflexivity. Qed.

(** ** C44: legal names, and a file that baron reads *)
Theorem c44_names_legal : forall a, starter_name a ->
  lower_ident (package_name a) /\ exported_ident (service_name a)
  /\ forall out, file_name a out = out ++ [package_name a ++ T ".proto"].
Proof.
  intros a H. pose proof (package_name_ident a H) as Hp. split; [exact Hp|]. split; [exact (service_name_exported a H)|].
  intro out. unfold file_name. f_equal. apply split1_one. intro K. apply in_app_or in K. destruct K as [K|K].
  - destruct (package_name a) as [|c s]; [contradiction|]. destruct Hp as [H1 H2]. destruct K as [->|K]; [discriminate|].
    rewrite Forall_forall in H2. destruct (H2 _ K) as [K1|[K1|K1]]; discriminate.
  - vm_compute in K. repeat destruct K as [K|K]; discriminate || contradiction.
Qed.
Print Assumptions c44_names_legal.

(** The suffix .proto makes no difference. *)
Theorem c44_suffix : forall a, starter_name a -> remove_dot_proto_suffix a = a /\ remove_dot_proto_suffix (a ++ T ".proto") = a.
Proof.
  intros a H. assert (Hd : ~ In c_dot a).
  { destruct a as [|c a]; [contradiction|]. destruct H as [H1 H2]. intros [->|K]; [discriminate|]. rewrite Forall_forall in H2.
    destruct (H2 _ K) as [K1|[K1|[K1|K1]]]; discriminate. }
  split; [apply remove_free; exact Hd|apply remove_suffix; exact Hd].
Qed.
Print Assumptions c44_suffix.

(** The starter file is read by baron's own parser: one service of the given name with the rpc Status bound to
    GET /status.  (The package must not be called service.) *)
Theorem c44_starter_parses : forall U a, unicode_ok U -> starter_name a -> package_name a <> T "service" ->
  exists l, parse_text U globals0 (start_proto a)
    = Ret (POk (mkService (service_name a)
                 [mkMethod (T "Status") [] (T "StatusRequest") (T "StatusResponse")
                    [mkBinding [] [mkField (T "get") [] (T "get") (T "/status")] []]]) l, globals0).
Proof.
  intros U a HU H Hn. destruct (c44_names_legal a H) as (Hp & Hs & _).
  destruct (starter_parses U HU a (lower_ident_shape U HU _ Hp) (exported_shape U HU _ Hs) Hn) as [l E].
  - intro K. rewrite K in Hs. destruct Hs as [K1 _]. discriminate.
  - exists l. exact E.
Qed.
Print Assumptions c44_starter_parses.

(** Where it fails: a service called service, under any spelling; *)
Definition readable (a : str) : bool := match parse_text latin1 globals0 (start_proto a) with Ret (POk _ _, _) => true | _ => false end.
Theorem c44_service_refuted : readable (T "Ser-vices") = true /\ readable (T "Ser-vice") = false /\ readable (T "service") = false.
Proof. vm_compute. auto. Qed.
(** a name that is nothing but a suffix leaves no name at all; *)
Theorem c44_bare_suffix_refuted : remove_dot_proto_suffix (given (T ".proto")) = [] /\ package_name [] = [] /\ readable [] = false.
Proof. vm_compute. auto. Qed.
(** a suffix can remain; different names can mean the same file. *)
Theorem c44_suffix_refuted : remove_dot_proto_suffix (T "a.pro.prototo") = T "a.proto".
Proof. reflexivity. Qed.
Theorem c44_distinct_refuted : T "foo-bar" <> T "foobar" /\ file_name (T "foo-bar") [] = file_name (T "foobar") []
  /\ service_name (T "foo-bar") <> service_name (T "foobar").
Proof. split; [discriminate|]. split; [reflexivity|]. vm_compute. discriminate. Qed.

(** ** The hypotheses are met *)
Example start_is_a_name : starter_name (T "start") /\ package_name (T "start") <> T "service" /\ given [] = T "start".
Proof. split; [split; [reflexivity|repeat (apply Forall_cons; [left; reflexivity|]); apply Forall_nil]|]. split; [discriminate|reflexivity]. Qed.
Example my_service : starter_name (T "My cool-service_2").
Proof. split; [reflexivity|]. repeat (apply Forall_cons; [unfold starter_rune; vm_compute; tauto|]). apply Forall_nil. Qed.
Example my_service_names : package_name (T "My cool-service_2") = T "mycoolservice_2" /\ service_name (T "My cool-service_2") = T "MyCoolService_2".
Proof. split; reflexivity. Qed.
Example run_in_a_new_directory : let '(t, c) := do_start free_env empty_tree (T "x.proto") [T "a"; T "b"] in
  c = 0%Z /\ t [T "a"] = Some EDir /\ t [T "a"; T "b"] = Some EDir /\ t [T "a"; T "b"; T "x.proto"] = Some (EFile (start_proto (T "x"))).
Proof. cbv zeta. split; [reflexivity|]. split; [reflexivity|]. split; reflexivity. Qed.
Example run_next_to_a_file : let '(t, c) := do_start free_env (put empty_tree [T "a"] (EFile (T "z"))) (T "x") [T "a"; T "b"] in
  c = 1%Z /\ t [T "a"] = Some (EFile (T "z")) /\ t [T "a"; T "b"] = None.
Proof. cbv zeta. split; [reflexivity|]. split; reflexivity. Qed.
