(** C39-C42: a generation run and the disk. *)
From Coq Require Import Permutation.
From Verif Require Import GoStr GoStrProofs GoMap Strs Handler HandlerSpec HandlerProofs PropHandler SplitJoin Generator GeneratorSpec GeneratorProofs GeneratorProofs2.

Section P.
  Variable upper : N -> bool.
  Variable tmpl : str -> data -> option bytes.
  Variable parse_go : bytes -> option (list decl).
  Variable print_go : list decl -> bytes.
  Variable format_source : bytes -> option bytes.
  Notation generate_gokit := (generate_gokit upper tmpl parse_go print_go format_source).
  Notation service_render := (service_render upper tmpl parse_go print_go format_source).
  Notation baron_file := (baron_file tmpl format_source).
  Notation main_ops := (main_ops upper tmpl parse_go print_go format_source).
  Notation fmt := (format_code format_source).

  (** ** C39 *)
  (** A generation that succeeds has exactly the files of the service, each once, whatever there was before. *)
  Theorem generated_files : forall d prev m, generate_gokit d prev (Some m) ->
    NoDup (keys m) /\ forall p, In p (keys m) <-> In p (map slashed (all_files (to_lower (d_name d)) (d_client d))).
  Proof. apply generated_keys. Qed.
  Theorem distinct_paths : forall svc client, NoDup (map slashed (all_files svc client)).
  Proof.
    intros svc client. assert (M : slashed (main_file svc) <> slashed (client_file svc)).
    { unfold slashed, main_file, client_file, join. intro H. apply app_inv_head, (app_inv_head [c_slash]) in H. rewrite <- app_assoc in H. apply app_inv_head in H. discriminate. }
    assert (C : forall l, (forall x, In x l -> ~ exists y, x = T "cmd/" ++ y) -> NoDup l -> ~ In (slashed (main_file svc)) l /\ ~ In (slashed (client_file svc)) l).
    { intros l Hl _. split; intro K; apply (Hl _ K); eexists; reflexivity. }
    unfold all_files, user_files. cbn [map app fst].
    constructor. { intro K. cbn [In] in K. destruct client; repeat destruct K as [K|K]; discriminate || contradiction. }
    constructor. { intro K. cbn [In] in K. destruct client; repeat destruct K as [K|K]; discriminate || contradiction. }
    constructor. { intro K. cbn [In] in K. destruct client; repeat destruct K as [K|K]; try (discriminate || contradiction). symmetry in K. contradiction. }
    constructor. { intro K. cbn [In] in K. destruct client; repeat destruct K as [K|K]; discriminate || contradiction. }
    constructor. { intro K. cbn [In] in K. destruct client; repeat destruct K as [K|K]; discriminate || contradiction. }
    constructor. { intro K. cbn [In] in K. destruct client; repeat destruct K as [K|K]; discriminate || contradiction. }
    constructor. { intro K. cbn [In] in K. destruct client; repeat destruct K as [K|K]; discriminate || contradiction. }
    destruct client; cbn [map]; repeat constructor. intros [].
  Qed.
  (** It succeeds if the templates render and the old service file can be regenerated. *)
  Theorem generation_succeeds : forall d prev, (forall t, In t assets -> t <> ServiceMethodsPath -> tmpl t d <> None) ->
    (forall b, mget prev (slashed service_file) = Some b -> exists ds out, parse_go b = Some ds /\ render upper (d_name d) (d_methods d) (Some ds) (Ret out)) ->
    exists m, generate_gokit d prev (Some m).
  Proof.
    intros d prev Ht Hs. assert (K : forall ts m, incl ts assets -> exists m', gokit_loop upper tmpl parse_go print_go format_source d prev ts m (Some m')).
    { induction ts as [|t ts IH]; intros m Hi; [exists m; apply GLDone|]. assert (Hi' : incl ts assets) by (intros x Hx; apply Hi; right; exact Hx).
      destruct (is_excluded_path t) eqn:Ee; [destruct (IH m Hi') as [m' H]; exists m'; apply GLExcluded; assumption|].
      assert (Nm : t <> ServiceMethodsPath) by (intros ->; discriminate).
      set (a := template_path_to_actual t (to_lower (d_name d))).
      assert (R : (exists b, response upper tmpl parse_go print_go format_source t d (mget prev a) (GOk b)) \/ response upper tmpl parse_go print_go format_source t d (mget prev a) GIgnored).
      { unfold response. destruct (str_eqb_spec t ServicePath) as [->|N1].
        - left. change a with (slashed service_file). destruct (mget prev (slashed service_file)) as [b|] eqn:Eb.
          + destruct (Hs b eq_refl) as (ds & out & Ep & Er). eexists. eapply SROut; eassumption.
          + destruct (tmpl ServicePath d) as [c|] eqn:Et; [|elim (Ht ServicePath (Hi ServicePath (or_introl eq_refl)) Nm); exact Et]. exists (fmt c). pose proof (SRFirst upper tmpl parse_go print_go format_source d) as K. rewrite Et in K. exact K.
        - specialize (Ht t (Hi t (or_introl eq_refl)) Nm). unfold other_response, keep_or_make. destruct (tmpl t d) as [c|] eqn:Et; [|congruence].
          destruct (mget prev a); destruct (d_client d); repeat match goal with |- context [str_eqb t ?p] => destruct (str_eqb t p) end; cbn [finish]; eauto. }
      destruct R as [[b R]|R].
      - destruct (IH (mset m a b) Hi') as [m' H]. exists m'. eapply GLOk; eassumption.
      - destruct (IH m Hi') as [m' H]. exists m'. eapply GLIgnored; eassumption. }
    destruct (K assets [] (incl_refl _)) as [m H]. exists m, assets. split; [apply Permutation_refl|exact H].
  Qed.

  (** ** C40 *)
  (** The previous generation is read back: every file of the service but the runner. *)
  Theorem previous_files_read : forall base svc client l p, ~ In c_slash svc -> wf_node (NDir l) -> In p (all_files svc client) -> p <> server_file ->
    mget (read_previous_generation base svc (NDir l)) (slashed p) = lookup (NDir l) p.
  Proof.
    intros base svc client l p Hs Hw Hp Hn. destruct (file_names svc client p Hs Hp) as [H1 H2]. apply (read_previous base svc l p Hw H1 H2 Hn). apply (file_walked base svc client). exact Hp.
  Qed.
  (** In a map: what the generator makes of the previous files. *)
  Theorem user_files_kept : forall d prev m p t, generate_gokit d prev (Some m) -> In (p, t) (user_files (to_lower (d_name d)) (d_client d)) ->
    match mget prev (slashed p) with
    | Some b => mget m (slashed p) = Some (fmt b)
    | None => exists c, tmpl t d = Some c /\ mget m (slashed p) = Some (fmt c)
    end.
  Proof.
    intros d prev m p t H Hi. destruct (user_file_content _ _ _ _ _ d prev m p t H Hi) as (c & E1 & E2). unfold keep_or_make in E1. destruct (mget prev (slashed p)); [congruence|]. exists c. auto.
  Qed.
  Theorem runner_fresh : forall d prev m, generate_gokit d prev (Some m) -> exists c, tmpl (T "server/server.go.tmpl") d = Some c /\ mget m (slashed server_file) = Some (fmt c).
  Proof. intros d prev m H. exact (server_file_content _ _ _ _ _ d prev m H). Qed.
  Theorem service_file_merged : forall d prev m, generate_gokit d prev (Some m) ->
    match mget prev (slashed service_file) with
    | Some b => exists ds out, parse_go b = Some ds /\ render upper (d_name d) (d_methods d) (Some ds) (Ret out) /\ mget m (slashed service_file) = Some (fmt (print_go out))
    | None => exists c, tmpl (T "service/service.go.tmpl") d = Some c /\ mget m (slashed service_file) = Some (fmt c)
    end.
  Proof.
    intros d prev m H. destruct (service_file_content _ _ _ _ _ d prev m H) as (b & Hr & E). inversion Hr as [E1 E2|b' E1 E2 E3|b' ds out E1 E2 E3 E4|b' ds E1 E2 E3]; subst.
    - symmetry in E2 || idtac. destruct (tmpl ServicePath d) as [c|] eqn:Et; [|discriminate]. injection E2 as E2. exists c. split; [exact Et|]. congruence.
    - exists ds, out. split; [assumption|]. split; assumption.
  Qed.

  (** ** The disk *)
  Section Run.
    Variables (fs : disk) (root : path) (pb : path) (bare : str) (d : data) (prev : gomap bytes) (ops : list op) (finished : bool).
    Let svc := to_lower (d_name d).
    Let bp := pb ++ [bare ++ T ".pb.baron.go"].
    Hypothesis slash : ~ In c_slash svc.
    Hypothesis R : main_ops fs root bp d prev ops finished.

    Lemma order_keys : forall (m order : gomap bytes), Permutation order m -> NoDup (keys m) -> NoDup (map fst order) /\ forall rel b, In (rel, b) order <-> mget m rel = Some b.
    Proof.
      intros m order Hp Hn. split; [eapply Permutation_NoDup; [apply Permutation_map, Permutation_sym; exact Hp|exact Hn]|].
      intros rel b. rewrite mget_in by exact Hn. split; apply Permutation_in; [exact Hp|apply Permutation_sym; exact Hp].
    Qed.
    (** ** C41 *)
    Lemma main_touches : forall o q, In o ops -> touches o q -> q = bp \/ finished = true /\ (In q (map (app root) (all_files svc (d_client d))) \/ stale root svc q).
    Proof.
      intros o q Hi Ht. destruct R as [E|b o1 E Hw Hg|b o1 m order o2 o3 E Hw Hg Hp Hf Hc]; [destruct Hi|left; apply (gen_file_touches _ _ _ _ _ Hw Hi Ht)|].
      rewrite !in_app_iff in Hi. destruct Hi as [Hi|[Hi|Hi]].
      - left. apply (gen_file_touches _ _ _ _ _ Hw Hi Ht).
      - right. split; [reflexivity|]. left. destruct (write_files_touches _ _ _ _ _ Hf Hi Ht) as (rel & Hr & ->). destruct (generated_files d prev m Hg) as [Hn Hk].
        assert (K : In rel (keys m)) by (apply (Permutation_in rel (Permutation_map fst Hp)); exact Hr). apply Hk in K. apply in_map_iff in K. destruct K as (p & <- & K).
        rewrite (dest_file root svc (d_client d) p slash K). apply in_map. exact K.
      - right. split; [reflexivity|]. right. apply (cleanup_touches _ _ _ _ _ _ Hc Hi Ht).
    Qed.
    (** At every crash point, all files but the service's, the .pb.baron.go file and the stale ones are as they were. *)
    Theorem only_generated_touched : forall done q, so_far done ops ->
      q <> bp -> ~ In q (map (app root) (all_files svc (d_client d))) -> ~ stale root svc q -> run_ops fs done q = fs q.
    Proof.
      intros done q (rest & E) H1 H2 H3. apply run_untouched. intros o Ho Ht. destruct (main_touches o q) as [K|[_ [K|K]]]; auto. rewrite E. apply in_or_app. left. exact Ho.
    Qed.
    (** If rendering fails, the service's files are as they were too. *)
    Theorem failed_run_touches_nothing : forall done q, finished = false -> so_far done ops -> q <> bp -> run_ops fs done q = fs q.
    Proof.
      intros done q Ef (rest & E) H1. apply run_untouched. intros o Ho Ht. destruct (main_touches o q) as [K|[K _]]; [rewrite E; apply in_or_app; left; exact Ho|exact Ht|contradiction|congruence].
    Qed.
    Lemma bp_not_file : forall p, In p (all_files svc (d_client d)) -> bp <> root ++ p.
    Proof. intros p H. apply (baron_not_file root svc (d_client d) p pb bare H). Qed.
    (** At every crash point a file of the service is as it was, or has a beginning of its new content. *)
    Theorem crash_leaves_beginning : forall done p, so_far done ops -> In p (all_files svc (d_client d)) ->
      run_ops fs done (root ++ p) = fs (root ++ p) \/ exists pre post, run_ops fs done (root ++ p) = Some pre /\ run_ops fs ops (root ++ p) = Some (pre ++ post).
    Proof.
      intros done p (rest & E) Hp. destruct R as [Eb|b o1 Eb Hw Hg|b o1 m order o2 o3 Eb Hw Hg Hpm Hf Hc].
      - left. destruct done; [reflexivity|discriminate].
      - left. apply run_untouched. intros o Ho Ht. apply (bp_not_file p Hp). symmetry. apply (gen_file_touches _ _ _ o _ Hw); [rewrite E; apply in_or_app; left; exact Ho|exact Ht].
      - destruct (generated_files d prev m Hg) as [Hn Hk]. destruct (order_keys m order Hpm Hn) as [Hno Ho].
        assert (Hb : exists c, mget m (slashed p) = Some c).
        { destruct (mget m (slashed p)) as [c|] eqn:Em; [exists c; reflexivity|]. apply mget_none in Em. exfalso. apply Em, Hk, in_map, Hp. }
        destruct Hb as [c Hb]. pose proof (proj2 (Ho _ _) Hb) as Hio. pose proof (dest_file root svc (d_client d) p slash Hp) as Ed.
        assert (N1 : forall l fs0, (forall o, In o l -> In o o1) -> run_ops fs0 l (root ++ p) = fs0 (root ++ p)).
        { intros l fs0 Hl. apply run_untouched. intros o Hol Ht. apply (bp_not_file p Hp). symmetry. apply (gen_file_touches _ _ _ o _ Hw); auto. }
        assert (N3 : forall l fs0, (forall o, In o l -> In o o3) -> run_ops fs0 l (root ++ p) = fs0 (root ++ p)).
        { intros l fs0 Hl. apply run_untouched. intros o Hol Ht. apply (file_not_stale root svc (d_client d) p Hp). apply (cleanup_touches _ _ _ _ o _ Hc); auto. }
        assert (Final : run_ops fs (o1 ++ o2 ++ o3) (root ++ p) = Some c).
        { rewrite !run_app. rewrite N3 by auto. rewrite <- Ed. apply (write_files_content _ _ _ Hf Hno _ _ _ Hio). }
        assert (S : forall (A : Type) (a b done rest : list A), a ++ b = done ++ rest -> (exists r, a = done ++ r) \/ exists d2, done = a ++ d2 /\ b = d2 ++ rest).
        { clear. intros A. induction a as [|x a IHa]; intros b done rest E; [right; exists done; auto|]. destruct done as [|y done]; [left; exists (x :: a); reflexivity|].
          cbn [app] in E. injection E as <- E. destruct (IHa b done rest E) as [(r & ->)|(d2 & -> & ->)]; [left; exists r; reflexivity|right; exists d2; auto]. }
        destruct (S _ _ _ _ _ E) as [(r & E1)|(d2 & -> & E2)].
        + left. apply N1. intros o K. rewrite E1. apply in_or_app. left. exact K.
        + destruct (S _ _ _ _ _ E2) as [(r & E3)|(d3 & -> & E3)].
          * destruct (write_files_prefix _ _ _ Hf Hno (run_ops fs o1) d2 r _ _ E3 Hio) as [K|(pre & post & K & ->)]; rewrite Ed in K.
            { left. rewrite run_app, K. apply N1. auto. }
            { right. exists pre, post. split; [rewrite run_app; exact K|exact Final]. }
          * right. exists c, []. rewrite app_nil_r. split; [|exact Final]. rewrite !run_app. rewrite N3 by (intros o K; rewrite E3; apply in_or_app; left; exact K).
            rewrite <- Ed. apply (write_files_content _ _ _ Hf Hno _ _ _ Hio).
    Qed.
    (** A finished run: every file of the service has what was generated; the stale ones are gone. *)
    Theorem finished_run : finished = true -> exists m b, generate_gokit d prev (Some m) /\ baron_file d = Some b /\
      (forall p, In p (all_files svc (d_client d)) -> run_ops fs ops (root ++ p) = mget m (slashed p) /\ mget m (slashed p) <> None) /\
      (forall q, stale root svc q -> run_ops fs ops q = None) /\ (~ stale root svc bp -> run_ops fs ops bp = Some b).
    Proof.
      intro Ef. destruct R as [Eb|b o1 Eb Hw Hg|b o1 m order o2 o3 Eb Hw Hg Hpm Hf Hc]; try discriminate. exists m, b. split; [exact Hg|]. split; [exact Eb|].
      destruct (generated_files d prev m Hg) as [Hn Hk]. destruct (order_keys m order Hpm Hn) as [Hno Ho]. split; [|split].
      - intros p Hp. destruct (mget m (slashed p)) as [c|] eqn:Em; [|exfalso; apply mget_none in Em; apply Em, Hk, in_map, Hp]. split; [|discriminate].
        pose proof (dest_file root svc (d_client d) p slash Hp) as Ed. rewrite !run_app. rewrite (run_untouched o3).
        + rewrite <- Ed. apply (write_files_content _ _ _ Hf Hno). apply Ho. exact Em.
        + intros o Hol Ht. apply (file_not_stale root svc (d_client d) p Hp). apply (cleanup_touches _ _ _ _ o _ Hc); auto.
      - intros q Hq. rewrite app_assoc, run_app. apply (cleanup_gone _ _ _ _ _ Hc Hq).
      - intro Hs. rewrite !run_app. rewrite (run_untouched o3) by (intros o Hol Ht; apply Hs; apply (cleanup_touches _ _ _ _ o _ Hc); auto).
        rewrite (run_untouched o2); [apply (gen_file_content _ _ _ _ Hw)|]. intros o Hol Ht. destruct (write_files_touches _ _ _ _ _ Hf Hol Ht) as (rel & Hr & E).
        assert (K : In rel (keys m)) by (apply (Permutation_in rel (Permutation_map fst Hpm)); exact Hr). apply Hk in K. apply in_map_iff in K. destruct K as (p & <- & K).
        rewrite (dest_file root svc (d_client d) p slash K) in E. apply (bp_not_file p K E).
    Qed.
  End Run.

  (** ** C40 on the disk: the user's files after a run, against what they were before it. *)
  Theorem user_files_survive : forall fs root l pb bare d ops, ~ In c_slash (to_lower (d_name d)) -> wf_node (NDir l) -> on_disk fs root (NDir l) ->
    main_ops fs root (pb ++ [bare ++ T ".pb.baron.go"]) d (read_previous_generation (last root []) (to_lower (d_name d)) (NDir l)) ops true ->
    forall p t, In (p, t) (user_files (to_lower (d_name d)) (d_client d)) ->
    match fs (root ++ p) with
    | Some b => run_ops fs ops (root ++ p) = Some (fmt b)
    | None => exists c, tmpl t d = Some c /\ run_ops fs ops (root ++ p) = Some (fmt c)
    end.
  Proof.
    intros fs root l pb bare d ops Hs Hw Hd HR p t Hp. destruct (finished_run _ _ _ _ _ _ _ _ Hs HR eq_refl) as (m & b & Hg & _ & Hf & _).
    assert (Ha : In p (all_files (to_lower (d_name d)) (d_client d))) by (right; right; apply (in_map fst) in Hp; exact Hp).
    destruct (Hf p Ha) as [E _]. rewrite E. pose proof (user_files_kept d _ m p t Hg Hp) as K. rewrite (previous_files_read _ _ (d_client d) l p Hs Hw Ha) in K; [rewrite <- Hd in K; exact K|].
    intros ->. unfold user_files in Hp. cbn [app] in Hp. destruct (d_client d); cbn [In] in Hp; repeat destruct Hp as [Hp|Hp]; discriminate || contradiction.
  Qed.
  Theorem service_file_survives : forall fs root l pb bare d ops, ~ In c_slash (to_lower (d_name d)) -> wf_node (NDir l) -> on_disk fs root (NDir l) ->
    main_ops fs root (pb ++ [bare ++ T ".pb.baron.go"]) d (read_previous_generation (last root []) (to_lower (d_name d)) (NDir l)) ops true ->
    match fs (root ++ service_file) with
    | Some b => exists ds out, parse_go b = Some ds /\ render upper (d_name d) (d_methods d) (Some ds) (Ret out) /\ run_ops fs ops (root ++ service_file) = Some (fmt (print_go out))
    | None => exists c, tmpl (T "service/service.go.tmpl") d = Some c /\ run_ops fs ops (root ++ service_file) = Some (fmt c)
    end.
  Proof.
    intros fs root l pb bare d ops Hs Hw Hd HR. destruct (finished_run _ _ _ _ _ _ _ _ Hs HR eq_refl) as (m & b & Hg & _ & Hf & _).
    assert (Ha : In service_file (all_files (to_lower (d_name d)) (d_client d))) by (left; reflexivity).
    destruct (Hf _ Ha) as [E _]. rewrite E. pose proof (service_file_merged d _ m Hg) as K. rewrite (previous_files_read _ _ (d_client d) l _ Hs Hw Ha) in K; [rewrite <- Hd in K; exact K|discriminate].
  Qed.

  (** ** Running baron twice *)
  (** What is asked of the formatter, the parser and the printer: formatting is idempotent; the formatted service
      file parses to the declarations it was made of. *)
  Definition go_tools (d : data) : Prop :=
    (forall b, fmt (fmt b) = fmt b) /\
    (forall b ds out, parse_go b = Some ds -> render upper (d_name d) (d_methods d) (Some ds) (Ret out) -> parse_go (fmt (print_go out)) = Some out) /\
    (forall c, tmpl (T "service/service.go.tmpl") d = Some c -> parse_go (fmt c) = Some (first_file (d_name d) (d_methods d)) /\ fmt (print_go (first_file (d_name d) (d_methods d))) = fmt c).
  (** The second run leaves every file as the first one made it. *)
  Theorem rerun_changes_nothing : forall fs root l1 l2 pb bare d ops1 ops2 finished2, ~ In c_slash (to_lower (d_name d)) -> good_rpcs upper (d_methods d) ->
    (forall r, In r (d_methods d) -> go_camel_case (rpc_req r) = rpc_req r /\ go_camel_case (rpc_resp r) = rpc_resp r) -> go_tools d ->
    ~ stale root (to_lower (d_name d)) (pb ++ [bare ++ T ".pb.baron.go"]) ->
    wf_node (NDir l1) -> on_disk fs root (NDir l1) ->
    main_ops fs root (pb ++ [bare ++ T ".pb.baron.go"]) d (read_previous_generation (last root []) (to_lower (d_name d)) (NDir l1)) ops1 true ->
    wf_node (NDir l2) -> on_disk (run_ops fs ops1) root (NDir l2) ->
    main_ops (run_ops fs ops1) root (pb ++ [bare ++ T ".pb.baron.go"]) d (read_previous_generation (last root []) (to_lower (d_name d)) (NDir l2)) ops2 finished2 ->
    finished2 = true /\ forall q, run_ops (run_ops fs ops1) ops2 q = run_ops fs ops1 q.
  Proof.
    intros fs root l1 l2 pb bare d ops1 ops2 finished2 Hs Hg Hcc (T1 & T2 & T3) Hbs Hw1 Hd1 R1 Hw2 Hd2 R2.
    destruct (finished_run _ _ _ _ _ _ _ _ Hs R1 eq_refl) as (m1 & b1 & Hg1 & Hb1 & Hf1 & Hst1 & Hbp1). set (fs1 := run_ops fs ops1) in *. set (svc := to_lower (d_name d)) in *.
    set (prev2 := read_previous_generation (last root []) svc (NDir l2)) in *.
    assert (P2 : forall p, In p (all_files svc (d_client d)) -> p <> server_file -> mget prev2 (slashed p) = mget m1 (slashed p)).
    { intros p Ha Hn. unfold prev2. rewrite (previous_files_read _ _ (d_client d) l2 p Hs Hw2 Ha Hn), <- Hd2. apply (Hf1 p Ha). }
    assert (Hsvc : exists c, mget m1 (slashed service_file) = Some (fmt c) /\ forall g, service_render d (Some (fmt c)) g -> g = GOk (fmt c)).
    { pose proof (service_file_merged d _ m1 Hg1) as K. assert (F : forall ds b, parse_go b = Some ds -> (forall res, render upper (d_name d) (d_methods d) (Some ds) res -> res = Ret ds) -> fmt (print_go ds) = b -> forall g, service_render d (Some b) g -> g = GOk b).
      { intros ds b Ep Hren Ef g Hr. inversion Hr as [E1 E2|b' E1 E2 E3|b' ds' out E1 E2 E3 E4|b' ds' E1 E2 E3]; subst.
        - congruence.
        - assert (ds' = ds) by congruence. subst ds'. pose proof (Hren _ E2) as E. injection E as ->. reflexivity.
        - assert (ds' = ds) by congruence. subst ds'. pose proof (Hren _ E2) as E. discriminate. }
      destruct (mget (read_previous_generation (last root []) svc (NDir l1)) (slashed service_file)) as [b|].
      - destruct K as (ds & out & Ep & Er & Em). exists (print_go out). split; [exact Em|]. apply (F out); [apply (T2 b ds out Ep Er)| |reflexivity].
        intros res Hres. apply (regeneration_idempotent upper (d_name d) (d_methods d) (Some ds) out res Hg Hcc Er Hres).
      - destruct K as (c & Ec & Em). destruct (T3 c Ec) as [K1 K2]. exists c. split; [exact Em|]. apply (F _ _ K1); [|exact K2].
        intros res Hres. apply (regeneration_idempotent upper (d_name d) (d_methods d) None _ res Hg Hcc (RenderFirst upper _ _) Hres). }
    destruct Hsvc as (cs & Em1 & Hsvc).
    (* the second generation cannot fail *)
    assert (Hresp : forall t g, In t assets -> is_excluded_path t = false -> response upper tmpl parse_go print_go format_source t d (mget prev2 (template_path_to_actual t (to_lower (d_name d)))) g -> g = GIgnored \/ exists b, g = GOk b).
    { intros t g Ht Ee Hr. assert (Hc : t = ServicePath \/ t = ServerPath \/ (t = CmdClientPath /\ d_client d = false) \/ exists p, In (p, t) (user_files svc (d_client d))).
      { unfold assets in Ht. cbn [In] in Ht. repeat destruct Ht as [<-|Ht]; try discriminate; try contradiction; try tauto.
        1, 3, 4, 5, 6: right; right; right; eexists; unfold user_files; apply in_or_app; left; cbn [In]; auto 10.
        right. right. destruct (d_client d) eqn:Ec; [right|left; auto]. exists (client_file svc). unfold user_files. apply in_or_app. right. left. reflexivity. }
      destruct Hc as [->|[->|[[-> Ec]|[p Hp]]]].
      - destruct (service_facts upper tmpl parse_go print_go format_source d) as [U3 U4]. rewrite U3 in Hr. apply U4 in Hr. rewrite (P2 service_file (or_introl eq_refl)) in Hr by discriminate. rewrite Em1 in Hr.
        right. eexists. apply (Hsvc g Hr).
      - destruct (server_facts upper tmpl parse_go print_go format_source d) as [U3 U4]. apply U4 in Hr. destruct (runner_fresh d _ m1 Hg1) as (c & Ec & _). change (T "server/server.go.tmpl") with ServerPath in Ec. rewrite Ec in Hr. right. eexists. exact Hr.
      - left. unfold response, other_response in Hr. change (str_eqb CmdClientPath ServicePath) with false in Hr. change (str_eqb CmdClientPath ServiceWrapperPath) with false in Hr. change (str_eqb CmdClientPath CmdServerPath) with false in Hr.
        change (str_eqb CmdClientPath CmdClientPath) with true in Hr. cbn iota in Hr. rewrite Ec in Hr. exact Hr.
      - destruct (user_facts upper tmpl parse_go print_go format_source d p t Hp) as (_ & _ & U3 & U4). rewrite U3 in Hr. apply U4 in Hr.
        assert (Ha : In p (all_files svc (d_client d))) by (right; right; apply (in_map fst) in Hp; exact Hp).
        assert (Hns : p <> server_file) by (intros ->; unfold user_files in Hp; cbn [app] in Hp; destruct (d_client d); cbn [In] in Hp; repeat destruct Hp as [Hp|Hp]; discriminate || contradiction).
        rewrite (P2 p Ha Hns) in Hr. destruct (mget m1 (slashed p)) as [c|] eqn:Em; [right; eexists; exact Hr|]. exfalso. apply (Hf1 p Ha). exact Em. }
    assert (Hnofail : ~ generate_gokit d prev2 None).
    { intros (order & Hp & Hl). assert (Hi : incl order assets) by (intros t Ht; apply (Permutation_in t Hp Ht)). clear Hp. remember (@nil (str * bytes)) as m0 eqn:Em0. remember (@None (gomap bytes)) as res eqn:Er. clear Em0.
      induction Hl as [m|t ts m res He H IH|t ts m b res He Hr H IH|t ts m res He Hr H IH|t ts m g He Hr Hgg]; try discriminate; try (apply IH; [exact Er|intros x Hx; apply Hi; right; exact Hx]).
      destruct (Hresp t g (Hi t (or_introl eq_refl)) He Hr) as [->|[b ->]]; destruct Hgg; discriminate. }
    assert (Ef2 : finished2 = true). { destruct R2 as [E|b o1 E Hw Hgg|]; [congruence|contradiction|reflexivity]. }
    split; [exact Ef2|]. subst finished2. destruct (finished_run _ _ _ _ _ _ _ _ Hs R2 eq_refl) as (m2 & b2 & Hg2 & Hb2 & Hf2 & Hst2 & Hbp2).
    intro q. destruct (in_dec (list_eq_dec str_eq_dec) q (map (app root) (all_files svc (d_client d)))) as [Hi|Hi].
    - apply in_map_iff in Hi. destruct Hi as (p & <- & Ha). rewrite (proj1 (Hf2 p Ha)). rewrite (proj1 (Hf1 p Ha)).
      destruct (list_eq_dec str_eq_dec p server_file) as [->|Hns].
      + destruct (runner_fresh d _ m1 Hg1) as (c1 & E1 & ->). destruct (runner_fresh d _ m2 Hg2) as (c2 & E2 & ->). congruence.
      + pose proof (P2 p Ha Hns) as EP. destruct Ha as [<-|[<-|Ha]]; [|congruence|].
        * destruct (service_file_content _ _ _ _ _ d prev2 m2 Hg2) as (b & Hr & E). fold svc in Hr. rewrite EP, Em1 in Hr. pose proof (Hsvc _ Hr) as Eb. injection Eb as ->. congruence.
        * apply in_map_iff in Ha. destruct Ha as ([p' t] & <- & Hp). cbn [fst] in *. pose proof (user_files_kept d prev2 m2 p' t Hg2 Hp) as K2. rewrite EP in K2.
          pose proof (user_files_kept d _ m1 p' t Hg1 Hp) as K1. destruct (mget (read_previous_generation (last root []) svc (NDir l1)) (slashed p')) as [b|].
          { rewrite K1 in K2. rewrite K1, K2, T1. reflexivity. }
          { destruct K1 as (c & _ & K1). rewrite K1 in K2. rewrite K1, K2, T1. reflexivity. }
    - destruct (list_eq_dec str_eq_dec q (pb ++ [bare ++ T ".pb.baron.go"])) as [->|Hnb].
      + transitivity (Some b2); [exact (Hbp2 Hbs)|]. transitivity (Some b1); [congruence|]. symmetry. exact (Hbp1 Hbs).
      + destruct (under q (root ++ [T "svc"; T "server"; T "cli"]) || under q (root ++ [T "svc"; T "client"; T "cli"]) || under q (root ++ [T "cmd"; svc ++ T "-server"])) eqn:Eu.
        * assert (Hq : stale root svc q).
          { apply orb_true_iff in Eu. destruct Eu as [Eu|Eu]; [apply orb_true_iff in Eu; destruct Eu as [Eu|Eu]|]; apply under_spec in Eu; destruct Eu as (rest & ->); eexists _, rest; (split; [|rewrite <- app_assoc; reflexivity]); cbn [In]; tauto. }
          rewrite (Hst2 q Hq). symmetry. apply (Hst1 q Hq).
        * apply (only_generated_touched fs1 root pb bare d prev2 ops2 true Hs R2 ops2 q); [exists []; rewrite app_nil_r; reflexivity|exact Hnb|exact Hi|].
          intros (old & rest & Ho & ->). apply orb_false_iff in Eu. destruct Eu as [Eu Eu3]. apply orb_false_iff in Eu. destruct Eu as [Eu1 Eu2].
          assert (U : forall p, under (root ++ p ++ rest) (root ++ p) = true) by (intro p; apply under_spec; exists rest; apply app_assoc).
          destruct Ho as [<-|[<-|[<-|[]]]]; congruence || (rewrite U in *; discriminate).
  Qed.

  (** ** Every run passes a point at which the file is empty: a crash there loses it. *)
  Theorem not_crash_safe : forall fs root pb bare d prev ops, ~ In c_slash (to_lower (d_name d)) -> main_ops fs root (pb ++ [bare ++ T ".pb.baron.go"]) d prev ops true ->
    forall p, In p (all_files (to_lower (d_name d)) (d_client d)) -> exists done, so_far done ops /\ run_ops fs done (root ++ p) = Some [].
  Proof.
    intros fs root pb bare d prev ops Hs HR p Hp. inversion HR as [| |b o1 m order o2 o3 Eb Hw Hg Hpm Hf Hc]; subst.
    destruct (generated_files d prev m Hg) as [Hn Hk]. assert (Hr : In (slashed p) (map fst order)).
    { apply Permutation_sym in Hpm. apply (Permutation_in _ (Permutation_map fst Hpm)). apply Hk, in_map, Hp. }
    assert (K : exists a z, o2 = a ++ OCreate (dest root (slashed p)) :: z).
    { clear - Hf Hr. induction Hf as [|rel c fl x1 x2 H1 H2 IH]; [destruct Hr|]. destruct Hr as [E|Hr].
      - cbn [fst] in E. subst rel. destruct H1 as [chunks _]. exists [], (map (OWrite (dest root (slashed p))) chunks ++ x2). reflexivity.
      - destruct (IH Hr) as (a & z & ->). exists (x1 ++ a), z. rewrite <- app_assoc. reflexivity. }
    destruct K as (a & z & ->). exists (o1 ++ a ++ [OCreate (dest root (slashed p))]). split.
    - exists (z ++ o3). rewrite <- !app_assoc. reflexivity.
    - rewrite !run_app, (dest_file root _ _ p Hs Hp). cbn. destruct (path_eqb_spec (root ++ p) (root ++ p)); [reflexivity|contradiction].
  Qed.
  (** A run that fails on the service file has overwritten the .pb.baron.go file all the same. *)
  Theorem failed_run_writes_baron_file : forall fs root bp d prev ops, main_ops fs root bp d prev ops false -> baron_file d <> None ->
    exists b, baron_file d = Some b /\ run_ops fs ops bp = Some b.
  Proof.
    intros fs root bp d prev ops HR Hb. inversion HR as [E|b o1 E Hw Hg|]; subst; [contradiction|]. exists b. split; [exact E|apply (gen_file_content _ _ _ _ Hw)].
  Qed.
  (** A service file that does not parse stops the run. *)
  Theorem broken_service_file_fails : forall d prev b, mget prev (slashed service_file) = Some b -> parse_go b = None -> forall m, ~ generate_gokit d prev (Some m).
  Proof.
    intros d prev b Hm Hp m Hg. pose proof (service_file_merged d prev m Hg) as K. rewrite Hm in K. destruct K as (ds & out & E & _). congruence.
  Qed.
  (** Runs exist. *)
  Lemma write_files_exist : forall root files, exists ops, write_files root files ops.
  Proof.
    intros root files. induction files as [|[rel b] files [ops IH]]; [exists []; constructor|]. exists ((OCreate (dest root rel) :: map (OWrite (dest root rel)) [b]) ++ ops).
    constructor; [|exact IH]. constructor. cbn. apply app_nil_r.
  Qed.
  Lemma clean_one_exist : forall fs p, exists ops, clean_one fs p ops.
  Proof. intros fs p. exists (map ORemoveAll [] ++ [ORemoveAll p]). apply CleanSome. constructor. constructor. Qed.
  Theorem run_exists : forall fs root bp d prev, (forall t, In t assets -> t <> ServiceMethodsPath -> tmpl t d <> None) ->
    (forall b, mget prev (slashed service_file) = Some b -> exists ds out, parse_go b = Some ds /\ render upper (d_name d) (d_methods d) (Some ds) (Ret out)) ->
    exists ops, main_ops fs root bp d prev ops true.
  Proof.
    intros fs root bp d prev Ht Hs. destruct (generation_succeeds d prev Ht Hs) as [m Hg].
    assert (Hb : exists b, baron_file d = Some b).
    { specialize (Ht BaronPath (or_introl eq_refl) ltac:(discriminate)). unfold Generator.baron_file. change (other_response tmpl format_source BaronPath d None) with (finish format_source (tmpl BaronPath d)). destruct (tmpl BaronPath d) as [c|]; [exists (fmt c); reflexivity|congruence]. }
    destruct Hb as [b Hb]. destruct (write_files_exist root m) as [o2 H2]. set (o1 := OCreate bp :: map (OWrite bp) [b]). assert (H1 : write_gen_file bp b o1) by (constructor; apply app_nil_r).
    set (fs2 := run_ops fs (o1 ++ o2)). destruct (clean_one_exist fs2 (root ++ [T "svc"; T "server"; T "cli"])) as [x1 X1].
    destruct (clean_one_exist (run_ops fs2 x1) (root ++ [T "svc"; T "client"; T "cli"])) as [x2 X2]. destruct (clean_one_exist (run_ops fs2 (x1 ++ x2)) (root ++ [T "cmd"; to_lower (d_name d) ++ T "-server"])) as [x3 X3].
    exists (o1 ++ o2 ++ x1 ++ x2 ++ x3). eapply MODone; [exact Hb|exact H1|exact Hg|apply Permutation_refl|exact H2|]. constructor; assumption.
  Qed.
End P.

(** ** C42 *)
(** The directory of an absolute path, in components. *)
Theorem abs_dir_spec : forall cs n, Forall (fun c => ~ In c_slash c) (cs ++ [n]) -> abs_dir (c_slash :: join [c_slash] (cs ++ [n])) = c_slash :: join [c_slash] cs.
Proof.
  intros cs n H. unfold abs_dir. assert (E : split1 c_slash (c_slash :: join [c_slash] (cs ++ [n])) = [] :: cs ++ [n]).
  { change (c_slash :: join [c_slash] (cs ++ [n])) with ([] ++ c_slash :: join [c_slash] (cs ++ [n])). rewrite split1_app by (intros []). rewrite split_join; [reflexivity|destruct cs; discriminate|exact H]. }
  rewrite E. transitivity (join_dir ([] :: cs)); [exact (f_equal join_dir (removelast_last ([] :: cs) n))|].
  destruct cs; reflexivity.
Qed.
Lemma clean_loop_spec : forall abs raw full0 full, clean_proto_loop abs full0 raw = Some full <->
  exists new, full = full0 ++ new /\ map abs raw = map Some new /\ forall f, In f new -> abs_dir (hd [] full) = abs_dir f.
Proof.
  intro abs. induction raw as [|def raw IH]; intros full0 full; cbn [clean_proto_loop].
  - split.
    + intros [= <-]. exists []. rewrite app_nil_r. split; [reflexivity|]. split; [reflexivity|intros f []].
    + intros ([|f new] & -> & E & _); [rewrite app_nil_r; reflexivity|discriminate].
  - assert (Hh : forall f new, hd [] ((full0 ++ [f]) ++ new) = hd [] (full0 ++ [f])) by (intros f new; destruct full0; reflexivity).
    destruct (abs def) as [f|] eqn:Ea.
    + destruct (str_eqb_spec (abs_dir (hd [] (full0 ++ [f]))) (abs_dir f)) as [Ed|Nd].
      * rewrite IH. split.
        { intros (new & -> & E & H). exists (f :: new). split; [rewrite <- app_assoc; reflexivity|]. split; [cbn [map]; rewrite Ea, E; reflexivity|].
          intros g [<-|Hg]; [rewrite Hh; exact Ed|apply H; exact Hg]. }
        { intros (new & -> & E & H). destruct new as [|f' new]; [discriminate|]. cbn [map] in E. rewrite Ea in E. injection E as <- E. exists new. split; [rewrite <- app_assoc; reflexivity|]. split; [exact E|]. intros g Hg. apply H. right. exact Hg. }
      * split; [discriminate|]. intros (new & -> & E & H). destruct new as [|f' new]; [discriminate|]. cbn [map] in E. rewrite Ea in E. injection E as <- E. exfalso. apply Nd.
        specialize (H f (or_introl eq_refl)). replace (full0 ++ f :: new) with ((full0 ++ [f]) ++ new) in H by (rewrite <- app_assoc; reflexivity). rewrite Hh in H. exact H.
    + split; [discriminate|]. intros (new & -> & E & _). destruct new as [|f' new]; [discriminate|]. cbn [map] in E. rewrite Ea in E. discriminate.
Qed.
(** The paths are accepted iff they are all in one directory; they come back absolute and in order. *)
Theorem accepted_iff_same_directory : forall abs raw full, clean_proto_paths abs raw = Some full <->
  map abs raw = map Some full /\ forall a b, In a full -> In b full -> abs_dir a = abs_dir b.
Proof.
  intros abs raw full. unfold clean_proto_paths. rewrite clean_loop_spec. split.
  - intros (new & -> & E & H). cbn [app] in *. split; [exact E|]. intros a b Ha Hb. rewrite <- (H a Ha). apply H. exact Hb.
  - intros [E H]. exists full. split; [reflexivity|]. split; [exact E|]. intros f Hf. apply H; [|exact Hf]. destruct full; [destruct Hf|left; reflexivity].
Qed.
Theorem rejected_iff : forall abs raw full, map abs raw = map Some full -> (clean_proto_paths abs raw = None <-> exists a b, In a full /\ In b full /\ abs_dir a <> abs_dir b).
Proof.
  intros abs raw full E. split.
  - intro H. destruct (in_dec str_eq_dec (hd [] full) full) as [Hi|Hi].
    + destruct (Exists_dec (fun f => abs_dir (hd [] full) <> abs_dir f) full) as [K|K].
      { intro f. destruct (str_eq_dec (abs_dir (hd [] full)) (abs_dir f)); [right; tauto|left; assumption]. }
      * apply Exists_exists in K. destruct K as (f & Hf & K). exists (hd [] full), f. auto.
      * exfalso. assert (A : forall f, In f full -> abs_dir (hd [] full) = abs_dir f).
        { intros f Hf. destruct (str_eq_dec (abs_dir (hd [] full)) (abs_dir f)) as [e|e]; [exact e|]. exfalso. apply K. apply Exists_exists. exists f. auto. }
        assert (S : clean_proto_paths abs raw = Some full) by (apply accepted_iff_same_directory; split; [exact E|]; intros a b Ha Hb; rewrite <- (A a Ha); apply A; exact Hb). congruence.
    + destruct full as [|f full]; [|exfalso; apply Hi; left; reflexivity]. destruct raw; [|discriminate]. discriminate.
  - intros (a & b & Ha & Hb & N1). destruct (clean_proto_paths abs raw) as [full'|] eqn:Ec; [|reflexivity]. exfalso. apply accepted_iff_same_directory in Ec. destruct Ec as [E' H].
    assert (full' = full). { rewrite E in E'. clear - E'. revert full' E'. induction full as [|x l IH]; intros [|y l'] K; try discriminate; [reflexivity|]. injection K as -> K. f_equal. apply IH. exact K. }
    subst full'. apply N1, H; assumption.
Qed.

(** ** Names of protoc's files *)
Lemma base_of : forall dir n, ~ In c_slash n -> path_base (dir ++ c_slash :: n) = n.
Proof.
  intros dir n H. unfold path_base. rewrite <- (join_split c_slash dir) at 1. assert (K : forall l, Forall (free c_slash) l -> last (split1 c_slash (join [c_slash] l ++ c_slash :: n)) [] = n).
  { induction l as [|w l IH]; intro Hl.
    - cbn [join app]. change (c_slash :: n) with ([] ++ c_slash :: n). rewrite split1_app by (intros []). rewrite (split1_one c_slash n H). reflexivity.
    - inversion Hl as [|x y Hx Hy]; subst. destruct l as [|w2 l].
      + cbn [join]. rewrite split1_app by exact Hx. rewrite (split1_one c_slash n H). reflexivity.
      + change (join [c_slash] (w :: w2 :: l)) with (w ++ c_slash :: join [c_slash] (w2 :: l)). rewrite <- app_assoc. cbn [app]. rewrite split1_app by exact Hx.
        pose proof (split1_ne c_slash (join [c_slash] (w2 :: l) ++ c_slash :: n)) as Hne. specialize (IH Hy). destruct (split1 c_slash (join [c_slash] (w2 :: l) ++ c_slash :: n)); [contradiction|exact IH]. }
  apply K. apply split1_free.
Qed.
Lemma last_dot : forall n x, ~ In c_dot x -> last (split1 c_dot (n ++ c_dot :: x)) [] = x /\ exists a b l, split1 c_dot (n ++ c_dot :: x) = a :: b :: l.
Proof.
  intros n x Hx. assert (K : forall l, Forall (free c_dot) l -> last (split1 c_dot (join [c_dot] l ++ c_dot :: x)) [] = x /\ exists a b l', split1 c_dot (join [c_dot] l ++ c_dot :: x) = a :: b :: l').
  { induction l as [|w l IH]; intro Hl.
    - cbn [join app]. change (c_dot :: x) with ([] ++ c_dot :: x). rewrite split1_app by (intros []). rewrite (split1_one c_dot x Hx). split; [reflexivity|]. eexists _, _, _. reflexivity.
    - inversion Hl as [|y z Hw Hy]; subst. destruct l as [|w2 l].
      + cbn [join]. rewrite split1_app by exact Hw. rewrite (split1_one c_dot x Hx). split; [reflexivity|]. eexists _, _, _. reflexivity.
      + change (join [c_dot] (w :: w2 :: l)) with (w ++ c_dot :: join [c_dot] (w2 :: l)). rewrite <- app_assoc. cbn [app]. rewrite split1_app by exact Hw.
        destruct (IH Hy) as (E & a & b & l' & E2). rewrite E2 in *. split; [exact E|]. eexists _, _, _. reflexivity. }
  rewrite <- (join_split c_dot n). apply K. apply split1_free.
Qed.
(** The names of the files that protoc and baron make of DIR/NAME.proto. *)
Theorem proto_file_names : forall dir n, ~ In c_slash n -> let p := dir ++ c_slash :: n ++ T ".proto" in
  pb_file_name p = n ++ T ".pb.go" /\ grpc_pb_file_name p = n ++ T "_grpc.pb.go" /\ baron_file_name p = n ++ T ".pb.baron.go".
Proof.
  intros dir n H p. assert (E : bare_name p = n); [|unfold pb_file_name, grpc_pb_file_name, baron_file_name; rewrite E; repeat split].
  unfold bare_name, path_ext, p. rewrite base_of.
  - change (n ++ T ".proto") with (n ++ c_dot :: T "proto"). destruct (last_dot n (T "proto")) as (E1 & a & b & l & E2); [intro K; vm_compute in K; repeat destruct K as [K|K]; discriminate || contradiction|].
    rewrite E2 in *. rewrite E1. apply trim_suffix_app.
  - intro K. apply in_app_or in K. destruct K as [K|K]; [contradiction|]. vm_compute in K. repeat destruct K as [K|K]; discriminate || contradiction.
Qed.
(** Distinct .proto files have distinct .pb.go files, and baron's file is never one of protoc's. *)
Theorem proto_files_distinct : forall dir n1 n2, ~ In c_slash n1 -> ~ In c_slash n2 -> let p1 := dir ++ c_slash :: n1 ++ T ".proto" in let p2 := dir ++ c_slash :: n2 ++ T ".proto" in
  (pb_file_name p1 = pb_file_name p2 -> n1 = n2) /\ (grpc_pb_file_name p1 = grpc_pb_file_name p2 -> n1 = n2) /\ baron_file_name p1 <> pb_file_name p2 /\ baron_file_name p1 <> grpc_pb_file_name p2.
Proof.
  intros dir n1 n2 H1 H2 p1 p2. destruct (proto_file_names dir n1 H1) as (A1 & B1 & C1). destruct (proto_file_names dir n2 H2) as (A2 & B2 & C2). fold p1 in A1, B1, C1. fold p2 in A2, B2, C2.
  rewrite A1, B1, C1, A2, B2. split; [intro K; apply app_inv_tail in K; exact K|]. split; [intro K; apply app_inv_tail in K; exact K|].
  split; intro K; apply (f_equal (@rev N)) in K; rewrite !rev_app_distr in K; vm_compute in K; discriminate.
Qed.
(** But a.proto's gRPC file is a_grpc.proto's .pb.go file. *)
Theorem grpc_name_clash_refuted : ~ forall dir n1 n2, ~ In c_slash n1 -> ~ In c_slash n2 -> n1 <> n2 ->
  grpc_pb_file_name (dir ++ c_slash :: n1 ++ T ".proto") <> pb_file_name (dir ++ c_slash :: n2 ++ T ".proto").
Proof.
  intro H. apply (H (T "/p") (T "a") (T "a_grpc")); [| | |reflexivity].
  - intro K. vm_compute in K. repeat destruct K as [K|K]; discriminate || contradiction.
  - intro K. vm_compute in K. repeat destruct K as [K|K]; discriminate || contradiction.
  - discriminate.
Qed.

(** ** The hypotheses are met: a service Foo with one method, generated twice. *)
Definition ex_data : data := mkData (T "Foo") [hello] true.
Definition ex_tmpl (t : str) (_ : data) : option bytes := Some t.
Definition ex_parse (b : bytes) : option (list decl) := if str_eqb b ServicePath then Some (first_file (T "Foo") [hello]) else None.
Definition ex_print (_ : list decl) : bytes := ServicePath.
Definition ex_format (b : bytes) : option bytes := Some b.
Definition ex_fs : disk := fun _ => None.
Definition ex_root : path := [T "src"; T "foo-service"].
Definition ex_pb : path := [T "src"; T "pb"; T "foo.pb.baron.go"].
(** The tree after the first run. *)
Definition ex_tree : list (str * node) :=
  [(T "cmd", NDir [(T "foo", NDir [(T "main.go", NFile CmdServerPath)]); (T "foo-client", NDir [(T "main.go", NFile CmdClientPath)])]);
   (T "server", NDir [(T "endpoints.go", NFile ServerEndpointsPath); (T "interrupt.go", NFile ServerInterruptPath); (T "server.go", NFile ServerPath); (T "wrapper.go", NFile ServerWrapperPath)]);
   (T "service", NDir [(T "service.go", NFile ServicePath); (T "wrapper.go", NFile ServiceWrapperPath)])].
Lemma ex_tree_files : forall rel b, lookup (NDir ex_tree) rel = Some b -> In rel (all_files (T "foo") true).
Proof.
  assert (D : forall l nm p b, lookup (NDir l) (nm :: p) = Some b -> exists n, In (nm, n) l /\ lookup n p = Some b).
  { induction l as [|[nm' n'] l IH]; intros nm p b H; cbn [lookup] in H; [discriminate|]. destruct (str_eqb_spec nm nm') as [->|N1].
    - exists n'. split; [left; reflexivity|exact H].
    - destruct (IH nm p b H) as (n & K & E). exists n. split; [right; exact K|exact E]. }
  assert (F : forall x p b, lookup (NFile x) p = Some b -> p = []) by (intros x [|y p] b H; [reflexivity|discriminate]).
  intros [|a rel] b H; [discriminate|]. destruct (D _ _ _ _ H) as (n & Hn & Hl). clear H. unfold ex_tree in Hn. cbn [In] in Hn.
  destruct Hn as [Hn|[Hn|[Hn|[]]]]; injection Hn as <- <-; (destruct rel as [|a2 rel]; [discriminate|]); destruct (D _ _ _ _ Hl) as (n2 & Hn2 & Hl2); clear Hl; cbn [In] in Hn2.
  - destruct Hn2 as [K|[K|[]]]; injection K as <- <-; (destruct rel as [|a3 rel]; [discriminate|]); destruct (D _ _ _ _ Hl2) as (n3 & Hn3 & Hl3); clear Hl2; cbn [In] in Hn3; destruct Hn3 as [K|[]]; injection K as <- <-; apply F in Hl3; subst rel.
    + cbn. tauto.
    + cbn. tauto.
  - destruct Hn2 as [K|[K|[K|[K|[]]]]]; injection K as <- <-; apply F in Hl2; subst rel; cbn; tauto.
  - destruct Hn2 as [K|[K|[]]]; injection K as <- <-; apply F in Hl2; subst rel; cbn; tauto.
Qed.
Ltac noslash := let K := fresh in intro K; vm_compute in K; repeat destruct K as [K|K]; discriminate || contradiction.
Ltac nodups := repeat (constructor; [let K := fresh in intro K; cbn [In map fst] in K; repeat destruct K as [K|K]; discriminate || contradiction|]); constructor.
Ltac wfs := repeat (constructor; [split; [noslash|cbn [snd]]|]); try constructor.
Lemma ex_tree_wf : wf_node (NDir ex_tree).
Proof.
  constructor; [nodups|]. unfold ex_tree.
  repeat match goal with
  | |- Forall _ [] => constructor
  | |- Forall _ (_ :: _) => constructor; [split; [noslash|cbn [snd]]|]
  | |- wf_node (NFile _) => constructor
  | |- wf_node (NDir _) => constructor; [nodups|]
  end.
Qed.
Lemma ex_not_stale : ~ stale ex_root (T "foo") ex_pb.
Proof. intros (old & rest & _ & K). discriminate. Qed.
Example run_nonvacuous : exists ops1 ops2,
  ~ In c_slash (to_lower (d_name ex_data)) /\ good_rpcs ascii_upper (d_methods ex_data) /\
  (forall r, In r (d_methods ex_data) -> go_camel_case (rpc_req r) = rpc_req r /\ go_camel_case (rpc_resp r) = rpc_resp r) /\
  go_tools ascii_upper ex_tmpl ex_parse ex_print ex_format ex_data /\ ~ stale ex_root (T "foo") ex_pb /\
  wf_node (NDir []) /\ on_disk ex_fs ex_root (NDir []) /\
  main_ops ascii_upper ex_tmpl ex_parse ex_print ex_format ex_fs ex_root ex_pb ex_data (read_previous_generation (last ex_root []) (T "foo") (NDir [])) ops1 true /\
  wf_node (NDir ex_tree) /\ on_disk (run_ops ex_fs ops1) ex_root (NDir ex_tree) /\
  main_ops ascii_upper ex_tmpl ex_parse ex_print ex_format (run_ops ex_fs ops1) ex_root ex_pb ex_data (read_previous_generation (last ex_root []) (T "foo") (NDir ex_tree)) ops2 true.
Proof.
  assert (Hg : good_rpcs ascii_upper (d_methods ex_data)).
  { split; [constructor; [intros []|constructor]|]. intros r [<-|[]]. split; [reflexivity|discriminate]. }
  assert (Hcc : forall r, In r (d_methods ex_data) -> go_camel_case (rpc_req r) = rpc_req r /\ go_camel_case (rpc_resp r) = rpc_resp r) by (intros r [<-|[]]; split; reflexivity).
  assert (Hs : ~ In c_slash (to_lower (d_name ex_data))) by noslash.
  assert (Hw1 : wf_node (NDir [])) by (constructor; constructor).
  assert (Hd1 : on_disk ex_fs ex_root (NDir [])) by (intros [|a rel]; reflexivity).
  assert (Hr : render ascii_upper (T "Foo") [hello] (Some (first_file (T "Foo") [hello])) (Ret (first_file (T "Foo") [hello]))).
  { apply (RenderAgain ascii_upper (T "Foo") [hello] (first_file (T "Foo") [hello]) (first_file (T "Foo") [hello]) [] []); [reflexivity|apply Permutation_refl]. }
  assert (Ht : forall t, In t assets -> t <> ServiceMethodsPath -> ex_tmpl t ex_data <> None) by (intros t _ _; discriminate).
  destruct (run_exists ascii_upper ex_tmpl ex_parse ex_print ex_format ex_fs ex_root ex_pb ex_data (read_previous_generation (last ex_root []) (T "foo") (NDir [])) Ht) as [ops1 R1].
  { intros b K. discriminate. }
  assert (HE : forall p, In p (all_files (T "foo") true) -> run_ops ex_fs ops1 (ex_root ++ p) = lookup (NDir ex_tree) p).
  { intros p Hp. destruct Hp as [<-|[<-|Hp]].
    - pose proof (service_file_survives ascii_upper ex_tmpl ex_parse ex_print ex_format ex_fs ex_root [] [T "src"; T "pb"] (T "foo") ex_data ops1 Hs Hw1 Hd1 R1) as K. cbv beta iota in K. destruct K as (c & E & K). injection E as <-. exact K.
    - destruct (finished_run ascii_upper ex_tmpl ex_parse ex_print ex_format ex_fs ex_root [T "src"; T "pb"] (T "foo") ex_data _ ops1 true Hs R1 eq_refl) as (m & b & Hgk & _ & Hf & _).
      destruct (Hf server_file) as [E _]; [right; left; reflexivity|]. rewrite E. destruct (runner_fresh _ _ _ _ _ _ _ _ Hgk) as (c & Ec & K). injection Ec as <-. exact K.
    - apply in_map_iff in Hp. destruct Hp as ([p' t] & <- & Hp). cbn [fst].
      pose proof (user_files_survive ascii_upper ex_tmpl ex_parse ex_print ex_format ex_fs ex_root [] [T "src"; T "pb"] (T "foo") ex_data ops1 Hs Hw1 Hd1 R1 p' t Hp) as K. cbv beta iota in K.
      destruct K as (c & E & K). injection E as <-. etransitivity; [exact K|]. unfold user_files in Hp. cbn [app In] in Hp. repeat destruct Hp as [Hp|Hp]; try contradiction; injection Hp as <- <-; reflexivity. }
  assert (Hd2 : on_disk (run_ops ex_fs ops1) ex_root (NDir ex_tree)).
  { intro rel. destruct (lookup (NDir ex_tree) rel) as [b|] eqn:El.
    - rewrite <- El. apply HE. apply (ex_tree_files rel b El).
    - destruct (finished_run ascii_upper ex_tmpl ex_parse ex_print ex_format ex_fs ex_root [T "src"; T "pb"] (T "foo") ex_data _ ops1 true Hs R1 eq_refl) as (m & b & Hgk & _ & _ & Hst & _).
      destruct (in_dec (list_eq_dec str_eq_dec) rel (all_files (T "foo") true)) as [Hi|Hi]; [rewrite (HE rel Hi); exact El|].
      destruct (existsb (fun o => under (ex_root ++ rel) (ex_root ++ o)) [[T "svc"; T "server"; T "cli"]; [T "svc"; T "client"; T "cli"]; [T "cmd"; T "foo" ++ T "-server"]]) eqn:Es.
      + apply existsb_exists in Es. destruct Es as (o & Ho & Hu). apply under_spec in Hu. destruct Hu as (rest & E). apply Hst. exists o, rest. split; [exact Ho|]. rewrite E, <- app_assoc. reflexivity.
      + apply (only_generated_touched ascii_upper ex_tmpl ex_parse ex_print ex_format ex_fs ex_root [T "src"; T "pb"] (T "foo") ex_data _ ops1 true Hs R1 ops1); [exists []; symmetry; apply app_nil_r|discriminate| |].
        * intro K. apply in_map_iff in K. destruct K as (p & E & K). apply app_inv_head in E. subst p. exact (Hi K).
        * intros (o & rest & Ho & E). assert (existsb (fun o => under (ex_root ++ rel) (ex_root ++ o)) [[T "svc"; T "server"; T "cli"]; [T "svc"; T "client"; T "cli"]; [T "cmd"; T "foo" ++ T "-server"]] = true) as K by (apply existsb_exists; exists o; split; [exact Ho|]; apply under_spec; exists rest; rewrite E; rewrite <- app_assoc; reflexivity). congruence. }
  destruct (run_exists ascii_upper ex_tmpl ex_parse ex_print ex_format (run_ops ex_fs ops1) ex_root ex_pb ex_data (read_previous_generation (last ex_root []) (T "foo") (NDir ex_tree)) Ht) as [ops2 R2].
  { intros b K. assert (b = ServicePath) as -> by (vm_compute in K; injection K as <-; reflexivity). exists (first_file (T "Foo") [hello]), (first_file (T "Foo") [hello]). split; [reflexivity|exact Hr]. }
  exists ops1, ops2. split; [exact Hs|]. split; [exact Hg|]. split; [exact Hcc|]. split.
  { split; [reflexivity|]. split; [|intros c [= <-]; split; reflexivity].
    intros b ds out Hp Ho. unfold ex_parse in Hp. destruct (str_eqb b ServicePath); [|discriminate]. injection Hp as <-.
    pose proof (regeneration_idempotent ascii_upper (T "Foo") [hello] None (first_file (T "Foo") [hello]) (Ret out) Hg Hcc (RenderFirst _ _ _) Ho) as E. injection E as ->. reflexivity. }
  split; [exact ex_not_stale|]. split; [exact Hw1|]. split; [exact Hd1|]. split; [exact R1|]. split; [exact ex_tree_wf|]. split; [exact Hd2|exact R2].
Qed.
(** Two files of one directory are accepted, and two of different ones are not. *)
Example same_directory_nonvacuous :
  clean_proto_paths Some [T "/p/a.proto"; T "/p/b.proto"] = Some [T "/p/a.proto"; T "/p/b.proto"] /\ clean_proto_paths Some [T "/p/a.proto"; T "/q/b.proto"] = None /\ abs_dir (T "/a.proto") = T "/".
Proof. repeat split. Qed.

Print Assumptions generated_files.
Print Assumptions generation_succeeds.
Print Assumptions user_files_survive.
Print Assumptions service_file_survives.
Print Assumptions finished_run.
Print Assumptions crash_leaves_beginning.
Print Assumptions failed_run_touches_nothing.
Print Assumptions rerun_changes_nothing.
Print Assumptions accepted_iff_same_directory.
Print Assumptions proto_files_distinct.
