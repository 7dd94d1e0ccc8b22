(** Proofs about what a generation run does to the disk. *)
From Coq Require Import Permutation.
From Verif Require Import GoStr GoStrProofs GoMap Strs Handler SplitJoin Generator GeneratorSpec GeneratorProofs.

Lemma path_eqb_spec : forall a b, reflect (a = b) (path_eqb a b).
Proof.
  induction a as [|x a IH]; intros [|y b]; cbn; try (constructor; congruence). destruct (str_eqb_spec x y) as [->|N1]; cbn; [|constructor; congruence].
  destruct (IH b) as [->|N1]; constructor; congruence.
Qed.
Lemma under_spec : forall root p, under p root = true <-> exists rest, p = root ++ rest.
Proof.
  induction root as [|x r IH]; intros p; [cbn; split; [exists p; reflexivity|destruct p; reflexivity]|].
  destruct p as [|y p]; cbn; [split; [discriminate|intros (rest & K); discriminate]|]. destruct (str_eqb_spec x y) as [->|N1]; cbn.
  - rewrite IH. split; intros (rest & K); exists rest; [subst; reflexivity|injection K as ->; reflexivity].
  - split; [discriminate|intros (rest & K); injection K as K _; congruence].
Qed.

Definition touches (o : op) (q : path) : Prop :=
  match o with OCreate p => q = p | OWrite p _ => q = p | ORemoveAll p => exists rest, q = p ++ rest end.
Lemma step_untouched : forall fs o q, ~ touches o q -> step_op fs o q = fs q.
Proof.
  intros fs [p|p b|p] q H; cbn [step_op touches] in *.
  - destruct (path_eqb_spec q p); [contradiction|reflexivity].
  - destruct (path_eqb_spec q p); [contradiction|reflexivity].
  - destruct (under q p) eqn:E; [|reflexivity]. apply under_spec in E. contradiction.
Qed.
Lemma run_untouched : forall ops fs q, (forall o, In o ops -> ~ touches o q) -> run_ops fs ops q = fs q.
Proof.
  unfold run_ops. induction ops as [|o ops IH]; intros fs q H; [reflexivity|]. cbn [fold_left]. rewrite IH by (intros o' Ho; apply H; right; exact Ho).
  apply step_untouched. apply H. left. reflexivity.
Qed.
Lemma run_app : forall a b fs, run_ops fs (a ++ b) = run_ops (run_ops fs a) b.
Proof. intros. unfold run_ops. apply fold_left_app. Qed.

(** One file. *)
Lemma writes_content : forall p chunks fs c, fs p = Some c -> run_ops fs (map (OWrite p) chunks) p = Some (c ++ concat chunks).
Proof.
  intros p chunks. unfold run_ops. induction chunks as [|x l IH]; intros fs c H; cbn [map fold_left concat]; [rewrite app_nil_r; exact H|].
  rewrite (IH _ (c ++ x)); [rewrite <- app_assoc; reflexivity|]. cbn [step_op]. destruct (path_eqb_spec p p); [|contradiction]. rewrite H. reflexivity.
Qed.
Lemma gen_file_touches : forall p b ops o q, write_gen_file p b ops -> In o ops -> touches o q -> q = p.
Proof.
  intros p b ops o q H Hi Ht. destruct H as [chunks _]. destruct Hi as [<-|Hi]; [exact Ht|]. apply in_map_iff in Hi. destruct Hi as (x & <- & _). exact Ht.
Qed.
Lemma gen_file_content : forall p b ops fs, write_gen_file p b ops -> run_ops fs ops p = Some b.
Proof.
  intros p b ops fs H. destruct H as [chunks <-]. change (OCreate p :: map (OWrite p) chunks) with ([OCreate p] ++ map (OWrite p) chunks). rewrite run_app.
  rewrite (writes_content p chunks _ []); [reflexivity|]. cbn. destruct (path_eqb_spec p p); [reflexivity|contradiction].
Qed.
(** A file while it is being written. *)
Lemma gen_file_prefix : forall p b ops fs done rest, write_gen_file p b ops -> ops = done ++ rest ->
  done = [] \/ exists pre post, run_ops fs done p = Some pre /\ b = pre ++ post.
Proof.
  intros p b ops fs done rest H E. destruct H as [chunks <-]. destruct done as [|o done]; [auto|]. right. cbn [app] in E. injection E as <- E.
  assert (K : exists c1 c2, chunks = c1 ++ c2 /\ done = map (OWrite p) c1).
  { exists (firstn (length done) chunks), (skipn (length done) chunks). rewrite firstn_skipn. split; [reflexivity|]. symmetry. transitivity (firstn (length done) (map (OWrite p) chunks)); [symmetry; apply firstn_map|].
    rewrite E, firstn_app, firstn_all, Nat.sub_diag. cbn. rewrite app_nil_r. reflexivity. }
  destruct K as (c1 & c2 & -> & ->). exists (concat c1), (concat c2). split; [|apply concat_app].
  change (OCreate p :: map (OWrite p) c1) with ([OCreate p] ++ map (OWrite p) c1). rewrite run_app. rewrite (writes_content p c1 _ []); [reflexivity|]. cbn. destruct (path_eqb_spec p p); [reflexivity|contradiction].
Qed.

(** All files. *)
Lemma write_files_touches : forall root files ops o q, write_files root files ops -> In o ops -> touches o q -> exists rel, In rel (map fst files) /\ q = dest root rel.
Proof.
  intros root files ops o q H. induction H as [|rel b fs o1 o2 H1 H2 IH]; intros Hi Ht; [destruct Hi|]. apply in_app_or in Hi. destruct Hi as [Hi|Hi].
  - exists rel. split; [left; reflexivity|]. apply (gen_file_touches _ _ _ _ _ H1 Hi Ht).
  - destruct (IH Hi Ht) as (r & K & ->). exists r. split; [right; exact K|reflexivity].
Qed.
Lemma dest_inj : forall root a b, dest root a = dest root b -> a = b.
Proof. intros root a b H. unfold dest in H. apply app_inv_head in H. rewrite <- (join_split c_slash a), H. apply join_split. Qed.
Lemma write_files_content : forall root files ops, write_files root files ops -> NoDup (map fst files) -> forall fs rel b, In (rel, b) files -> run_ops fs ops (dest root rel) = Some b.
Proof.
  intros root files ops H. induction H as [|rel0 b0 fl o1 o2 H1 H2 IH]; intros Hn fs rel b Hi; [destruct Hi|]. inversion Hn as [|x y Hx Hy]; subst. rewrite run_app. destruct Hi as [[= -> ->]|Hi].
  - rewrite run_untouched; [apply (gen_file_content _ _ _ _ H1)|]. intros o Ho Ht. destruct (write_files_touches _ _ _ _ _ H2 Ho Ht) as (r & Hr & E). apply dest_inj in E. subst r. contradiction.
  - apply (IH Hy). exact Hi.
Qed.
(** While they are being written, each file is as before or has a beginning of its new content. *)
Lemma write_files_prefix : forall root files ops, write_files root files ops -> NoDup (map fst files) -> forall fs done rest rel b, ops = done ++ rest -> In (rel, b) files ->
  run_ops fs done (dest root rel) = fs (dest root rel) \/ exists pre post, run_ops fs done (dest root rel) = Some pre /\ b = pre ++ post.
Proof.
  intros root files ops H. induction H as [|rel0 b0 fl o1 o2 H1 H2 IH]; intros Hn fs done rest rel b E Hi; [destruct Hi|]. inversion Hn as [|x y Hx Hy]; subst. cbn [fst map] in *.
  assert (Hsplit : (exists r, o1 = done ++ r) \/ exists d2, done = o1 ++ d2 /\ o2 = d2 ++ rest).
  { clear - E. revert done E. induction o1 as [|o o1 IHo]; intros done E; [right; exists done; auto|]. destruct done as [|o' done]; [left; exists (o :: o1); reflexivity|].
    cbn [app] in E. injection E as <- E. destruct (IHo done E) as [(r & ->)|(d2 & -> & ->)]; [left; exists r; reflexivity|right; exists d2; auto]. }
  destruct Hi as [[= -> ->]|Hi].
  - destruct Hsplit as [(r & ->)|(d2 & -> & ->)].
    + destruct (gen_file_prefix _ _ _ fs done r H1 eq_refl) as [->|K]; [left; reflexivity|right; exact K].
    + right. exists b, []. rewrite app_nil_r. split; [|reflexivity]. rewrite run_app, run_untouched; [apply (gen_file_content _ _ _ _ H1)|].
      intros o Ho Ht. destruct (write_files_touches _ _ _ o _ H2 (in_or_app _ _ _ (or_introl Ho)) Ht) as (q & Hq & Ed). apply dest_inj in Ed. subst q. contradiction.
  - assert (Hne : rel <> rel0) by (intros ->; apply Hx; apply (in_map fst) in Hi; exact Hi). destruct Hsplit as [(r & ->)|(d2 & -> & ->)].
    + left. apply run_untouched. intros o Ho Ht. apply Hne. apply (dest_inj root). apply (gen_file_touches _ _ _ o _ H1 (in_or_app _ _ _ (or_introl Ho)) Ht).
    + destruct (IH Hy (run_ops fs o1) d2 rest rel b eq_refl Hi) as [K|K]; [left|right; rewrite run_app; exact K]. rewrite run_app, K. apply run_untouched.
      intros o Ho Ht. apply Hne. apply (dest_inj root). apply (gen_file_touches _ _ _ o _ H1 Ho Ht).
Qed.

(** The clean-up. *)
Lemma remove_touches : forall p ops o q, remove_all p ops -> In o ops -> touches o q -> exists rest, q = p ++ rest.
Proof.
  intros p ops o q H Hi Ht. destruct H as [below Hb]. apply in_app_or in Hi. destruct Hi as [Hi|[<-|[]]]; [|exact Ht]. apply in_map_iff in Hi. destruct Hi as (x & <- & Hx).
  apply (proj1 (Forall_forall _ _) Hb) in Hx. apply under_spec in Hx. destruct Hx as (r1 & ->). destruct Ht as (r2 & ->). exists (r1 ++ r2). rewrite app_assoc. reflexivity.
Qed.
Lemma clean_one_touches : forall fs p ops o q, clean_one fs p ops -> In o ops -> touches o q -> exists rest, q = p ++ rest.
Proof. intros fs p ops o q H Hi Ht. destruct H as [_|ops H]; [destruct Hi|apply (remove_touches _ _ _ _ H Hi Ht)]. Qed.
Lemma clean_one_gone : forall fs p ops q, clean_one fs p ops -> (exists rest, q = p ++ rest) -> run_ops fs ops q = None.
Proof.
  intros fs p ops q H Hq. apply under_spec in Hq. destruct H as [H|ops H]; [apply H; exact Hq|]. destruct H as [below Hb]. rewrite run_app. cbn. rewrite Hq. reflexivity.
Qed.
Lemma cleanup_touches : forall fs root svc ops o q, cleanup fs root svc ops -> In o ops -> touches o q -> stale root svc q.
Proof.
  intros fs root svc ops o q H Hi Ht. destruct H as [o1 o2 o3 H1 H2 H3]. rewrite !in_app_iff in Hi. destruct Hi as [Hi|[Hi|Hi]].
  - destruct (clean_one_touches _ _ _ _ _ H1 Hi Ht) as (rest & ->). exists [T "svc"; T "server"; T "cli"], rest. split; [left; reflexivity|rewrite app_assoc; reflexivity].
  - destruct (clean_one_touches _ _ _ _ _ H2 Hi Ht) as (rest & ->). exists [T "svc"; T "client"; T "cli"], rest. split; [right; left; reflexivity|rewrite app_assoc; reflexivity].
  - destruct (clean_one_touches _ _ _ _ _ H3 Hi Ht) as (rest & ->). exists [T "cmd"; svc ++ T "-server"], rest. split; [right; right; left; reflexivity|rewrite app_assoc; reflexivity].
Qed.
Lemma none_stays : forall fs p ops q, clean_one fs p ops -> fs q = None -> run_ops fs ops q = None.
Proof.
  intros fs p ops q H Hq. destruct (under q p) eqn:E; [apply (clean_one_gone _ _ _ _ H); apply under_spec; exact E|].
  rewrite run_untouched; [exact Hq|]. intros o Ho Ht. destruct (clean_one_touches _ _ _ _ _ H Ho Ht) as (rest & K). assert (K2 : under q p = true) by (apply under_spec; exists rest; exact K). congruence.
Qed.
Lemma cleanup_gone : forall fs root svc ops q, cleanup fs root svc ops -> stale root svc q -> run_ops fs ops q = None.
Proof.
  intros fs root svc ops q H (old & rest & Hi & ->). destruct H as [o1 o2 o3 H1 H2 H3]. rewrite !run_app in *. destruct Hi as [<-|[<-|[<-|[]]]].
  - eapply none_stays; [exact H3|]. eapply none_stays; [exact H2|]. eapply clean_one_gone; [exact H1|]. exists rest. rewrite app_assoc. reflexivity.
  - eapply none_stays; [exact H3|]. eapply clean_one_gone; [exact H2|]. exists rest. rewrite app_assoc. reflexivity.
  - eapply clean_one_gone; [exact H3|]. exists rest. rewrite app_assoc. reflexivity.
Qed.

(** The files of a service. *)
Lemma t_no_slash : forall s, contains1 s c_slash = false -> ~ In c_slash s.
Proof.
  intros s H K. unfold contains1 in H. assert (existsb (N.eqb c_slash) s = true); [|congruence]. apply existsb_exists. exists c_slash. split; [exact K|apply N.eqb_refl].
Qed.
Lemma file_names : forall svc client p, ~ In c_slash svc -> In p (all_files svc client) -> p <> [] /\ Forall (fun nm => ~ In c_slash nm) p.
Proof.
  intros svc client p Hs H. assert (Hc : ~ In c_slash (svc ++ T "-client")) by (intro K; apply in_app_or in K; destruct K as [K|K]; [contradiction|revert K; apply t_no_slash; reflexivity]).
  assert (A : forall a b, contains1 a c_slash = false -> contains1 b c_slash = false -> [a; b] <> [] /\ Forall (fun nm => ~ In c_slash nm) [a; b]).
  { intros a b Ha Hb. split; [discriminate|]. constructor; [apply t_no_slash; exact Ha|]. constructor; [apply t_no_slash; exact Hb|constructor]. }
  assert (B : forall a, ~ In c_slash a -> [T "cmd"; a; T "main.go"] <> [] /\ Forall (fun nm => ~ In c_slash nm) [T "cmd"; a; T "main.go"]).
  { intros a Ha. split; [discriminate|]. constructor; [apply t_no_slash; reflexivity|]. constructor; [exact Ha|]. constructor; [apply t_no_slash; reflexivity|constructor]. }
  unfold all_files, user_files in H. cbn [map app fst] in H.
  destruct H as [<-|[<-|[<-|[<-|[<-|[<-|[<-|H]]]]]]]; try (apply A; reflexivity); [apply B; exact Hs|]. destruct client; [|destruct H]. destruct H as [<-|[]]. apply B. exact Hc.
Qed.
Lemma dest_file : forall root svc client p, ~ In c_slash svc -> In p (all_files svc client) -> dest root (slashed p) = root ++ p.
Proof. intros root svc client p Hs H. destruct (file_names svc client p Hs H) as [H1 H2]. unfold dest, slashed. rewrite (split_join c_slash p H1 H2). reflexivity. Qed.
Lemma file_walked : forall base svc client p, In p (all_files svc client) -> dirs_ok base svc base p.
Proof.
  intros base svc client p H. assert (Hb : walked base svc base = true) by (unfold walked; cbn [existsb]; rewrite str_eqb_refl; reflexivity).
  assert (W : forall n, In n [base; svc; svc ++ T "-client"; T "service"; T "cmd"; T "server"] -> walked base svc n = true) by (intros n K; unfold walked; apply existsb_exists; exists n; split; [exact K|apply str_eqb_refl]).
  unfold all_files, user_files in H. cbn [map app fst] in H.
  destruct H as [<-|[<-|[<-|[<-|[<-|[<-|[<-|H]]]]]]]; try (cbn [dirs_ok service_file server_file main_file]; repeat split; apply W; cbn [In]; tauto).
  destruct client; [|destruct H]. destruct H as [<-|[]]. cbn [dirs_ok client_file]. repeat split; apply W; cbn [In]; tauto.
Qed.
Lemma file_not_stale : forall root svc client p, In p (all_files svc client) -> ~ stale root svc (root ++ p).
Proof.
  intros root svc client p H (old & rest & Ho & E). apply app_inv_head in E. assert (Hn : forall s, svc ++ T "-server" <> svc ++ s \/ s = T "-server") by (intro s; destruct (str_eq_dec s (T "-server")); [auto|left; intro K; apply app_inv_head in K; congruence]).
  unfold all_files, user_files in H. cbn [map app fst] in H.
  destruct H as [<-|[<-|[<-|[<-|[<-|[<-|[<-|H]]]]]]].
  8: destruct client; [|destruct H]; destruct H as [<-|[]].
  all: cbn [In] in Ho; destruct Ho as [<-|[<-|[<-|[]]]]; cbn [app service_file server_file main_file client_file] in E; try discriminate E.
  - injection E as E _. destruct (Hn []) as [K|K]; [apply K; rewrite app_nil_r; congruence|discriminate].
  - injection E as E _. destruct (Hn (T "-client")) as [K|K]; [apply K; congruence|discriminate].
Qed.
Lemma baron_not_file : forall root svc client p pb bare, In p (all_files svc client) -> pb ++ [bare ++ T ".pb.baron.go"] <> root ++ p.
Proof.
  intros root svc client p pb bare H E. assert (El : last (pb ++ [bare ++ T ".pb.baron.go"]) [] = last (root ++ p) []) by (rewrite E; reflexivity).
  rewrite last_last in El. assert (Hl : exists n, p = removelast p ++ [n] /\ In n [T "service.go"; T "server.go"; T "main.go"; T "endpoints.go"; T "interrupt.go"; T "wrapper.go"]).
  { unfold all_files, user_files in H. cbn [map app fst] in H. destruct H as [<-|[<-|[<-|[<-|[<-|[<-|[<-|H]]]]]]]; try (eexists; split; [reflexivity|cbn [In]; tauto]).
    destruct client; [|destruct H]. destruct H as [<-|[]]. eexists. split; [reflexivity|cbn [In]; tauto]. }
  destruct Hl as (n & Ep & Hn). rewrite Ep, app_assoc, last_last in El. apply (f_equal (@rev N)) in El. rewrite rev_app_distr in El.
  cbn [In] in Hn. repeat destruct Hn as [<-|Hn]; try contradiction; vm_compute in El; discriminate.
Qed.
