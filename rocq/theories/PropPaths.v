(** C65: where the generated service goes. *)
From Verif Require Import GoStr GoStrProofs SplitJoin SvcdefProofs2 Paths PathsSpec PathsProofs.
From Verif Require Import Generator GeneratorSpec GeneratorProofs GeneratorProofs2.

(** The name of the service's directory. *)
Definition svc_dir (name : str) : str := to_lower name ++ T "-service".
Lemma lower1_slash : forall c, lower1 c = c_slash -> c = c_slash.
Proof. intros c H. unfold lower1 in H. destruct (is_upper c) eqn:E; [|exact H]. exfalso. unfold is_upper in E. apply andb_true_iff in E. destruct E as [E1 E2]. apply N.leb_le in E1, E2. change c_slash with 47%N in H. lia. Qed.
Lemma lower_free : forall s, free c_slash s -> free c_slash (to_lower s).
Proof. intros s H K. apply in_map_iff in K. destruct K as (x & E & Hx). apply lower1_slash in E. subst x. exact (H Hx). Qed.
Lemma svc_dir_plain : forall name, ~ In c_slash name -> plain (svc_dir name).
Proof.
  intros name H. unfold svc_dir, plain. assert (L : 8 <= length (to_lower name ++ T "-service")) by (rewrite app_length; cbn; lia).
  repeat split.
  - intro E. rewrite E in L. cbn in L. lia.
  - intro E. rewrite E in L. cbn in L. lia.
  - intro E. rewrite E in L. cbn in L. lia.
  - intro K. apply in_app_or in K. destruct K as [K|K]; [exact (lower_free name H K)|]. vm_compute in K. repeat destruct K as [K|K]; discriminate || contradiction.
Qed.
Lemma svc_dir_split : forall name, ~ In c_slash name -> split1 c_slash (svc_dir name) = [svc_dir name].
Proof. intros name H. apply split1_one. destruct (svc_dir_plain name H) as (_ & _ & _ & K). exact K. Qed.

(** What is under the directory that -svcout leads to. *)
Definition below (svc_out name : str) : list str := if ends_in_slash svc_out then [svc_dir name] else [].

(** A -svcout that begins with a dot element leads where it leads from the working directory; one that ends in a slash
    gets the directory of the service appended. *)
Theorem c65_local_svcout : forall cw g gs svc_out name, Forall plain cw -> ~ In c_slash name ->
  (svc_out = T "." \/ svc_out = T ".." \/ (exists r, svc_out = T "./" ++ r) \/ (exists r, svc_out = T "../" ++ r)) ->
  service_path (text_of cw) (g :: gs) svc_out name = Some (text_of (goes cw svc_out ++ below svc_out name)).
Proof.
  intros cw g gs svc_out name Hc Hn Hl.
  assert (L : is_local_import svc_out = true).
  { destruct Hl as [->|[->|[(r & ->)|(r & ->)]]]; try reflexivity; unfold is_local_import; rewrite has_prefix_app, ?orb_true_r; reflexivity. }
  assert (Hne : svc_out <> []) by (intro; subst; discriminate).
  unfold service_path. destruct svc_out as [|c0 s0]; [congruence|]. set (s := c0 :: s0) in *. f_equal. unfold parse_svc_out. rewrite L.
  pose proof (local_not_abs s L) as NA. unfold fp_abs. rewrite NA.
  destruct (join2 (text_of cw) s (text_abs cw)) as [E P]. rewrite (text_of_goes cw Hc) in E, P. rewrite <- (goes_rel cw s NA) in E, P. rewrite E.
  unfold below. destruct (ends_in_slash s) eqn:Es.
  - rewrite (proj2 (last_split s) (or_intror Es)). fold (svc_dir name).
    destruct (join2 (text_of (goes cw s)) (svc_dir name) (text_abs _)) as [E2 P2]. etransitivity; [exact E2|]. rewrite (text_of_goes _ P), (svc_dir_split name Hn).
    rewrite go_plain; [reflexivity|]. constructor; [apply svc_dir_plain; exact Hn|constructor].
  - destruct (str_eqb (fp_file s) []) eqn:K; [apply last_split in K; destruct K; congruence|]. rewrite app_nil_r. reflexivity.
Qed.

(** Any other -svcout, absolute ones among them, leads where it leads from src in the first directory of GOPATH. *)
Definition parts (s : str) : list str := split1 c_slash s.
Theorem c65_gopath_svcout : forall cwd gp gs svc_out name, Forall plain gp -> ~ In c_slash name -> svc_out <> [] ->
  svc_out <> T "." -> svc_out <> T ".." -> (forall r, svc_out <> T "./" ++ r) -> (forall r, svc_out <> T "../" ++ r) ->
  service_path cwd (text_of gp :: gs) svc_out name = Some (text_of (fold_left go_elem (parts svc_out) (gp ++ [T "src"]) ++ below svc_out name)).
Proof.
  intros cwd gp gs svc_out name Hg Hn Hne H1 H2 H3 H4.
  assert (L : is_local_import svc_out = false).
  { unfold is_local_import. apply str_eqb_neq in H1, H2. rewrite H1, H2. cbn [orb].
    destruct (has_prefix svc_out (T "./")) eqn:A; [destruct (SvcdefProofs2.has_prefix_app _ _ A) as (r & E); exfalso; exact (H3 r E)|].
    destruct (has_prefix svc_out (T "../")) eqn:B; [destruct (SvcdefProofs2.has_prefix_app _ _ B) as (r & E); exfalso; exact (H4 r E)|]. reflexivity. }
  unfold service_path. destruct svc_out as [|c0 s0]; [congruence|]. set (s := c0 :: s0) in *. f_equal. unfold parse_svc_out. rewrite L.
  destruct (join3 (text_of gp) (T "src") s (text_abs gp)) as [E P]. rewrite (text_of_goes gp Hg) in E, P.
  change (split1 c_slash (T "src")) with [T "src"] in E, P. change (fold_left go_elem [T "src"] gp) with (gp ++ [T "src"]) in E, P. fold (parts s) in E, P. rewrite E.
  set (d := fold_left go_elem (parts s) (gp ++ [T "src"])) in *.
  unfold below. destruct (ends_in_slash s) eqn:Es.
  - rewrite (proj2 (last_split s) (or_intror Es)). fold (svc_dir name).
    destruct (join2 (text_of d) (svc_dir name) (text_abs _)) as [E2 P2]. etransitivity; [exact E2|]. rewrite (text_of_goes _ P), (svc_dir_split name Hn).
    rewrite go_plain; [reflexivity|]. constructor; [apply svc_dir_plain; exact Hn|constructor].
  - destruct (str_eqb (fp_file s) []) eqn:K; [apply last_split in K; destruct K; congruence|]. rewrite app_nil_r. reflexivity.
Qed.
(** ** Any texts, relative ones too: where a path leads, from any directory. *)
Theorem c65_clean_means : forall d s, goes d (clean s) = goes d s.
Proof. intros d s. apply clean_means. Qed.
(** Joining: empty elements in front are passed over, the first other decides whether the path is absolute, and the path leads
    along the elements one after the other. *)
Theorem c65_join_means : forall d n a l, a <> [] ->
  goes d (fp_join (repeat [] n ++ a :: l)) = fold_left (fun d e => fold_left go_elem (parts e) d) l (goes d a) /\ fp_join (repeat [] n) = [].
Proof.
  intros d n a l H. split; [|induction n as [|n IH]; [reflexivity|exact IH]]. induction n as [|n IH]; [|exact IH]. cbn [repeat app]. rewrite fp_join_cons by exact H.
  rewrite c65_clean_means. apply goes_joined. exact H.
Qed.
Lemma goes_nil : forall d, goes d [] = d.
Proof. reflexivity. Qed.
Lemma fp_join_goes : forall d a l, a <> [] -> goes d (fp_join (a :: l)) = fold_left (fun d e => fold_left go_elem (parts e) d) l (goes d a).
Proof. intros d a l H. exact (proj1 (c65_join_means d 0 a l H)). Qed.
Lemma clean_ne : forall s, clean s <> [].
Proof.
  intro s. unfold clean. destruct (is_abs s); [discriminate|]. destruct (clean_elems false (split1 c_slash s) []) as [|x l] eqn:E; [discriminate|].
  destruct (clean_unrooted (split1 c_slash s) [] []) as (_ & _ & N); [exists [], 0; split; [reflexivity|constructor]|apply split1_free|]. rewrite E in N.
  destruct x as [|c x]; [exfalso; apply N; left; reflexivity|]. destruct l; discriminate.
Qed.
(** Whatever the first element of GOPATH is, relative or empty, the service is below its src, as seen from the working directory. *)
Theorem c65_gopath_any : forall cw cwd g gs svc_out name, ~ In c_slash name -> svc_out <> [] ->
  svc_out <> T "." -> svc_out <> T ".." -> (forall r, svc_out <> T "./" ++ r) -> (forall r, svc_out <> T "../" ++ r) ->
  exists p, service_path cwd (g :: gs) svc_out name = Some p /\ goes cw p = fold_left go_elem (parts svc_out) (goes cw g ++ [T "src"]) ++ below svc_out name.
Proof.
  intros cw cwd g gs svc_out name Hn Hne H1 H2 H3 H4.
  assert (L : is_local_import svc_out = false).
  { unfold is_local_import. apply str_eqb_neq in H1, H2. rewrite H1, H2. cbn [orb].
    destruct (has_prefix svc_out (T "./")) eqn:A; [destruct (SvcdefProofs2.has_prefix_app _ _ A) as (r & E); exfalso; exact (H3 r E)|].
    destruct (has_prefix svc_out (T "../")) eqn:B; [destruct (SvcdefProofs2.has_prefix_app _ _ B) as (r & E); exfalso; exact (H4 r E)|]. reflexivity. }
  assert (Gs : forall d, fold_left go_elem (parts (T "src")) d = d ++ [T "src"]) by reflexivity.
  assert (J : goes cw (fp_join [g; T "src"; svc_out]) = fold_left go_elem (parts svc_out) (goes cw g ++ [T "src"]) /\ fp_join [g; T "src"; svc_out] <> []).
  { destruct g as [|c g].
    - change (fp_join [[]; T "src"; svc_out]) with (fp_join [T "src"; svc_out]). split; [|apply clean_ne]. rewrite fp_join_goes by discriminate. reflexivity.
    - split; [|apply clean_ne]. rewrite fp_join_goes by discriminate. cbn [fold_left]. rewrite Gs. reflexivity. }
  destruct J as [J Jn]. unfold service_path. destruct svc_out as [|c0 s0]; [congruence|]. set (s := c0 :: s0) in *. eexists. split; [reflexivity|]. unfold parse_svc_out. rewrite L.
  unfold below. destruct (ends_in_slash s) eqn:Es.
  - rewrite (proj2 (last_split s) (or_intror Es)). fold (svc_dir name). cbn iota. fold s in Jn, J. etransitivity; [exact (fp_join_goes cw (fp_join [g; T "src"; s]) [svc_dir name] Jn)|]. cbn [fold_left]. rewrite J. unfold parts at 1. rewrite (svc_dir_split name Hn).
    apply go_plain. constructor; [apply svc_dir_plain; exact Hn|constructor].
  - destruct (str_eqb (fp_file s) []) eqn:K; [apply last_split in K; destruct K; congruence|]. rewrite app_nil_r. exact J.
Qed.
Print Assumptions c65_clean_means.
Print Assumptions c65_join_means.
Print Assumptions c65_gopath_any.

(** So without dot-dot elements the service is below src of the first GOPATH directory... *)
Lemma go_down : forall l d, ~ In (T "..") l -> exists e, fold_left go_elem l d = d ++ e.
Proof.
  induction l as [|w l IH]; intros d H; [exists []; rewrite app_nil_r; reflexivity|]. cbn [fold_left].
  assert (Hl : ~ In (T "..") l) by (intro K; apply H; right; exact K).
  assert (Hw : str_eqb w (T "..") = false) by (apply str_eqb_neq; intro K; apply H; left; exact K).
  unfold go_elem at 2. rewrite Hw. destruct (str_eqb w [] || str_eqb w (T ".")); [apply IH; exact Hl|].
  destruct (IH (d ++ [w]) Hl) as (e & E). exists (w :: e). rewrite E, <- app_assoc. reflexivity.
Qed.
Theorem c65_gopath_below : forall cwd gp gs svc_out name, Forall plain gp -> ~ In c_slash name -> svc_out <> [] ->
  svc_out <> T "." -> (forall r, svc_out <> T "./" ++ r) -> ~ In (T "..") (parts svc_out) ->
  exists rest, service_path cwd (text_of gp :: gs) svc_out name = Some (text_of (gp ++ T "src" :: rest)).
Proof.
  intros cwd gp gs svc_out name Hg Hn Hne H1 H3 Hd. destruct (go_down (parts svc_out) (gp ++ [T "src"]) Hd) as (e & E).
  exists (e ++ below svc_out name). rewrite c65_gopath_svcout; auto.
  - rewrite E, <- !app_assoc. reflexivity.
  - intros ->. apply Hd. left. reflexivity.
  - intros r ->. apply Hd. unfold parts. change (T "../" ++ r) with (T ".." ++ c_slash :: r). rewrite split1_join2. left. reflexivity.
Qed.
(** ... and with them it may be anywhere. *)
Theorem c65_gopath_below_refuted : exists cwd gp svc_out name, Forall plain gp /\ svc_out <> [] /\ (forall r, svc_out <> T "../" ++ r) /\ (forall r, svc_out <> T "./" ++ r) /\
  forall gs, service_path cwd (text_of gp :: gs) svc_out name = Some (T "/etc").
Proof.
  exists (T "/home/u"), [T "go"], (T "a/../../../etc"), (T "Svc"). split; [constructor; [|constructor]|].
  { repeat split; try discriminate. intro K. vm_compute in K. repeat destruct K as [K|K]; discriminate || contradiction. }
  split; [discriminate|]. split; [intros r K; discriminate K|]. split; [intros r K; discriminate K|]. intro gs. reflexivity.
Qed.

(** An absolute -svcout is not the directory it names: the service never goes there unless it already is below GOPATH/src,
    that is, the path is appended to GOPATH/src. *)
Theorem c65_absolute_svcout_refuted : forall cwd gp gs d name, Forall plain gp -> Forall plain d -> d <> [] -> ~ In c_slash name ->
  service_path cwd (text_of gp :: gs) (text_of d) name = Some (text_of (gp ++ T "src" :: d)) /\
  service_path cwd (text_of gp :: gs) (text_of d) name <> Some (text_of d).
Proof.
  intros cwd gp gs d name Hg Hd Hne Hn.
  assert (E : service_path cwd (text_of gp :: gs) (text_of d) name = Some (text_of (gp ++ T "src" :: d))).
  { rewrite c65_gopath_svcout; auto; try (intros; discriminate). f_equal. f_equal. unfold below.
    assert (Es : ends_in_slash (text_of d) = false).
    { destruct (ends_in_slash (text_of d)) eqn:K; [|reflexivity]. exfalso. pose proof (proj2 (last_split (text_of d)) (or_intror K)) as F. unfold fp_file, text_of in F. change (c_slash :: join [c_slash] d) with ([] ++ c_slash :: join [c_slash] d) in F.
      rewrite split1_join2, (split_join c_slash d Hne (plain_free d Hd)) in F. destruct (exists_last Hne) as (d' & x & ->). rewrite app_assoc, last_last in F.
      apply Forall_app in Hd. destruct Hd as [_ Hx]. inversion Hx as [|y z (P1 & _) _]; subst. apply str_eqb_eq in F. exact (P1 F). }
    rewrite Es, app_nil_r. unfold parts, text_of. change (c_slash :: join [c_slash] d) with ([] ++ c_slash :: join [c_slash] d).
    rewrite split1_join2, (split_join c_slash d Hne (plain_free d Hd)). cbn [split1 app fold_left]. change (go_elem (gp ++ [T "src"]) []) with (gp ++ [T "src"]).
    rewrite go_plain by exact Hd. rewrite <- app_assoc. reflexivity. }
  split; [exact E|]. rewrite E. intro K. injection K as K. assert (K' : text_of (gp ++ T "src" :: d) = text_of d) by (unfold text_of; rewrite K; reflexivity).
  apply text_inj in K'; [|apply Forall_app; split; [exact Hg|constructor; [|exact Hd]]|exact Hd].
  - apply (f_equal (@length str)) in K'. rewrite app_length in K'. cbn [length] in K'. lia.
  - repeat split; try discriminate. intro F. vm_compute in F. repeat destruct F as [F|F]; discriminate || contradiction.
Qed.

(** Without -svcout, the service goes to its own directory in the working directory, named by a relative path. *)
Theorem c65_no_svcout : forall cwd gps name, ~ In c_slash name -> service_path cwd gps [] name = Some (svc_dir name) /\
  forall cw, Forall plain cw -> text_of (goes cw (svc_dir name)) = text_of (cw ++ [svc_dir name]).
Proof.
  intros cwd gps name Hn. pose proof (svc_dir_plain name Hn) as P. split.
  - unfold service_path. f_equal. change (to_lower name ++ T "-service") with (svc_dir name). unfold fp_join. change (join [c_slash] [T "."; svc_dir name]) with (T "." ++ c_slash :: svc_dir name).
    unfold clean. change (is_abs (T "." ++ c_slash :: svc_dir name)) with false. rewrite split1_join2, (svc_dir_split name Hn). change (split1 c_slash (T ".")) with [T "."].
    cbn [app clean_elems]. change (str_eqb (T ".") [] || str_eqb (T ".") (T ".")) with true. cbn iota.
    destruct P as (P1 & P2 & P3 & P4). apply str_eqb_neq in P1, P2, P3. rewrite P1, P2, P3. reflexivity.
  - intros cw _. f_equal. rewrite goes_rel.
    + rewrite (svc_dir_split name Hn). apply go_plain. constructor; [exact P|constructor].
    + destruct P as (P1 & _ & _ & P4). destruct (is_abs (svc_dir name)) eqn:E; [|reflexivity]. apply is_abs_cons in E. destruct E as (t & E). exfalso. apply P4. rewrite E. left. reflexivity.
Qed.
(** With GOPATH unset and no default for it, any -svcout crashes the program; otherwise none does. *)
Theorem c65_crash_iff : forall cwd gopath dflt svc_out name, service_path cwd (go_path gopath dflt) svc_out name = None <-> svc_out <> [] /\ gopath = [] /\ dflt = [].
Proof.
  intros cwd gopath dflt svc_out name.
  assert (S : forall s, split_list s = [] <-> s = []).
  { intros [|c s]; [tauto|]. split; [intro H; exfalso; exact (split1_ne _ _ H)|discriminate]. }
  assert (G : go_path gopath dflt = [] <-> gopath = [] /\ dflt = []).
  { unfold go_path. rewrite <- (S gopath), <- (S dflt). destruct (split_list gopath) eqn:E; [tauto|]. split; [discriminate|intros [K _]; discriminate]. }
  unfold service_path. destruct svc_out as [|c s]; [split; [discriminate|intros [K _]; congruence]|].
  rewrite <- G. destruct (go_path gopath dflt) as [|g l]; [split; [intros _; split; [discriminate|reflexivity]|reflexivity]|]. split; [discriminate|intros [_ K]; discriminate].
Qed.
(** The first directory of GOPATH; empty elements count. *)
Theorem c65_gopath_list : forall gopath dflt, (gopath <> [] -> go_path gopath dflt = split1 c_colon gopath) /\
  (dflt <> [] -> go_path [] dflt = split1 c_colon dflt).
Proof.
  intros gopath dflt. split; intro H.
  - unfold go_path, split_list. destruct gopath as [|c s]; [congruence|]. destruct (split1 c_colon (c :: s)) eqn:E; [exfalso; exact (split1_ne _ _ E)|reflexivity].
  - unfold go_path, split_list. destruct dflt; [congruence|reflexivity].
Qed.

(** A generated file is written where its name says, below the service directory. *)
Theorem c65_files : forall root svc client p, Forall plain root -> ~ In c_slash svc -> svc <> [] -> svc <> T "." -> svc <> T ".." -> In p (all_files svc client) ->
  file_path (text_of root) (slashed p) = text_of (root ++ p).
Proof.
  intros root svc client p Hr Hs H1 H2 H3 Hp. unfold file_path. destruct (join2 (text_of root) (slashed p) (text_abs root)) as [E _]. rewrite E, (text_of_goes root Hr).
  f_equal. destruct (file_names svc client p Hs Hp) as [Hne Hf]. unfold slashed. rewrite (split_join c_slash p Hne Hf). apply go_plain.
  assert (A : forall s, (forall k, s <> repeat 46%N k) -> ~ In c_slash s -> plain s).
  { intros s K Hk. split; [exact (K 0)|]. split; [exact (K 1)|]. split; [exact (K 2)|exact Hk]. }
  apply Forall_forall. intros e He. rewrite Forall_forall in Hf. pose proof (Hf e He) as Fe.
  split; [|split; [|split; [|exact Fe]]]; clear Hf E;
    unfold all_files, user_files, service_file, server_file, main_file, client_file in Hp; cbn [map fst In app] in Hp.
  all: intros ->.
  all: destruct Hp as [<-|[<-|[<-|[<-|[<-|[<-|[<-|Hp]]]]]]];
    [cbn [In] in He; repeat destruct He as [He|He]; try discriminate; try contradiction; congruence ..|].
  all: destruct client; cbn [map fst In] in Hp; [|contradiction]; destruct Hp as [<-|[]]; cbn [In] in He; repeat destruct He as [He|He]; try discriminate; try contradiction.
  all: apply (f_equal (@length N)) in He; rewrite app_length in He; cbn in He; lia.
Qed.
(** And files with different names go to different places. *)
Theorem c65_files_apart : forall root svc client p q, Forall plain root -> ~ In c_slash svc -> svc <> [] -> svc <> T "." -> svc <> T ".." ->
  In p (all_files svc client) -> In q (all_files svc client) -> file_path (text_of root) (slashed p) = file_path (text_of root) (slashed q) -> p = q.
Proof.
  intros root svc client p q Hr Hs H1 H2 H3 Hp Hq E.
  destruct (file_names svc client p Hs Hp) as [Np Fp]. destruct (file_names svc client q Hs Hq) as [Nq Fq].
  rewrite (c65_files root svc client p), (c65_files root svc client q) in E by assumption.
  unfold text_of in E. injection E as E.
  assert (E' : split1 c_slash (join [c_slash] (root ++ p)) = split1 c_slash (join [c_slash] (root ++ q))) by (rewrite E; reflexivity).
  rewrite !split_join in E'.
  - apply app_inv_head in E'. exact E'.
  - destruct root; [exact Nq|discriminate].
  - apply Forall_app. split; [apply plain_free; exact Hr|exact Fq].
  - destruct root; [exact Np|discriminate].
  - apply Forall_app. split; [apply plain_free; exact Hr|exact Fp].
Qed.

(** ** The hypotheses are met *)
Lemma plain_lit : forall s, plain s <-> s <> [] /\ s <> T "." /\ s <> T ".." /\ ~ In c_slash s.
Proof. reflexivity. Qed.
Example c65_local_case : service_path (T "/home/u/w") [T "/go"] (T "../out/./x/") (T "Echo") = Some (T "/home/u/out/x/echo-service") /\
  text_of [T "home"; T "u"; T "w"] = T "/home/u/w" /\ goes [T "home"; T "u"; T "w"] (T "../out/./x/") = [T "home"; T "u"; T "out"; T "x"].
Proof. vm_compute. auto. Qed.
Example c65_gopath_case : service_path (T "/home/u/w") [T "/go"; T "/go2"] (T "github.com/me/echo") (T "Echo") = Some (T "/go/src/github.com/me/echo").
Proof. reflexivity. Qed.
Example c65_absolute_case : service_path (T "/home/u/w") [T "/go"] (T "/tmp/out") (T "Echo") = Some (T "/go/src/tmp/out").
Proof. reflexivity. Qed.
Example c65_relative_case : service_path (T "/home/u/w") [T "../../a/.."] (T "x/") (T "Echo") = Some (T "../../src/x/echo-service") /\
  goes [T "home"; T "u"; T "w"] (T "../../src/x/echo-service") = [T "home"; T "src"; T "x"; T "echo-service"] /\
  service_path (T "/home/u/w") [[]] (T "x") (T "Echo") = Some (T "src/x").
Proof. vm_compute. auto. Qed.
Example c65_crash_case : service_path (T "/") (go_path [] []) (T "./x") (T "Echo") = None.
Proof. reflexivity. Qed.
Example c65_file_case : file_path (T "/w/echo-service") (T "cmd/echo/main.go") = T "/w/echo-service/cmd/echo/main.go" /\ In [T "cmd"; T "echo"; T "main.go"] (all_files (T "echo") true).
Proof. split; [reflexivity|]. right. right. left. reflexivity. Qed.

Print Assumptions c65_local_svcout.
Print Assumptions c65_gopath_svcout.
Print Assumptions c65_gopath_below.
Print Assumptions c65_gopath_below_refuted.
Print Assumptions c65_absolute_svcout_refuted.
Print Assumptions c65_no_svcout.
Print Assumptions c65_crash_iff.
Print Assumptions c65_gopath_list.
Print Assumptions c65_files.
Print Assumptions c65_files_apart.
