From Coq Require Import Permutation.
From Verif Require PropHandler.
From Verif Require Import HttpTransport GenHttp.
From Verif Require Import GoStr GoStrProofs GoMap SplitJoin Scanner Parser ParserSpec Strs Consolidate ConsolidateSpec SvcTypes Svcdef NewDef NewDefSpec PropNewDef Handler HandlerSpec Generator GeneratorSpec GeneratorProofs GeneratorProofs2 PropGenerator
  Paths PathsSpec PathsProofs PropPaths Protoc ProtocSpec ProtocProofs PropProtoc Cmdline Main MainSpec.

(** ** Paths *)
Lemma abs_goes : forall cw s, Forall plain cw -> fp_abs (text_of cw) s = text_of (goes cw s) /\ Forall plain (goes cw s).
Proof.
  intros cw s H. unfold fp_abs. destruct (is_abs s) eqn:E; [apply clean_abs; exact E|]. destruct (join2 (text_of cw) s (text_abs cw)) as [J P]. rewrite (text_of_goes cw H) in *. rewrite (goes_rel cw s E). split; assumption.
Qed.
Lemma at_abs : forall cw s, Forall plain cw -> at_path (fp_abs (text_of cw) s) = goes cw s.
Proof. intros cw s H. destruct (abs_goes cw s H) as [E P]. rewrite E. apply at_text. exact P. Qed.
Section S.
  Variables (w : world) (protos : list str) (cw d : dir) (names : list str) (gps : list dir) (t : dir) (fs : disk).
  Hypothesis SE : setting w protos cw d names gps t fs.
  Notation file n := (text_of (d ++ [proto_file n])).
  Notation genpb := (generate_pb (w_compile w) (w_has w)).

  Lemma names_ok : names <> [] /\ Forall (fun n => ~ In c_slash n) names.
  Proof.
    destruct SE as [_ [H1 H2] _ _ _ _ _ _ _]. split; [intros ->; inversion H2; subst; contradiction|]. clear - H2. induction H2 as [|r n rs ns [_ H] _ IH]; [apply Forall_nil|apply Forall_cons; assumption].
  Qed.
  Lemma dir_plain : Forall plain d.
  Proof. exact (proj1 (tame_text d (se_dir _ _ _ _ _ _ _ _ SE))). Qed.
  Lemma files_of : clean_proto_paths (fun s => Some (fp_abs (w_cwd w) s)) protos = Some (map (fun n => file n) names).
  Proof.
    pose proof dir_plain as Pd. destruct SE as [[Hc Pc] [_ H2] _ _ _ _ _ _ _]. apply accepted_iff_same_directory. rewrite Hc. split.
    - clear - H2 Pc. induction H2 as [|r n rs ns [H _] _ IH]; [reflexivity|]. cbn [map]. rewrite (proj1 (abs_goes cw r Pc)), H, IH. reflexivity.
    - assert (A : forall x, In x (map (fun n => file n) names) -> abs_dir x = text_of d).
      { intros x K. apply in_map_iff in K. destruct K as (n & <- & K). apply first_dir; [exact Pd|]. apply plain_proto. pose proof (proj2 names_ok) as N0. rewrite Forall_forall in N0. exact (N0 n K). }
      intros a b Ha Hb. rewrite (A a Ha), (A b Hb). reflexivity.
  Qed.
  Lemma first_file : abs_dir (hd [] (map (fun n => file n) names)) = text_of d.
  Proof.
    pose proof dir_plain as Pd. destruct names_ok as [H1 H2]. destruct names as [|n ns]; [congruence|]. inversion H2; subst. cbn [map hd]. apply first_dir; [exact Pd|apply plain_proto; assumption].
  Qed.
  Lemma gopath_of : go_path (w_gopath w) (w_default w) = map text_of gps.
  Proof. exact (proj1 (se_gopath _ _ _ _ _ _ _ _ SE)). Qed.
  (** protoc into a directory [x]. *)
  Lemma gen_frame : forall x g g' ok, Forall tame x -> genpb (map (fun n => file n) names) (map text_of gps) (text_of x) g = (g', ok) ->
    forall q, ~ pb_files x names q -> g' q = g q.
  Proof.
    intros x g g' ok Hx E q Hq. destruct names_ok as [H1 H2]. pose proof (c75_outputs _ _ d names gps x g g' ok H1 (se_dir _ _ _ _ _ _ _ _ SE) H2 (proj2 (se_gopath _ _ _ _ _ _ _ _ SE)) Hx E) as [[_ ->]|(_ & outs & _ & _ & _ & K)]; [reflexivity|].
    apply K; [intros n Hi ->; apply Hq; exists n; auto|intros n b Hi _ ->; apply Hq; exists n; auto].
  Qed.
  Lemma pb_apart : forall q r, pb_files d names q -> q <> t ++ r.
  Proof. intros q r (n & Hi & K) E. destruct (se_apart _ _ _ _ _ _ _ _ SE n r Hi) as [A B]. destruct K as [-> | ->]; [apply A|apply B]; symmetry; exact E. Qed.
  Lemma at_temp : at_path (text_of t) = t.
  Proof. apply at_text. exact (proj1 (tame_text t (proj2 (se_temp _ _ _ _ _ _ _ _ SE)))). Qed.
  (** FromPaths leaves the disk as it was. *)
  Lemma from_keeps : forall g g' r, (forall q, g (t ++ q) = None) -> from_paths w (map text_of gps) (map (fun n => file n) names) g = (g', r) -> forall q, g' q = g q.
  Proof.
    intros g g' r Hn E q. unfold from_paths in E. destruct (w_temp w) as [td|] eqn:Et; [|congruence]. pose proof (proj1 (se_temp _ _ _ _ _ _ _ _ SE) td Et) as ->.
    destruct (genpb _ _ (text_of t) g) as [g1 ok] eqn:Eg in E. injection E as <- _. cbn [step_op]. rewrite at_temp. destruct (under q t) eqn:Eu.
    - apply under_spec in Eu. destruct Eu as (rest & ->). symmetry. apply Hn.
    - apply (gen_frame t g g1 ok (proj2 (se_temp _ _ _ _ _ _ _ _ SE)) Eg). intros (n & _ & K). assert (under q t = true) by (apply under_spec; destruct K as [-> | ->]; eauto). congruence.
  Qed.
  Lemma new_there : forall g, (forall q, ~ pb_files d names q -> g q = fs q) -> forall q, g (t ++ q) = None.
  Proof. intros g H q. rewrite H; [apply (se_new _ _ _ _ _ _ _ _ SE)|]. intro K. exact (pb_apart _ _ K eq_refl). Qed.

  (** ** The front *)
  Lemma front_of : forall svcout, match parse_input w svcout protos fs with
    | FExit g _ => forall q, ~ pb_files d names q -> g q = fs q
    | FGo g c => (forall q, ~ pb_files d names q -> g q = fs q) /\ cf_files c = map (fun n => file n) names /\ cf_pb_path c = text_of d /\
        exists name g1, service_path (w_cwd w) (map text_of gps) svcout name = Some (cf_svc_path c) /\ cf_name c = to_lower name /\
          snd (from_paths w (map text_of gps) (map (fun n => file n) names) g1) = FrName name (cf_process c)
    end.
  Proof.
    intro svcout. unfold parse_input. rewrite files_of, first_file, gopath_of. destruct (w_packages w (text_of d) fs) as [[|x l]|]; try reflexivity.
    destruct (genpb _ _ (text_of d) fs) as [g1 ok] eqn:Eg. pose proof (gen_frame d fs g1 ok (se_dir _ _ _ _ _ _ _ _ SE) Eg) as F1. destruct ok; cbn [negb]; [|exact F1].
    destruct (from_paths w (map text_of gps) (map (fun n => file n) names) g1) as [g2 r] eqn:Ef. pose proof (from_keeps g1 g2 r (new_there g1 F1) Ef) as F2.
    assert (F : forall q, ~ pb_files d names q -> g2 q = fs q) by (intros q K; rewrite F2; apply F1; exact K). destruct r as [| |name p]; try exact F.
    destruct (service_path (w_cwd w) (map text_of gps) svcout name) as [sp|] eqn:Esp; [|exact F]. destruct (w_mkdir w sp); cbn [negb]; [|exact F]. destruct (w_packages w sp g2) as [[|y l']|]; try exact F.
    destruct (w_walk w sp); [|exact F]. split; [exact F|]. split; [reflexivity|]. split; [reflexivity|]. exists name, g1. split; [exact Esp|]. split; [reflexivity|]. rewrite Ef. reflexivity.
  Qed.
End S.

(** ** What is opened *)
Lemma mset_in : forall (m : gomap bytes) k v k' v', In (k', v') (mset m k v) -> (k', v') = (k, v) \/ In (k', v') m.
Proof.
  induction m as [|[a x] m IH]; intros k v k' v' H; cbn [mset] in H; [destruct H as [H|[]]; left; congruence|]. destruct (str_eqb_spec k a) as [->|Hn].
  - destruct H as [H|H]; [left; congruence|right; right; exact H].
  - destruct H as [H|H]; [right; left; exact H|]. destruct (IH _ _ _ _ H) as [K|K]; [left; exact K|right; right; exact K].
Qed.
Lemma open_values : forall g ps m m', open_files g m ps = Some m' -> forall k b, In (k, b) m' -> In (k, b) m \/ (In k ps /\ g (at_path k) = Some b).
Proof.
  intros g. induction ps as [|p ps IH]; intros m m' H k b Hi; cbn [open_files] in H; [injection H as <-; left; exact Hi|].
  destruct (g (at_path p)) as [c|] eqn:E; [|discriminate]. destruct (IH _ _ H k b Hi) as [K|[K1 K2]]; [|right; split; [right; exact K1|exact K2]].
  destruct (mset_in _ _ _ _ _ K) as [K'|K']; [injection K' as -> ->; right; split; [left; reflexivity|exact E]|left; exact K'].
Qed.
Lemma mset_new : forall (m : gomap bytes) k v, ~ In k (map fst m) -> mset m k v = m ++ [(k, v)].
Proof.
  induction m as [|[a x] m IH]; intros k v H; [reflexivity|]. cbn [mset map fst] in *. destruct (str_eqb_spec k a) as [->|Hn]; [exfalso; apply H; left; reflexivity|]. cbn [app]. f_equal. apply IH. intro K. apply H. right. exact K.
Qed.
Lemma open_all : forall g (c : str -> bytes) ps m, NoDup ps -> (forall p, In p ps -> ~ In p (map fst m) /\ g (at_path p) = Some (c p)) ->
  open_files g m ps = Some (m ++ map (fun p => (p, c p)) ps).
Proof.
  intros g c. induction ps as [|p ps IH]; intros m Hn H; [cbn; rewrite app_nil_r; reflexivity|]. inversion Hn as [|x l Hx Hl]; subst x l. cbn [open_files map].
  destruct (H p (or_introl eq_refl)) as [H1 H2]. rewrite H2. rewrite (mset_new m p (c p) H1). rewrite IH; [rewrite <- app_assoc; reflexivity|exact Hl|]. intros q Hq. destruct (H q (or_intror Hq)) as [K1 K2]. split; [|exact K2].
  rewrite map_app, in_app_iff. intros [K|[K|[]]]; [exact (K1 K)|]. cbn [fst] in K. subst q. exact (Hx Hq).
Qed.

(** ** The name of the service is an identifier of the Go files *)
Definition named (Q : str -> Prop) (s : option service) : Prop := match s with Some v => Q (sv_name v) | None => True end.
Lemma iface_loop_named : forall (Q : str -> Prop) upper ts svc ones svc' ones', (forall s, In s ts -> Q (trim_suffix (ts_name s) (T "Server"))) -> named Q svc ->
  iface_loop upper ts svc ones = SOk (svc', ones') -> named Q svc'.
Proof.
  intros Q upper. induction ts as [|t ts IH]; intros svc ones svc' ones' HQ Hu H; cbn [iface_loop] in H; [injection H as <- <-; exact Hu|].
  assert (HQ' : forall s, In s ts -> Q (trim_suffix (ts_name s) (T "Server"))) by (intros s K; apply HQ; right; exact K).
  destruct (ts_type t) as [ms| | |]; try exact (IH _ _ _ _ HQ' Hu H). destruct (has_prefix _ (T "Unsafe")); [exact (IH _ _ _ _ HQ' Hu H)|]. destruct (negb _).
  - destruct (has_prefix _ (T "is")); exact (IH _ _ _ _ HQ' Hu H).
  - unfold new_service in H. destruct (new_methods upper ms) as [xs| |] eqn:E; try discriminate. cbn [sbind] in H. eapply IH; [exact HQ'| |exact H]. apply HQ. left. reflexivity.
Qed.
Lemma new_files_named : forall (Q : str -> Prop) upper fs ofs sd sd' ofs', (forall f s, In (Some f) fs -> In s (type_specs f) -> Q (trim_suffix (ts_name s) (T "Server"))) -> named Q (sd_service sd) ->
  new_files upper ofs sd fs = SOk (sd', ofs') -> named Q (sd_service sd').
Proof.
  intros Q upper. induction fs as [|[f|] fs IH]; intros ofs sd sd' ofs' HQ Hu H; cbn [new_files] in H; [injection H as <- <-; exact Hu| |discriminate].
  destruct (new_file upper ofs sd f) as [[sd1 ofs1]| |] eqn:E; try discriminate. cbn [sbind] in H. eapply IH; [intros f' s K; apply HQ; right; exact K| |exact H]. unfold new_file in E.
  destruct (iface_loop upper (type_specs f) (sd_service sd) []) as [[svc ones]| |] eqn:Ei; try discriminate. cbn [sbind] in E. pose proof (iface_loop_named Q _ _ _ _ _ _ (fun s K => HQ f s (or_introl eq_refl) K) Hu Ei) as Hs.
  match type of E with sbind ?x _ = _ => destruct x as [[otypes o]| |]; try discriminate end. cbn [sbind] in E.
  destruct (type_loop upper (type_specs f) otypes o) as [[ms es]| |]; try discriminate. cbn [sbind] in E. injection E as <- <-. exact Hs.
Qed.
Lemma consolidate_named : forall (Q : str -> Prop) U files g sd sd', named Q (sd_service sd) -> consolidate U g sd files = Ret (COk sd') -> named Q (sd_service sd').
Proof.
  intros Q U. induction files as [|t files IH]; intros g sd sd' Hd H; cbn [consolidate] in H; [injection H as <-; exact Hd|].
  destruct (parse_text U g t) as [[r g']| |]; try discriminate. destruct r as [hs l|e| |]; try discriminate.
  - destruct (assemble_http_params sd hs) as [sd1| |] eqn:E; try discriminate. eapply IH; [|exact H]. unfold assemble_http_params in E. destruct (sd_service sd) as [sv|] eqn:Es.
    + destruct (assemble_methods _ _ _) as [ms| |]; try discriminate. injection E as <-. exact Hd.
    + destruct (hs_methods hs); [|discriminate]. injection E as <-. rewrite Es. exact I.
  - destruct (is_optional_error e); [injection H as <-; exact Hd|]. destruct (is_eof e); [|discriminate]. exact (IH _ _ _ Hd H).
Qed.
Lemma svcdef_new_named : forall (Q : str -> Prop) upper U p gofiles texts sd p', (forall f s, In (Some f) gofiles -> In s (type_specs f) -> Q (trim_suffix (ts_name s) (T "Server"))) ->
  svcdef_new upper U p gofiles texts = NewOk sd p' -> named Q (sd_service sd).
Proof.
  intros Q upper U p gofiles texts sd p' HQ H. unfold svcdef_new in H. destruct (new_go upper (pr_oneofs p) gofiles) as [[sd0 o]| |] eqn:E0; try discriminate.
  destruct (consolidate U (pr_scanner p) sd0 texts) as [[sd1| |]| |] eqn:Ec; try discriminate. injection H as -> _. eapply consolidate_named; [|exact Ec].
  unfold new_go in E0. destruct (new_files upper (pr_oneofs p) empty_svcdef gofiles) as [[sd2 o0]| |] eqn:E; try discriminate. cbn [sbind] in E0. injection E0 as <- <-.
  assert (K : named Q (sd_service sd2)) by (eapply new_files_named; [exact HQ| |exact E]; exact I). cbn [resolve_types sd_service]. destruct (sd_service sd2) as [sv|]; [exact K|exact I].
Qed.
Lemma trim_no_slash : forall s p, ~ In c_slash s -> ~ In c_slash (trim_suffix s p).
Proof.
  intros s p H K. apply H. unfold trim_suffix in K. destruct (has_suffix s p); [|exact K]. rewrite <- (firstn_skipn (length s - length p) s). apply in_or_app. left. exact K.
Qed.

Section T.
  Variables (w : world) (protos : list str) (cw d : dir) (names : list str) (gps : list dir) (t : dir) (fs : disk).
  Hypothesis SE : setting w protos cw d names gps t fs.
  Notation file n := (text_of (d ++ [proto_file n])).
  Lemma order_in : forall k l x, In x (w_order w k l) -> In x l.
  Proof. intros k l x K. eapply Permutation_in; [apply Permutation_sym; exact (se_order _ _ _ _ _ _ _ _ SE k l)|exact K]. Qed.
  Lemma at_file : forall n, In n names -> at_path (file n) = d ++ [proto_file n].
  Proof.
    intros n Hi. apply at_text. apply Forall_app. split; [exact (dir_plain _ _ _ _ _ _ _ _ SE)|]. pose proof (proj2 (names_ok _ _ _ _ _ _ _ _ SE)) as N0. rewrite Forall_forall in N0. apply Forall_cons; [apply plain_proto; exact (N0 n Hi)|apply Forall_nil].
  Qed.
  Lemma proto_not_pb : forall n, ~ pb_files d names (d ++ [proto_file n]).
  Proof.
    intros n (n' & _ & [K|K]); apply app_inv_head in K; injection K as K; unfold proto_file, go_file, grpc_file in K; apply (f_equal (@rev N)) in K; rewrite !rev_app_distr in K; vm_compute in K; discriminate.
  Qed.
  (** A definition that is made of the files given. *)
  Lemma new_from_facts : forall k p g dir sd p' sv, (forall q, ~ pb_files d names q -> g q = fs q) -> new_from w k p g dir (map (fun n => file n) names) = Some (NewOk sd p') -> sd_service sd = Some sv ->
    ~ In c_slash (sv_name sv) /\
    forall m sb, In m (sv_methods sv) -> In sb (sm_bindings m) -> exists texts, (forall x, In x texts -> exists n, In n names /\ fs (d ++ [proto_file n]) = Some x) /\ written_in (w_unicode w) texts (sm_name m) sb.
  Proof.
    intros k p g dir sd p' sv F E Es. unfold new_from in E. destruct (open_files g [] (pb_go_paths g dir _)) as [gos|] eqn:E1; [|discriminate]. destruct (open_files g [] (map (fun n => file n) names)) as [prs|] eqn:E2; [|discriminate].
    assert (E' : svcdef_new (w_upper w) (w_unicode w) p (map (fun x => w_go w (snd x)) (w_order w k gos)) (map snd (w_order w (S k) prs)) = NewOk sd p') by congruence. clear E. split.
    - assert (K : named (fun n => ~ In c_slash n) (sd_service sd)).
      { eapply svcdef_new_named; [|exact E']. intros f s K1 K2. apply trim_no_slash. apply in_map_iff in K1. destruct K1 as (x & K1 & _). exact (se_idents _ _ _ _ _ _ _ _ SE _ _ _ K1 K2). }
      rewrite Es in K. exact K.
    - intros m sb Hm Hb. exists (map snd (w_order w (S k) prs)). split; [|exact (proj1 (c73_nothing_else _ _ _ _ _ _ _ _ _ _ E' Es Hm Hb))].
      intros x K. apply in_map_iff in K. destruct K as ([f b] & <- & K). apply order_in in K. destruct (open_values _ _ _ _ E2 f b K) as [[]|[K1 K2]]. apply in_map_iff in K1. destruct K1 as (n & <- & Hi). exists n. split; [exact Hi|]. cbn [snd].
      rewrite <- F by apply proto_not_pb. rewrite <- (at_file n Hi). exact K2.
  Qed.
  Lemma baron_path_of : at_path (fp_join [text_of d; baron_file_name (hd [] (map (fun n => file n) names))]) = d ++ [baron_name (hd [] names)].
  Proof.
    pose proof (dir_plain _ _ _ _ _ _ _ _ SE) as Pd. destruct (names_ok _ _ _ _ _ _ _ _ SE) as [H1 H2]. destruct names as [|n ns]; [congruence|]. inversion H2 as [|x l Hn _]; subst x l. cbn [map hd].
    assert (E : baron_file_name (file n) = n ++ T ".pb.baron.go").
    { assert (E : exists dd, file n = dd ++ c_slash :: n ++ T ".proto") by (rewrite text_snoc; destruct d as [|e d0]; [exists []; reflexivity|exists (text_of (e :: d0)); reflexivity]). destruct E as [dd ->]. exact (proj2 (proj2 (proto_file_names dd n Hn))). }
    rewrite E. apply at_join; [exact Pd|]. apply plain_ext; [exact Hn| |cbn; lia]. intro K. vm_compute in K. repeat destruct K as [K|K]; discriminate || contradiction.
  Qed.
End T.

(** ** A generation that cannot fail *)
Lemma gokit_never_fails : forall upper tm parse_go print_go format_source dt prev, (forall x, In x assets -> x <> ServiceMethodsPath -> tm x dt <> None) ->
  (forall b, mget prev (slashed service_file) = Some b -> exists ds, parse_go b = Some ds /\ ~ render upper (d_name dt) (d_methods dt) (Some ds) Panic) ->
  ~ generate_gokit upper tm parse_go print_go format_source dt prev None.
Proof.
  intros upper tm parse_go print_go format_source dt prev Ht Hs (order & Hp & Hl). assert (Hi : incl order assets) by (intros x Hx; apply (Permutation_in x Hp Hx)). clear Hp. remember (@nil (str * bytes)) as m0 eqn:Em0. remember (@None (gomap bytes)) as res eqn:Er. clear Em0.
  induction Hl as [m|x ts m res He H IH|x ts m b res He Hr H IH|x ts m res He Hr H IH|x ts m g He Hr Hgg]; try discriminate; try (apply IH; [exact Er|intros y Hy; apply Hi; right; exact Hy]).
  specialize (Ht x (Hi x (or_introl eq_refl)) ltac:(intros ->; discriminate)). unfold response in Hr. destruct (str_eqb_spec x ServicePath) as [->|Hn].
  - change (template_path_to_actual ServicePath (to_lower (d_name dt))) with (slashed service_file) in Hr. remember (mget prev (slashed service_file)) as pb eqn:Epb. destruct Hr as [|b E|b ds out E R|b ds E R].
    + destruct (tm ServicePath dt); [|congruence]. cbn [finish] in Hgg. destruct Hgg; discriminate.
    + destruct (Hs b eq_refl) as (ds & K & _). congruence.
    + cbn [finish] in Hgg. destruct Hgg; discriminate.
    + destruct (Hs b eq_refl) as (ds' & K & N0). assert (ds' = ds) by congruence. subst ds'. exact (N0 R).
  - assert (K : (exists b, other_response tm format_source x dt (mget prev (template_path_to_actual x (to_lower (d_name dt)))) = GOk b) \/ other_response tm format_source x dt (mget prev (template_path_to_actual x (to_lower (d_name dt)))) = GIgnored).
    { clear Hgg Hr. unfold other_response, keep_or_make. destruct (tm x dt) as [c|]; [|congruence].
      destruct (mget prev (template_path_to_actual x (to_lower (d_name dt)))); destruct (d_client dt); repeat match goal with |- context [str_eqb x ?q] => destruct (str_eqb x q) end; cbn [finish]; first [right; reflexivity|left; eexists; reflexivity]. }
    destruct K as [[b K]|K]; rewrite K in Hr; subst g; destruct Hgg; discriminate.
Qed.
Lemma perm_route : forall upper f1 f2 m b r, Permutation f1 f2 -> route_of upper f1 m b r -> route_of upper f2 m b r.
Proof.
  intros upper f1 f2 m b r P (H1 & H2 & s & ps & (f & sp & g & rs & K1 & K2 & K3 & K4 & K5) & H3). split; [exact H1|]. split; [exact H2|]. exists s, ps. split; [|exact H3]. exists f, sp, g, rs. split; [eapply Permutation_in; [exact P|exact K1]|]. split; [exact K2|]. split; [exact K3|]. split; [exact K4|].
  eapply Permutation_in; [|exact K5]. apply perm_flat_map. exact P.
Qed.
Lemma forall2_some : forall (A B : Type) (f : A -> option B) l g, Forall2 (fun a b => f a = Some b) l g -> map f l = map Some g.
Proof. intros A B f l g H. induction H as [|a b l g H _ IH]; [reflexivity|]. cbn [map]. rewrite H, IH. reflexivity. Qed.
Lemma perm_somes : forall (A : Type) (l : list (option A)) (g : list A), Permutation (map Some g) l -> exists g', l = map Some g' /\ Permutation g g'.
Proof.
  intros A l g H. assert (K : forall x, In x l -> exists a, x = Some a) by (intros x Hx; apply (Permutation_in x (Permutation_sym H)), in_map_iff in Hx; destruct Hx as (a & <- & _); eauto).
  assert (E : exists g', l = map Some g'). { clear H. induction l as [|x l IH]; [exists []; reflexivity|]. destruct (K x (or_introl eq_refl)) as [a ->]. destruct IH as [g' ->]; [intros y Hy; apply K; right; exact Hy|]. exists (a :: g'). reflexivity. }
  destruct E as [g' ->]. exists g'. split; [reflexivity|]. apply (Permutation_map (fun o => match o with Some a => [a] | None => [] end)) in H. rewrite !map_map in H.
  assert (C : forall x : list A, concat (map (fun a => [a]) x) = x) by (induction x as [|y x IH]; [reflexivity|cbn; rewrite IH; reflexivity]). rewrite <- (C g), <- (C g'). clear C K.
  revert H. generalize (map (fun x : A => [x]) g) (map (fun x : A => [x]) g'). intros a b H. induction H as [|x a b H IH|x y a|a b c H IH H2 IH2]; cbn [concat]; [apply Permutation_refl|apply Permutation_app_head; exact IH|rewrite !app_assoc; apply Permutation_app_tail, Permutation_app_comm|etransitivity; eassumption].
Qed.

Section Ready.
  Variables (tmpl : svcdef -> opts -> str -> data -> option bytes) (parse_go : bytes -> option (list decl)).
  Variables (w : world) (o : opts) (protos : list str) (cw d : dir) (names : list str) (gps : list dir) (t : dir) (fs : disk).
  Variables (sv : service_src) (outs : str -> bytes * option bytes) (gos : list gofile) (root : dir).
  Hypothesis SE : setting w protos cw d names gps t fs.
  Hypothesis RD : ready tmpl parse_go w o cw d names gps t fs sv outs gos root.
  Notation file n := (text_of (d ++ [proto_file n])).
  Notation genpb := (generate_pb (w_compile w) (w_has w)).
  Definition made (x : dir) (g : disk) : Prop := forall n, In n names -> g (x ++ [go_file n]) = Some (fst (outs (proto_file n))) /\ g (x ++ [grpc_file n]) = snd (outs (proto_file n)).

  Lemma gen_made : forall x g, Forall tame x -> (forall q, ~ pb_files d names q -> g q = fs q) -> (forall n, In n names -> snd (outs (proto_file n)) = None -> g (x ++ [grpc_file n]) = None) ->
    exists g', genpb (map (fun n => file n) names) (map text_of gps) (text_of x) g = (g', true) /\ made x g' /\ forall q, ~ pb_files x names q -> g' q = g q.
  Proof.
    intros x g Hx F Hold. destruct (names_ok _ _ _ _ _ _ _ _ SE) as [Hne Hsl]. pose proof (se_dir _ _ _ _ _ _ _ _ SE) as Hd. pose proof (proj2 (se_gopath _ _ _ _ _ _ _ _ SE)) as Hg.
    destruct (rd_programs _ _ _ _ _ _ _ _ _ _ _ _ _ _ RD) as (P1 & P2 & P3 & _). destruct (rd_names _ _ _ _ _ _ _ _ _ _ _ _ _ _ RD) as [_ Hgr]. pose proof (rd_compiles _ _ _ _ _ _ _ _ _ _ _ _ _ _ RD g F) as Ec.
    pose proof (c75_no_error (w_compile w) (w_has w) d names gps x g outs Hne Hd Hsl Hg Hx P2 P3 P1 Ec (fun n n' A B _ => Hgr n n' A B)) as Eok.
    destruct (genpb (map (fun n => file n) names) (map text_of gps) (text_of x) g) as [g' ok] eqn:E. cbn [snd] in Eok. subst ok. exists g'. split; [reflexivity|]. split; [|exact (gen_frame _ _ _ _ _ _ _ _ SE x g g' true Hx E)].
    destruct (c75_outputs _ _ d names gps x g g' true Hne Hd Hsl Hg Hx E) as [[K _]|(_ & outs' & Ec' & K1 & K2 & K3)]; [discriminate|]. assert (outs' = outs) by congruence. subst outs'. intros n Hi. split; [exact (K1 n Hi)|].
    destruct (snd (outs (proto_file n))) as [b|] eqn:Es; [exact (K2 n b Hi Es)|]. rewrite K3; [exact (Hold n Hi Es)| |].
    - intros n' Hi' K. apply app_inv_head in K. injection K as K. unfold go_file, grpc_file in K. change (T "_grpc.pb.go") with (T "_grpc" ++ T ".pb.go") in K. rewrite app_assoc in K. apply app_inv_tail in K. exact (Hgr n n' Hi Hi' (eq_sym K)).
    - intros n' b Hi' Eb K. apply app_inv_head in K. injection K as K. apply app_inv_tail in K. subst n'. congruence.
  Qed.
  (** What the generator of definitions reads. *)
  Lemma plain_of : forall x n, Forall tame x -> In n names -> Forall plain (x ++ [go_file n]) /\ Forall plain (x ++ [grpc_file n]).
  Proof.
    intros x n Hx Hi. pose proof (proj2 (names_ok _ _ _ _ _ _ _ _ SE)) as Hsl. rewrite Forall_forall in Hsl. pose proof (proj1 (tame_text x Hx)) as Px.
    split; apply Forall_app; (split; [exact Px|]); (apply Forall_cons; [|apply Forall_nil]); [apply plain_go|apply plain_grpc]; exact (Hsl n Hi).
  Qed.
  Lemma paths_of : forall x g ns, Forall tame x -> made x g -> incl ns names -> pb_go_paths g (text_of x) (map (fun n => file n) ns) =
    flat_map (fun n => text_of (x ++ [go_file n]) :: match snd (outs (proto_file n)) with Some _ => [text_of (x ++ [grpc_file n])] | None => [] end) ns.
  Proof.
    intros x g ns Hx Hm Hi. unfold pb_go_paths. rewrite flat_map_concat_map, map_map, <- flat_map_concat_map. induction ns as [|n ns IH]; [reflexivity|]. cbn [flat_map]. rewrite IH by (intros y Hy; apply Hi; right; exact Hy). f_equal.
    pose proof (Hi n (or_introl eq_refl)) as Hn. pose proof (proj2 (names_ok _ _ _ _ _ _ _ _ SE)) as Hsl. rewrite Forall_forall in Hsl. destruct (c75_names d n (Hsl n Hn)) as [E1 E2]. cbv zeta in E1, E2. rewrite E1, E2. pose proof (proj1 (tame_text x Hx)) as Px.
    rewrite (join_text [] x (go_file n) Px), (join_text [] x (grpc_file n) Px) by (apply Forall_cons; [first [apply plain_go|apply plain_grpc]; exact (Hsl n Hn)|apply Forall_nil]).
    rewrite (at_text _ (proj2 (plain_of x n Hx Hn))). rewrite (proj2 (Hm n Hn)). destruct (snd (outs (proto_file n))); reflexivity.
  Qed.
  Lemma text_inj : forall a b, Forall plain a -> Forall plain b -> text_of a = text_of b -> a = b.
  Proof. intros a b Ha Hb E. rewrite <- (at_text a Ha), <- (at_text b Hb), E. reflexivity. Qed.
  Lemma opened : forall x g k p text, Forall tame x -> made x g -> (forall n, In n names -> g (d ++ [proto_file n]) = Some (text n)) ->
    exists gos' texts', new_from w k p g (text_of x) (map (fun n => file n) names) = Some (svcdef_new (w_upper w) (w_unicode w) p (map Some gos') texts') /\ Permutation gos gos' /\ Permutation (map text names) texts'.
  Proof.
    intros x g k p text Hx Hm Ht. destruct (rd_names _ _ _ _ _ _ _ _ _ _ _ _ _ _ RD) as [Hnd Hgr].
    set (ps := pb_go_paths g (text_of x) (map (fun n => file n) names)). assert (Eps : ps = flat_map (fun n => text_of (x ++ [go_file n]) :: match snd (outs (proto_file n)) with Some _ => [text_of (x ++ [grpc_file n])] | None => [] end) names) by (apply paths_of; [exact Hx|exact Hm|apply incl_refl]).
    set (c := fun q => match g (at_path q) with Some b => b | None => [] end).
    assert (Hc : forall q, In q ps -> g (at_path q) = Some (c q)).
    { intros q Hq. rewrite Eps in Hq. apply in_flat_map in Hq. destruct Hq as (n & Hn & Hq). destruct (Hm n Hn) as [M1 M2]. destruct (plain_of x n Hx Hn) as [P1 P2]. unfold c.
      destruct Hq as [<-|Hq]; [rewrite (at_text _ P1), M1; reflexivity|]. destruct (snd (outs (proto_file n))) as [b|]; [|destruct Hq]. destruct Hq as [<-|[]]. rewrite (at_text _ P2), M2. reflexivity. }
    assert (Hgo : map c ps = go_texts outs names).
    { rewrite Eps. unfold go_texts. clear Hc Eps ps Hnd Hgr Ht. assert (Hi : forall n, In n names -> In n names) by auto. revert Hi. generalize names at 1 3 4. intros ns Hi. induction ns as [|n ns IH]; [reflexivity|]. cbn [flat_map]. rewrite map_app, IH by (intros y Hy; apply Hi; right; exact Hy). f_equal.
      pose proof (Hi n (or_introl eq_refl)) as Hn. destruct (Hm n Hn) as [M1 M2]. destruct (plain_of x n Hx Hn) as [P1 P2]. cbn [map]. unfold c at 1. rewrite (at_text _ P1), M1. f_equal. destruct (snd (outs (proto_file n))) as [b|]; [|reflexivity]. cbn [map]. unfold c. rewrite (at_text _ P2), M2. reflexivity. }
    assert (Hps : NoDup ps).
    { rewrite Eps. clear Hc Hgo c Eps ps Ht. assert (A : forall n n', In n names -> In n' names -> text_of (x ++ [go_file n]) = text_of (x ++ [go_file n']) -> n = n').
      { intros n n' A B K. apply text_inj in K; [|exact (proj1 (plain_of x n Hx A))|exact (proj1 (plain_of x n' Hx B))]. apply app_inv_head in K. injection K as K. apply app_inv_tail in K. exact K. }
      assert (B : forall n n', In n names -> In n' names -> text_of (x ++ [grpc_file n]) = text_of (x ++ [grpc_file n']) -> n = n').
      { intros n n' A' B K. apply text_inj in K; [|exact (proj2 (plain_of x n Hx A'))|exact (proj2 (plain_of x n' Hx B))]. apply app_inv_head in K. injection K as K. apply app_inv_tail in K. exact K. }
      assert (C : forall n n', In n names -> In n' names -> text_of (x ++ [go_file n]) <> text_of (x ++ [grpc_file n'])).
      { intros n n' A' B' K. apply text_inj in K; [|exact (proj1 (plain_of x n Hx A'))|exact (proj2 (plain_of x n' Hx B'))]. apply app_inv_head in K. injection K as K. unfold go_file, grpc_file in K. change (T "_grpc.pb.go") with (T "_grpc" ++ T ".pb.go") in K. rewrite app_assoc in K. apply app_inv_tail in K. exact (Hgr n' n B' A' K). }
      assert (Hi : incl names names) by apply incl_refl. revert Hnd Hi. generalize names at 1 2 4. intros ns Hnd Hi. induction ns as [|n ns IH]; [apply NoDup_nil|]. inversion Hnd as [|y l N1 N2]; subst y l. assert (Hi' : incl ns names) by (intros y Hy; apply Hi; right; exact Hy). specialize (IH N2 Hi'). pose proof (Hi n (or_introl eq_refl)) as Hn. cbn [flat_map app].
      assert (O : forall n', In n' ns -> In n' names /\ n' <> n) by (intros n' K; split; [exact (Hi' n' K)|intros ->; exact (N1 K)]).
      apply NoDup_cons.
      - rewrite in_app_iff, in_flat_map. intros [K|(n' & K1 & [K2|K2])].
        + destruct (snd (outs (proto_file n))); [|destruct K]. destruct K as [K|[]]. exact (C n n Hn Hn (eq_sym K)).
        + destruct (O n' K1) as [O1 O2]. exact (O2 (A n' n O1 Hn K2)).
        + destruct (O n' K1) as [O1 O2]. destruct (snd (outs (proto_file n'))); [|destruct K2]. destruct K2 as [K2|[]]. exact (C n n' Hn O1 (eq_sym K2)).
      - destruct (snd (outs (proto_file n))) as [b|]; cbn [app]; [|exact IH]. apply NoDup_cons; [|exact IH]. rewrite in_flat_map. intros (n' & K1 & [K2|K2]); destruct (O n' K1) as [O1 O2].
        + exact (C n' n O1 Hn K2).
        + destruct (snd (outs (proto_file n'))); [|destruct K2]. destruct K2 as [K2|[]]. exact (O2 (B n' n O1 Hn K2)). }
    assert (O1 : open_files g [] ps = Some (map (fun q => (q, c q)) ps)) by (apply (open_all g c ps []); [exact Hps|]; intros q Hq; split; [intros []|exact (Hc q Hq)]).
    assert (Pf : forall n, In n names -> Forall plain (d ++ [proto_file n])).
    { intros n Hn. pose proof (proj2 (names_ok _ _ _ _ _ _ _ _ SE)) as Hsl. rewrite Forall_forall in Hsl. apply Forall_app. split; [exact (dir_plain _ _ _ _ _ _ _ _ SE)|]. apply Forall_cons; [apply plain_proto; exact (Hsl n Hn)|apply Forall_nil]. }
    assert (Hc2 : forall n, In n names -> c (file n) = text n) by (intros n Hn; unfold c; rewrite (at_text _ (Pf n Hn)), (Ht n Hn); reflexivity).
    assert (O2 : open_files g [] (map (fun n => file n) names) = Some (map (fun q => (q, c q)) (map (fun n => file n) names))).
    { apply (open_all g c _ []).
      - clear - Hnd Pf. assert (Hi : incl names names) by apply incl_refl. revert Hnd Hi. generalize names at 1 2 4. intros ns Hnd Hi. induction Hnd as [|n ns N1 N2 IH]; [apply NoDup_nil|]. cbn [map]. apply NoDup_cons; [|apply IH; intros y Hy; apply Hi; right; exact Hy].
        intro K. apply in_map_iff in K. destruct K as (n' & K & Hn'). apply text_inj in K; [|apply Pf, Hi; right; exact Hn'|apply Pf, Hi; left; reflexivity]. apply app_inv_head in K. injection K as K. apply app_inv_tail in K. subst n'. exact (N1 Hn').
      - intros q Hq. split; [intros []|]. apply in_map_iff in Hq. destruct Hq as (n & <- & Hn). rewrite (at_text _ (Pf n Hn)), (Ht n Hn), (Hc2 n Hn). reflexivity. }
    unfold new_from. fold ps. rewrite O1, O2.
    set (m1 := map (fun q => (q, c q)) ps). set (m2 := map (fun q => (q, c q)) (map (fun n => file n) names)).
    assert (G : Permutation (map Some gos) (map (fun y => w_go w (snd y)) (w_order w k m1))).
    { rewrite <- (forall2_some _ _ (w_go w) _ _ (proj1 (rd_go _ _ _ _ _ _ _ _ _ _ _ _ _ _ RD))). rewrite <- Hgo. rewrite map_map. assert (X : map (fun q => w_go w (c q)) ps = map (fun y => w_go w (snd y)) m1) by (unfold m1; rewrite map_map; reflexivity). rewrite X. apply Permutation_map. apply (se_order _ _ _ _ _ _ _ _ SE). }
    destruct (perm_somes _ _ _ G) as (gos' & E1 & E2). exists gos', (map snd (w_order w (S k) m2)). split; [rewrite E1; reflexivity|]. split; [exact E2|].
    assert (E3 : map text names = map snd m2). { unfold m2. rewrite !map_map. apply map_ext_in. intros n Hn. cbn [snd]. symmetry. exact (Hc2 n Hn). }
    rewrite E3. apply Permutation_map. apply (se_order _ _ _ _ _ _ _ _ SE).
  Qed.
  Lemma ready_front : exists g c sd p2 svc hs, parse_input w (op_svcout o) protos fs = FGo g c /\ cf_files c = map (fun n => file n) names /\ cf_pb_path c = text_of d /\ cf_name c = to_lower (go_camel_case (s_name sv)) /\
    at_path (fp_abs (w_cwd w) (cf_svc_path c)) = root /\ made d g /\ (forall q, ~ pb_files d names q -> g q = fs q) /\
    new_from w 2 (cf_process c) g (text_of d) (map (fun n => file n) names) = Some (NewOk sd p2) /\ sd_service sd = Some svc /\ sv_name svc = go_camel_case (s_name sv) /\
    map sm_name (sv_methods svc) = map (fun m => go_camel_case (m_name m)) (s_methods sv) /\ new_helper (sd_messages sd) (sv_methods svc) = Ret hs /\
    Forall2 (fun b r => route_of (w_upper w) gos (fst b) (snd b) r) (written_bindings sv) (make_routes hs).
  Proof.
    unfold parse_input. rewrite (files_of _ _ _ _ _ _ _ _ SE), (first_file _ _ _ _ _ _ _ _ SE), (gopath_of _ _ _ _ _ _ _ _ SE).
    destruct (rd_modules _ _ _ _ _ _ _ _ _ _ _ _ _ _ RD) as ((x0 & l0 & Ep) & sp & Esp & Er & Emk & Ewk & Epk). rewrite Ep. pose proof (se_dir _ _ _ _ _ _ _ _ SE) as Hd. destruct (rd_texts _ _ _ _ _ _ _ _ _ _ _ _ _ _ RD) as (text & Ht & Hpt).
    destruct (gen_made d fs Hd (fun _ _ => eq_refl) (rd_no_old _ _ _ _ _ _ _ _ _ _ _ _ _ _ RD)) as (g1 & Eg1 & M1 & F1). rewrite Eg1. cbn [negb].
    assert (Htt : Forall tame t) by exact (proj2 (se_temp _ _ _ _ _ _ _ _ SE)). pose proof (new_there _ _ _ _ _ _ _ _ SE g1 F1) as N1.
    destruct (gen_made t g1 Htt F1 (fun n _ _ => N1 [grpc_file n])) as (gt & Egt & Mt & Ft).
    assert (Tt : forall n, In n names -> gt (d ++ [proto_file n]) = Some (text n)).
    { intros n Hn. rewrite Ft, F1; [exact (Ht n Hn)|apply proto_not_pb|]. intros (n' & _ & [K|K]).
      - pose proof (N1 [go_file n']) as Z. rewrite <- K, F1, (Ht n Hn) in Z by apply proto_not_pb. discriminate.
      - pose proof (N1 [grpc_file n']) as Z. rewrite <- K, F1, (Ht n Hn) in Z by apply proto_not_pb. discriminate. }
    destruct (opened t gt 0 fresh_process text Htt Mt Tt) as (gos1 & texts1 & E1 & P1 & Q1). destruct (from_paths w (map text_of gps) (map (fun n => file n) names) g1) as [g2 r] eqn:Ef.
    pose proof (from_keeps _ _ _ _ _ _ _ _ SE g1 g2 r N1 Ef) as F2. assert (M2 : made d g2) by (intros n Hn; rewrite !F2; exact (M1 n Hn)). assert (F : forall q, ~ pb_files d names q -> g2 q = fs q) by (intros q K; rewrite F2; exact (F1 q K)).
    assert (T2 : forall n, In n names -> g2 (d ++ [proto_file n]) = Some (text n)) by (intros n Hn; rewrite F by apply proto_not_pb; exact (Ht n Hn)).
    destruct (rd_go _ _ _ _ _ _ _ _ _ _ _ _ _ _ RD) as (_ & Hco & HU). destruct (rd_programs _ _ _ _ _ _ _ _ _ _ _ _ _ _ RD) as (_ & _ & _ & Etd). unfold from_paths in Ef. rewrite Etd, Egt, E1 in Ef. cbv zeta in Ef. cbn iota in Ef.
    destruct (opened d g2 2 (match svcdef_new (w_upper w) (w_unicode w) fresh_process (map Some gos1) texts1 with NewOk _ p => p | _ => fresh_process end) text Hd M2 T2) as (gos2 & texts2 & E2 & P2 & Q2).
    destruct (c73_baron (w_upper w) (w_unicode w) gos1 gos2 sv texts1 texts2 HU (perm_texts _ _ _ _ Q1 Hpt) (perm_compiled _ _ _ _ P1 Hco)) as (sd & svc & hs & Eb & Es & En & Em & Eh & Erts); [transitivity gos; [apply Permutation_sym; exact P1|exact P2]|transitivity (map text names); [apply Permutation_sym; exact Q1|exact Q2]|].
    unfold baron_definition in Eb. destruct (svcdef_new (w_upper w) (w_unicode w) fresh_process (map Some gos1) texts1) as [sd1 p1| |] eqn:En1; try discriminate. destruct (sd_service sd1) as [sv1|] eqn:Es1; [|discriminate]. destruct (svcdef_new (w_upper w) (w_unicode w) p1 (map Some gos2) texts2) as [sd2 p2| |] eqn:En2; try discriminate.
    injection Eb as Eb1 Eb2. subst sd2. injection Ef as _ Ef. subst r. rewrite Eb1, Esp, Emk. cbn [negb]. destruct (Epk g2) as (x1 & l1 & Epk'). rewrite Epk', Ewk.
    eexists g2, _, sd, p2, svc, hs. split; [reflexivity|]. cbn [cf_files cf_pb_path cf_name cf_svc_path cf_process]. split; [reflexivity|]. split; [reflexivity|]. split; [reflexivity|]. destruct (se_cwd _ _ _ _ _ _ _ _ SE) as [Ec Pc].
    split; [rewrite Ec, Er; apply at_abs; exact Pc|]. split; [exact M2|]. split; [exact F|]. split; [exact E2|]. split; [exact Es|]. split; [exact En|]. split; [exact Em|]. split; [exact Eh|].
    clear - Erts P2. induction Erts as [|b r l rs K _ IH]; [apply Forall2_nil|apply Forall2_cons; [exact (perm_route _ _ _ _ _ _ (Permutation_sym P2) K)|exact IH]].
  Qed.
End Ready.
