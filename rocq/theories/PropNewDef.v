(** C73: from the .proto file to the routes of the generated server. *)
From Coq Require Import Permutation.
From Verif Require Import GoStr GoStrProofs GoMap Scanner ScannerSpec Lexer LexerSpec Strs SvcTypes Parser ParserSpec Consolidate ConsolidateSpec ConsolidateProofs
  Svcdef SvcdefSpec SvcdefProofs SvcdefProofs2 SvcdefProofs3 SvcdefProofs4 HttpTransport GenHttp NewDef NewDefSpec.
From Verif Require PropSvcdef PropConsolidate PropParser PropHttp PropLexer.

(** ** NewHelper never panics on a definition New made *)
Definition opts_ok (f : field) : Prop := forall os, ft_oneof (fd_type f) = Some os -> Forall (fun o => ft_msg (fd_type o) <> None) os.
Definition ofs_ok (ofs : gomap (list field)) : Prop := forall k os, mget ofs k = Some os -> Forall (fun o => ft_msg (fd_type o) <> None) os.
Lemma follow_opts : forall ofs e t t', ofs_ok ofs -> (forall os, ft_oneof t = Some os -> Forall (fun o => ft_msg (fd_type o) <> None) os) ->
  follow ofs e t = Some t' -> forall os, ft_oneof t' = Some os -> Forall (fun o => ft_msg (fd_type o) <> None) os.
Proof.
  intros ofs. induction e as [n|x IH|x IH|k IHk v IHv|x IH s|]; intros t t' Ho Ht H os E; cbn [follow] in H.
  - injection H as <-. cbn [ft_oneof] in E. destruct (mget ofs n) as [o|] eqn:Eg; [injection E as <-; exact (Ho n o Eg)|exact (Ht os E)].
  - eapply (IH _ t' Ho); [|exact H|exact E]. exact Ht.
  - eapply (IH _ t' Ho); [|exact H|exact E]. exact Ht.
  - destruct (new_map k v); [|discriminate]. injection H as <-. exact (Ht os E).
  - injection H as <-. exact (Ht os E).
  - injection H as <-. exact (Ht os E).
Qed.
Lemma new_field_opts : forall ofs g f, ofs_ok ofs -> new_field ofs g = SOk f -> opts_ok f.
Proof.
  intros ofs g f Ho H. unfold new_field in H. destruct (gf_names g); [discriminate|]. destruct (pb_field_name (gf_tag g)); try discriminate. cbn [sbind] in H.
  destruct (follow ofs (gf_type g) empty_ft) as [t|] eqn:E; [|discriminate]. injection H as <-. intros os Eo. eapply follow_opts; [exact Ho| |exact E|exact Eo]. intros os' K. discriminate.
Qed.
Lemma new_fields_opts : forall upper ofs fs l, ofs_ok ofs -> new_fields upper ofs fs = SOk l -> Forall opts_ok l.
Proof.
  intros upper ofs fs l Ho H. apply new_fields_spec in H. induction H as [|g f gs l H _ IH]; [constructor|]. constructor; [exact (new_field_opts ofs g f Ho H)|exact IH].
Qed.
Lemma new_message_opts : forall upper ofs n fs m, ofs_ok ofs -> new_message upper ofs n fs = SOk m -> Forall opts_ok (ms_fields m).
Proof.
  intros upper ofs n fs m Ho H. unfold new_message in H. destruct (new_fields upper ofs fs) as [l| |] eqn:E; try discriminate. cbn [sbind] in H. injection H as <-. exact (new_fields_opts upper ofs fs l Ho E).
Qed.
Lemma option_loop_opts : forall upper ts otypes ofs ofs', ofs_ok ofs -> option_loop upper ts otypes ofs = SOk ofs' -> ofs_ok ofs'.
Proof.
  intros upper. induction ts as [|t ts IH]; intros otypes ofs ofs' Ho H; cbn [option_loop] in H; [injection H as <-; exact Ho|].
  destruct (ts_type t) as [l|fs|n|]; try exact (IH _ _ _ Ho H). destruct (negb (go_exported upper (ts_name t))); [exact (IH _ _ _ Ho H)|].
  destruct (mget otypes (ts_name t)) as [iface|]; [|exact (IH _ _ _ Ho H)]. destruct (new_message upper ofs (ts_name t) fs) as [m| |]; try discriminate. cbn [sbind] in H.
  destruct (ms_fields m) as [|f more]; [discriminate|]. eapply IH; [|exact H]. intros k os Ek.
  destruct (str_eqb_spec k iface) as [->|Hk].
  - rewrite mget_mset_same in Ek. injection Ek as <-. apply Forall_app. split; [|constructor; [discriminate|constructor]]. destruct (mget ofs iface) as [l|] eqn:El; [exact (Ho _ _ El)|constructor].
  - rewrite mget_mset_other in Ek by congruence. exact (Ho _ _ Ek).
Qed.
Lemma type_loop_opts : forall upper ts otypes ofs ms es, ofs_ok ofs -> type_loop upper ts otypes ofs = SOk (ms, es) -> Forall (fun m => Forall opts_ok (ms_fields m)) ms.
Proof.
  intros upper ts otypes ofs ms es Ho H. apply type_loop_spec in H. destruct H as [H _]. induction H as [|s m l ms H _ IH]; [constructor|]. constructor; [exact (new_message_opts _ _ _ _ _ Ho H)|exact IH].
Qed.
Lemma new_files_opts : forall upper fs ofs sd sd' ofs', ofs_ok ofs -> Forall (fun m => Forall opts_ok (ms_fields m)) (sd_messages sd) -> new_files upper ofs sd fs = SOk (sd', ofs') ->
  Forall (fun m => Forall opts_ok (ms_fields m)) (sd_messages sd') /\ ofs_ok ofs'.
Proof.
  intros upper. induction fs as [|[f|] fs IH]; intros ofs sd sd' ofs' Ho Hs H; cbn [new_files] in H; [injection H as <- <-; split; [exact Hs|exact Ho]| |discriminate].
  destruct (new_file upper ofs sd f) as [[sd1 ofs1]| |] eqn:E; try discriminate. cbn [sbind] in H. unfold new_file in E.
  destruct (iface_loop upper (type_specs f) (sd_service sd) []) as [[svc ones]| |]; try discriminate. cbn [sbind] in E.
  assert (K : forall otypes ofs2, ofs_ok ofs2 -> sbind (type_loop upper (type_specs f) otypes ofs2) (fun '(ms, es) => SOk (mkSvcdef (go_pkg f) (sd_messages sd ++ ms) (sd_enums sd ++ es) svc, ofs2)) = SOk (sd1, ofs1) ->
     ofs_ok ofs1 /\ Forall (fun m => Forall opts_ok (ms_fields m)) (sd_messages sd1)).
  { intros otypes ofs2 H2 E2. destruct (type_loop upper (type_specs f) otypes ofs2) as [[ms es]| |] eqn:Et; try discriminate. cbn [sbind] in E2. injection E2 as <- <-. split; [exact H2|]. cbn [sd_messages]. apply Forall_app. split; [exact Hs|]. exact (type_loop_opts _ _ _ _ _ _ H2 Et). }
  destruct ofs as [|p ofs].
  - destruct (oneof_types (go_decls f) ones []) as [otypes| |]; try discriminate. cbn [sbind] in E. destruct (option_loop upper (type_specs f) otypes []) as [o| |] eqn:Eo; try discriminate. cbn [sbind] in E.
    destruct (K otypes o (option_loop_opts _ _ _ _ _ Ho Eo) E) as [K1 K2]. exact (IH _ _ _ _ K1 K2 H).
  - cbn [sbind] in E. destruct (K _ _ Ho E) as [K1 K2]. exact (IH _ _ _ _ K1 K2 H).
Qed.
Lemma set_type_oneof : forall tm t, ft_oneof (set_type tm t) = ft_oneof t.
Proof.
  intros tm t. unfold set_type, box_type. destruct (ft_map t) as [[k v]|]; [destruct (ft_star v); [reflexivity|]|]; destruct (mget tm (ft_name t)) as [[i|i]|]; reflexivity.
Qed.
Lemma new_go_opts : forall upper ofs fs sd o, ofs_ok ofs -> new_go upper ofs fs = SOk (sd, o) -> Forall (fun m => Forall opts_ok (ms_fields m)) (sd_messages sd) /\ ofs_ok o.
Proof.
  intros upper ofs fs sd o Ho H. unfold new_go in H. destruct (new_files upper ofs empty_svcdef fs) as [[sd0 o0]| |] eqn:E; try discriminate. cbn [sbind] in H. injection H as <- <-.
  apply new_files_opts in E; [|exact Ho|constructor]. destruct E as [E Eo]. split; [|exact Eo]. cbn [resolve_types sd_messages]. apply Forall_map. eapply Forall_impl; [|exact E]. intros m Hm. cbn [set_message ms_fields]. apply Forall_map.
  eapply Forall_impl; [|exact Hm]. intros f Hf os Eo'. cbn [set_field fd_type] in Eo'. rewrite set_type_oneof in Eo'. exact (Hf os Eo').
Qed.
Lemma new_options_ok : forall ms meth parent os, Forall (fun o => ft_msg (fd_type o) <> None) os -> exists xs, new_options ms meth parent os = Ret xs.
Proof.
  intros ms meth parent os H. induction H as [|o os H _ [xs IH]]; cbn [new_options]; [eexists; reflexivity|]. unfold new_option. destruct (ft_msg (fd_type o)) as [r|]; [|congruence]. rewrite IH. eexists. reflexivity.
Qed.
Lemma oneof_loop_ok : forall ms meth ps, Forall (fun p => opts_ok (pm_field p)) ps -> exists os, oneof_loop ms meth ps = Ret os.
Proof.
  intros ms meth ps H. induction H as [|p ps H _ [os IH]]; cbn [oneof_loop]; [eexists; reflexivity|]. destruct (ft_oneof (fd_type (pm_field p))) as [l|] eqn:E; [|exists os; exact IH].
  destruct (new_options_ok ms meth (pm_field p) l (H l E)) as [xs ->]. rewrite IH. eexists. reflexivity.
Qed.
Definition params_ok (m : smethod) : Prop := Forall (fun sb => Forall (fun p => opts_ok (pm_field p)) (sb_params sb)) (sm_bindings m).
Lemma new_binding_ok : forall ms i m, params_ok m -> i < length (sm_bindings m) -> exists b, new_binding ms i m = Ret b.
Proof.
  intros ms i m H Hi. unfold new_binding. destruct (nth_error (sm_bindings m) i) as [b|] eqn:E; [|apply nth_error_None in E; lia].
  unfold params_ok in H. rewrite Forall_forall in H. destruct (oneof_loop_ok ms (sm_name m) (sb_params b) (H b (nth_error_In _ _ E))) as [os ->]. eexists. reflexivity.
Qed.
Lemma new_bindings_ok : forall ms m is, params_ok m -> Forall (fun i => i < length (sm_bindings m)) is -> exists bs, new_bindings ms m is = Ret bs.
Proof.
  intros ms m is H Hi. induction Hi as [|i is Hi _ [bs IH]]; cbn [new_bindings]; [eexists; reflexivity|]. destruct (new_binding_ok ms i m H Hi) as [b ->]. rewrite IH. eexists. reflexivity.
Qed.
Lemma new_helper_ok : forall ms svc, Forall params_ok svc -> exists hs, new_helper ms svc = Ret hs.
Proof.
  intros ms svc H. induction H as [|m svc H _ [hs IH]]; cbn [new_helper]; [eexists; reflexivity|]. rewrite IH.
  assert (K : exists h, new_method ms m = Ret h).
  { unfold new_method. destruct (new_bindings_ok ms m (seq 0 (length (sm_bindings m))) H) as [bs ->]; [apply Forall_forall; intros i Hi; apply in_seq in Hi; lia|]. eexists. reflexivity. }
  destruct K as [h ->]. destruct (sm_bindings m); eexists; reflexivity.
Qed.
(** The routes are the bindings of the methods. *)
Lemma new_bindings_zip : forall ms m pre bs bs', sm_bindings m = pre ++ bs -> new_bindings ms m (seq (length pre) (length bs)) = Ret bs' ->
  Forall2 (fun sb hb => exists i, nth_error (sm_bindings m) i = Some sb /\ new_binding ms i m = Ret hb) bs bs'.
Proof.
  intros ms m pre bs. revert pre. induction bs as [|sb bs IH]; intros pre bs' E H; cbn [length seq new_bindings] in H; [injection H as <-; constructor|].
  destruct (new_binding ms (length pre) m) as [hb| |] eqn:Eb; try discriminate. destruct (new_bindings ms m (seq (S (length pre)) (length bs))) as [r| |] eqn:Er; try discriminate. injection H as <-.
  constructor.
  - exists (length pre). split; [|exact Eb]. rewrite E, nth_error_app2, Nat.sub_diag by lia. reflexivity.
  - apply (IH (pre ++ [sb])); [rewrite <- app_assoc; exact E|]. rewrite app_length. cbn [length]. rewrite Nat.add_1_r. exact Er.
Qed.
Definition all_bindings (svc : list smethod) : list (smethod * sbinding) := flat_map (fun m => map (pair m) (sm_bindings m)) svc.
Lemma helper_routes : forall ms svc hs, new_helper ms svc = Ret hs ->
  Forall2 (fun x r => fst r = sm_name (fst x) /\ exists i, nth_error (sm_bindings (fst x)) i = Some (snd x) /\ new_binding ms i (fst x) = Ret (snd r)) (all_bindings svc) (make_routes hs).
Proof.
  intros ms. induction svc as [|m svc IH]; intros hs H; cbn [new_helper] in H; [injection H as <-; constructor|]. unfold all_bindings. cbn [flat_map]. destruct (sm_bindings m) as [|sb sbs] eqn:Eb; [exact (IH hs H)|]. rewrite <- Eb.
  destruct (new_method ms m) as [h| |] eqn:Em; try discriminate. destruct (new_helper ms svc) as [hs2| |] eqn:Eh; try discriminate. injection H as <-. unfold make_routes. cbn [flat_map]. apply Forall2_app; [|exact (IH hs2 eq_refl)].
  unfold new_method in Em. destruct (new_bindings ms m (seq 0 (length (sm_bindings m)))) as [bs| |] eqn:Ebs; try discriminate. injection Em as <-. cbn [hm_name hm_binds].
  pose proof (new_bindings_zip ms m [] (sm_bindings m) bs eq_refl Ebs) as Z. clear - Z. revert Z. generalize (sm_bindings m) at 2 3. intros l Z. induction Z as [|x y l l' Z _ IH]; [constructor|]. cbn [map]. constructor; [|exact IH]. split; [reflexivity|exact Z].
Qed.

(** ** The whole way *)
(** The route for the binding [b] of the rpc [m]: its method, verb, path, and parameters. *)
Definition route_of (upper : N -> bool) (fs : list gofile) (m : method_src) (b : hbinding) (r : str * hbind) : Prop :=
  fst r = go_camel_case (m_name m) /\ verb_and_path b (hb_verb (snd r)) (hb_path (snd r)) /\
  exists s ps, request_struct upper fs m s /\ params_of upper b s ps /\
    map PropHttp.field_facts (hb_fields (snd r)) = map PropHttp.param_facts (filter PropHttp.usable ps) /\
    map (fun o => (ho_name o, ho_loc o)) (hb_oneofs (snd r)) = map (fun p => (fd_name (pm_field p), pm_loc p)) (filter PropHttp.is_oneof ps).

Lemma nodup_app_disj : forall (A : Type) (f : A -> str) x l, NoDup (map f (x :: l)) -> Forall (fun y => f x <> f y) l.
Proof. intros A f x l H. inversion H; subst. apply Forall_forall. intros y Hy E. apply H2. rewrite E. apply in_map. exact Hy. Qed.
Lemma bindings_none : forall ms name, Forall (fun m => name <> go_camel_case (m_name m)) ms -> bindings_for (concat (map mean_method ms)) name = [].
Proof.
  intros ms name H. induction H as [|m ms H _ IH]; [reflexivity|]. cbn [map concat]. unfold bindings_for in *. rewrite flat_map_app, IH, app_nil_r. unfold mean_method. destruct (m_options m); try reflexivity. cbn [flat_map Parser.hm_name].
  destruct (str_eqb_spec name (go_camel_case (m_name m))); [contradiction|reflexivity].
Qed.
Lemma bindings_own : forall ms m, NoDup (map (fun m => go_camel_case (m_name m)) ms) -> In m ms -> bindings_for (concat (map mean_method ms)) (go_camel_case (m_name m)) = http_bindings m.
Proof.
  induction ms as [|x ms IH]; intros m Hn Hi; [destruct Hi|]. pose proof (nodup_app_disj _ (fun m => go_camel_case (m_name m)) _ _ Hn) as D. inversion Hn as [|y l N1 N2]; subst. cbn [map concat]. unfold bindings_for. rewrite flat_map_app. fold (bindings_for (mean_method x) (go_camel_case (m_name m))). fold (bindings_for (concat (map mean_method ms)) (go_camel_case (m_name m))).
  destruct Hi as [->|Hi].
  - rewrite (bindings_none ms _ D), app_nil_r. unfold bindings_for, mean_method, http_bindings. destruct (m_options m); try reflexivity. cbn [flat_map Parser.hm_name Parser.hm_bindings]. rewrite str_eqb_refl, app_nil_r. reflexivity.
  - rewrite (IH m N2 Hi). assert (E : bindings_for (mean_method x) (go_camel_case (m_name m)) = []); [|rewrite E; reflexivity]. rewrite Forall_forall in D. specialize (D m Hi). unfold bindings_for, mean_method. destruct (m_options x); try reflexivity. cbn [flat_map Parser.hm_name].
    destruct (str_eqb_spec (go_camel_case (m_name m)) (go_camel_case (m_name x))) as [E|_]; [congruence|reflexivity].
Qed.
Lemma last_index_ex : forall n l, In n l -> exists i, last_index n l i.
Proof.
  intros n. induction l as [|x l IH]; intro H; [destruct H|]. destruct (in_dec str_eq_dec n l) as [Hi|Hi].
  - destruct (IH Hi) as [i Ei]. exists (S i). apply last_index_cons. exact Ei.
  - destruct H as [->|H]; [|contradiction]. exists 0. split; [reflexivity|]. intros [|j] Hj E; [lia|]. cbn in E. apply nth_error_In in E. contradiction.
Qed.
Lemma forall2_nth : forall (A B : Type) (R : A -> B -> Prop) l l' i y, Forall2 R l l' -> nth_error l' i = Some y -> exists x, nth_error l i = Some x /\ R x y.
Proof. intros A B R l l' i y H. revert i. induction H as [|a b l l' H _ IH]; intros [|i] E; try discriminate; cbn in *; [injection E as <-; exists a; auto|]. exact (IH i E). Qed.
Lemma forall2_in_l : forall (A B : Type) (R : A -> B -> Prop) l l' x, Forall2 R l l' -> In x l -> exists y, In y l' /\ R x y.
Proof. intros A B R l l' x H. induction H as [|a b l l' H _ IH]; intro Hi; [destruct Hi|]. destruct Hi as [->|Hi]; [exists b; split; [left; reflexivity|exact H]|]. destruct (IH Hi) as (y & Hy & K). exists y. split; [right; exact Hy|exact K]. Qed.
Lemma forall2_comp : forall (A B C : Type) (R : A -> B -> Prop) (S : B -> C -> Prop) l l' l2, Forall2 R l l' -> Forall2 S l' l2 -> Forall2 (fun a c => exists b, R a b /\ S b c) l l2.
Proof. intros A B C R S l l' l2 H. revert l2. induction H as [|a b l l' H _ IH]; intros l2 K; inversion K; subst; constructor; [exists b; auto|]. apply IH. assumption. Qed.
Lemma forall2_map_l : forall (A B C : Type) (f : A -> B) (R : B -> C -> Prop) l l', Forall2 (fun a c => R (f a) c) l l' -> Forall2 R (map f l) l'.
Proof. intros A B C f R l l' H. induction H; constructor; assumption. Qed.

(** The definition New makes of the Go files, with oneofs already known or not: the messages are the message structs, or all structs. *)
Lemma contents_in : forall upper ofs fs sd o, new_go upper ofs (map Some fs) = SOk (sd, o) -> one_with_options upper fs ->
  exists L, (L = flat_map (non_options upper) fs \/ L = flat_map (struct_specs upper) fs) /\ Forall2 (message_of upper) L (sd_messages sd) /\
    sd_enums sd = flat_map enum_names fs /\ service_is upper (last_of (flat_map server_specs fs) None) (sd_service sd).
Proof.
  intros upper ofs fs sd o H Ho. destruct ofs as [|p ofs].
  - destruct (PropSvcdef.definition_contents upper fs sd o H Ho) as (D1 & D2 & D3 & _). exists (flat_map (non_options upper) fs). split; [left; reflexivity|]. split; [exact D1|]. split; [exact D2|exact D3].
  - unfold new_go in H. sb H. destruct a as [sd0 o0]. injection H as <- <-. assert (Hne : p :: ofs <> []) by discriminate.
    destruct (new_files_again upper fs _ _ _ _ (p :: ofs) empty_svcdef E Hne) as (sd1 & ms & N1 & N2 & N3). rewrite E in N1. injection N1 as <- ->. destruct (new_files_rest upper fs _ _ _ _ E) as (R1 & R2 & _).
    exists (flat_map (struct_specs upper) fs). split; [right; reflexivity|]. split; [|split].
    + cbn [resolve_types sd_messages]. rewrite N2. cbn [empty_svcdef sd_messages app]. apply Forall2_map_r'. eapply Forall2_impl'; [|exact N3]. intros s m. apply set_message_of.
    + exact R1.
    + cbn [resolve_types sd_service]. apply set_service_is. apply R2. exact I.
Qed.
Lemma non_options_in : forall upper fs s, In s (flat_map (non_options upper) fs) -> In s (flat_map (struct_specs upper) fs).
Proof. intros upper fs s H. apply in_flat_map in H. destruct H as (f & Hf & H). apply in_flat_map. exists f. split; [exact Hf|]. apply filter_In in H. tauto. Qed.
Lemma nodup_fst : forall (A : Type) (l : list (str * A)) x y, NoDup (map fst l) -> In x l -> In y l -> fst x = fst y -> x = y.
Proof.
  intros A l x y H. induction l as [|z l IH]; intros Hx Hy E; [destruct Hx|]. inversion H as [|u v N1 N2]; subst. destruct Hx as [->|Hx], Hy as [->|Hy]; [reflexivity| | |exact (IH N2 Hx Hy E)].
  - destruct N1. rewrite E. apply in_map. exact Hy.
  - destruct N1. rewrite <- E. apply in_map. exact Hx.
Qed.
Lemma scanner_after_same : forall U, unicode_ok U -> forall texts sd, Forall (file_text U) texts -> scanner_after U globals0 sd texts = globals0.
Proof.
  intros U HU. induction texts as [|t texts IH]; intros sd H; [reflexivity|]. inversion H as [|x l H1 H2]; subst. cbn [scanner_after]. destruct (file_globals U HU t H1) as [r ->]. destruct r as [hs lx|e| |]; try reflexivity.
  - destruct (assemble_http_params sd hs); try reflexivity. exact (IH _ H2).
  - destruct (is_optional_error e); [reflexivity|]. destruct (is_eof e); [exact (IH _ H2)|reflexivity].
Qed.
Lemma routes_in : forall upper U ofs fs sv texts, unicode_ok U -> ofs_ok ofs -> proto_texts U texts sv -> compiled upper sv fs ->
  exists sd ofs' svc hs, svcdef_new upper U (mkProc ofs globals0) (map Some fs) texts = NewOk sd (mkProc ofs' globals0) /\ ofs_ok ofs' /\ sd_service sd = Some svc /\ sv_name svc = go_camel_case (s_name sv) /\
    map sm_name (sv_methods svc) = map (fun m => go_camel_case (m_name m)) (s_methods sv) /\
    new_helper (sd_messages sd) (sv_methods svc) = Ret hs /\
    Forall2 (fun w r => route_of upper fs (fst w) (snd w) r) (written_bindings sv) (make_routes hs).
Proof.
  intros upper U ofs fs sv texts HU HO HP [CF CO (gms & CS & CM) CN CT].
  destruct (PropSvcdef.generated_accepted upper ofs fs CF) as (sd0 & o & E0).
  destruct (contents_in upper ofs fs sd0 o E0 CO) as (L & HL & DM & DE & DS).
  destruct (PropSvcdef.definition_links upper ofs fs sd0 o E0) as [_ DL].
  assert (IL : forall n, In n (map fst (message_structs upper fs)) -> In n (map fst L)).
  { intros n Hn. destruct HL as [-> | ->]; [exact Hn|]. apply in_map_iff in Hn. destruct Hn as (s & <- & Hs). apply in_map. apply non_options_in. exact Hs. }
  assert (SL : forall s, In s L -> In (fst s) (map fst (message_structs upper fs)) -> In s (message_structs upper fs)).
  { intros s Hs Hn. destruct HL as [-> | ->]; [exact Hs|]. apply in_map_iff in Hn. destruct Hn as (s' & E' & Hs'). rewrite (nodup_fst _ _ s s' CT Hs (non_options_in _ _ _ Hs') (eq_sym E')). exact Hs'. }
  rewrite CS in DS. cbn [last_of fold_left service_is] in DS. destruct (sd_service sd0) as [sv0|] eqn:Es0; [|contradiction]. destruct DS as [DN DS]. cbn [fst snd] in DN, DS. apply app_inv_tail in DN.
  (* the methods *)
  assert (MM : Forall2 (fun m x => sm_name x = go_camel_case (m_name m) /\ sm_bindings x = [] /\
      (http_bindings m <> [] -> exists i s, ft_msg (sm_req x) = Some (MDef i) /\ request_struct upper fs m s /\ exists mm, nth_error (sd_messages sd0) i = Some mm /\ message_of upper s mm)) (s_methods sv) (sv_methods sv0)).
  { assert (CM' : Forall2 (fun m g => In g gms /\ exists rq rs, go_method m g rq rs /\ (http_bindings m <> [] -> exists n, rq = GIdent n /\ In n (map fst (message_structs upper fs)) /\ ~ In n (flat_map enum_names fs))) (s_methods sv) (filter (exported_method upper) gms)).
    { assert (I : forall g, In g (filter (exported_method upper) gms) -> In g gms) by (intros g Hg; apply filter_In in Hg; tauto). clear - CM I. induction CM as [|m g l l' H _ IH]; constructor; [split; [apply I; left; reflexivity|exact H]|]. apply IH. intros g' Hg. apply I. right. exact Hg. }
    assert (IS : exists f0, In f0 fs /\ In (go_camel_case (s_name sv) ++ T "Server", gms) (server_specs f0)).
    { assert (I : In (go_camel_case (s_name sv) ++ T "Server", gms) (flat_map server_specs fs)) by (rewrite CS; left; reflexivity). apply in_flat_map in I. exact I. }
    destruct IS as (f0 & If & Is).
    assert (DS' : Forall2 (fun g x => method_of g x /\ In x (sv_methods sv0)) (filter (exported_method upper) gms) (sv_methods sv0)).
    { clear - DS. assert (K : forall l l', Forall2 method_of l l' -> forall l2, incl l' l2 -> Forall2 (fun g x => method_of g x /\ In x l2) l l').
      { intros l l' H. induction H as [|a b l l' H _ IH]; intros l2 Hi; constructor; [split; [exact H|apply Hi; left; reflexivity]|]. apply IH. intros y Hy. apply Hi. right. exact Hy. }
      apply K; [exact DS|apply incl_refl]. }
    pose proof (forall2_comp _ _ _ _ _ _ _ _ CM' DS') as FF. eapply Forall2_impl'; [|exact FF]. clear - DL DM DE Es0 If Is IL SL.
    intros m x (g & (Hg & rq & rs & (G1 & c & e & G2) & GH) & ((n & rest & c' & rq' & ps & rs' & qs & M1 & M2 & M3 & M4 & M5 & M6) & Hx)).
    rewrite G1 in M1. injection M1 as <- <-. rewrite G2 in M2. injection M2 as <- <- <- <- <-. split; [exact M3|]. split; [exact M6|]. intro Hb. destruct (GH Hb) as (n & -> & In1 & In2).
    destruct M4 as (n' & K & M4 & _). assert (n' = n) as -> by (destruct K as [K|[y K]]; congruence).
    destruct (DL sv0 x eq_refl Hx) as [[_ LK] _].
    assert (Nn : map ms_name (sd_messages sd0) = map fst L).
    { clear - DM. revert DM. generalize (sd_messages sd0). intros l H. induction H as [|s mm l l' [H _] _ IH]; [reflexivity|]. cbn [map]. rewrite H, IH. reflexivity. }
    destruct (last_index_ex n (map ms_name (sd_messages sd0))) as [i Hi]; [rewrite Nn; apply IL; exact In1|].
    assert (Em : ft_msg (sm_req x) = Some (MDef i)) by (apply LK; exists i; split; [reflexivity|]; rewrite M4; split; [rewrite DE; exact In2|exact Hi]).
    destruct Hi as [Hi _]. rewrite nth_error_map in Hi. destruct (nth_error (sd_messages sd0) i) as [mm|] eqn:Ei; [|discriminate]. injection Hi as Hi.
    destruct (forall2_nth _ _ _ _ _ _ _ DM Ei) as (s & Es & Hs). exists i, s. split; [exact Em|]. split; [|exists mm; split; [exact Ei|exact Hs]].
    exists f0, (go_camel_case (s_name sv) ++ T "Server", gms), g, rs. split; [exact If|]. split; [exact Is|]. split; [exact Hg|]. assert (F : fst s = n) by (rewrite <- (proj1 Hs); exact Hi). rewrite F. split; [split; [exact G1|exists c, e; exact G2]|]. apply SL; [exact (nth_error_In _ _ Es)|rewrite F; exact In1]. }
  assert (NM : map sm_name (sv_methods sv0) = map (fun m => go_camel_case (m_name m)) (s_methods sv)).
  { clear - MM. induction MM as [|m x l l' (H & _) _ IH]; [reflexivity|]. cbn [map]. rewrite H, IH. reflexivity. }
  (* the proto files *)
  destruct HP as (main & others & pre & block & post & blocks & PP & PO & -> & PW & PF & PB & PR & PS & POK).
  destruct (PropParser.c14_parse_text U pre block post blocks sv HU PW PF PB PR PS POK) as [lx EP].
  assert (FT : file_text U (concat (pre ++ block ++ post))).
  { exists (pre ++ block ++ post), (block :: blocks). split; [reflexivity|]. split; [exact PW|]. apply pf_service; assumption. }
  assert (HH : Forall (has_home (sv_methods sv0)) (hs_methods (mean_service sv))).
  { cbn [mean_service hs_methods]. clear - MM. assert (K : forall l l' all, Forall2 (fun m x => sm_name x = go_camel_case (m_name m) /\ sm_bindings x = [] /\
      (http_bindings m <> [] -> exists i s, ft_msg (sm_req x) = Some (MDef i) /\ request_struct upper fs m s /\ exists mm, nth_error (sd_messages sd0) i = Some mm /\ message_of upper s mm)) l l' -> incl l' all -> Forall (has_home all) (concat (map mean_method l))).
    { intros l l' all H. induction H as [|m x l l' (H1 & _ & H2) _ IH]; intro Hi; [constructor|]. cbn [map concat]. apply Forall_app. split; [|apply IH; intros y Hy; apply Hi; right; exact Hy].
      unfold mean_method. unfold http_bindings in H2. destruct (m_options m) as [| |o c1 c2]; [constructor|constructor|]. constructor; [|constructor]. exists x. split; [apply Hi; left; reflexivity|]. split; [exact H1|]. cbn [Parser.hm_bindings]. intro Hb. destruct (H2 Hb) as (i & s & -> & _). discriminate. }
    eapply K; [exact MM|apply incl_refl]. }
  assert (ND : NoDup (map sm_name (sv_methods sv0))) by (rewrite NM; exact CN).
  destruct (PropConsolidate.c21_assemble sd0 sv0 (mean_service sv) Es0 ND) as [[_ A1] A2]. destruct (A1 HH) as [sd EA]. destruct (A2 sd EA) as (_ & SM & _ & svc & Es & Esn & FA).
  assert (AT : Forall (file_text U) texts).
  { eapply Permutation_Forall; [symmetry; exact PP|]. constructor; [exact FT|]. eapply Forall_impl; [|exact PO]. intros t (vs & E1 & E2 & E3). exists vs, []. auto. }
  assert (EN : svcdef_new upper U (mkProc ofs globals0) (map Some fs) texts = NewOk sd (mkProc o globals0)).
  { unfold svcdef_new. cbn [pr_oneofs pr_scanner]. rewrite E0. rewrite (scanner_after_same U HU texts sd0 AT). rewrite (consolidate_perm U HU texts _ others sd0 PP PO FT). cbn [consolidate]. unfold str in *. rewrite EP, EA. reflexivity. }
  (* the bindings *)
  assert (FB : Forall2 (fun m x => sm_name x = go_camel_case (m_name m) /\ exists fl, Forall2 (consolidated fl) (http_bindings m) (sm_bindings x) /\ (http_bindings m <> [] -> Forall opts_ok fl /\ exists s, request_struct upper fs m s /\ Forall2 field_of (filter (visible upper) (snd s)) fl)) (s_methods sv) (sv_methods svc)).
  { destruct (new_go_opts upper ofs (map Some fs) sd0 o HO E0) as [OK _]. rewrite Forall_forall in OK.
    assert (MM' : Forall2 (fun m x => In m (s_methods sv) /\ sm_name x = go_camel_case (m_name m) /\ sm_bindings x = [] /\
      (http_bindings m <> [] -> exists i s, ft_msg (sm_req x) = Some (MDef i) /\ request_struct upper fs m s /\ exists mm, nth_error (sd_messages sd0) i = Some mm /\ message_of upper s mm)) (s_methods sv) (sv_methods sv0)).
    { clear - MM. assert (K : forall l l' (P : method_src -> smethod -> Prop) all, Forall2 P l l' -> incl l all -> Forall2 (fun m x => In m all /\ P m x) l l').
      { intros l l' P all H. induction H as [|m x l l' H _ IH]; intro Hi; constructor; [split; [apply Hi; left; reflexivity|exact H]|]. apply IH. intros y Hy. apply Hi. right. exact Hy. }
      apply (K _ _ _ _ MM). apply incl_refl. }
    pose proof (forall2_comp _ _ _ _ _ _ _ _ MM' FA) as FF. eapply Forall2_impl'; [|exact FF]. intros m y (x & (Hm & M1 & M2 & M3) & ((S1 & S2 & S3) & new & N1 & N2)).
    split; [congruence|]. rewrite M2 in N1. cbn [app] in N1. subst new. rewrite M1 in N2. cbn [mean_service hs_methods] in N2. rewrite (bindings_own _ m CN Hm) in N2. exists (req_fields (sd_messages sd0) x). split; [exact N2|].
    intro Hb. destruct (M3 Hb) as (i & s & Em & Rs & mm & Ei & Ms & Mf). unfold req_fields. rewrite Em. cbn [fields_of]. rewrite Ei. split; [exact (OK mm (nth_error_In _ _ Ei))|]. exists s. split; [exact Rs|exact Mf]. }
  assert (PK : Forall params_ok (sv_methods svc)).
  { apply Forall_forall. intros x Hx. clear - FB Hx. induction FB as [|m y l l' (_ & fl & H1 & H2) _ IH]; [destruct Hx|]. destruct Hx as [->|Hx]; [|exact (IH Hx)].
    destruct (http_bindings m) as [|b0 bs0] eqn:Eb; [inversion H1 as [K|]; unfold params_ok; rewrite <- H; constructor|]. destruct (H2 ltac:(discriminate)) as [H3 _]. unfold params_ok. clear - H1 H3. induction H1 as [|b sb l l' (_ & K & _) _ IH]; [constructor|]. constructor; [|exact IH].
    apply Forall_map with (f := pm_field) (P := opts_ok). rewrite K. exact H3. }
  destruct (new_helper_ok (sd_messages sd) (sv_methods svc) PK) as [hs EH]. exists sd, o, svc, hs. split; [exact EN|]. split; [exact (proj2 (new_go_opts upper ofs (map Some fs) sd0 o HO E0))|]. split; [exact Es|]. split; [congruence|]. split.
  { rewrite <- NM. clear - FA. induction FA as [|x y l l' ((E & _) & _) _ IH]; [reflexivity|]. cbn [map]. rewrite E, IH. reflexivity. }
  split; [exact EH|].
  assert (WB : Forall2 (fun w x => sm_name (fst x) = go_camel_case (m_name (fst w)) /\ exists fl s, consolidated fl (snd w) (snd x) /\ request_struct upper fs (fst w) s /\ Forall2 field_of (filter (visible upper) (snd s)) fl) (written_bindings sv) (all_bindings (sv_methods svc))).
  { unfold written_bindings, all_bindings. clear - FB. induction FB as [|m x l l' (H1 & fl & H2 & H3) _ IH]; [constructor|]. cbn [flat_map]. apply Forall2_app; [|exact IH].
    destruct (http_bindings m) as [|b0 bs0] eqn:Eb; [inversion H2; constructor|]. rewrite <- Eb in *. assert (N0 : http_bindings m <> []) by (rewrite Eb; discriminate). destruct (H3 N0) as (_ & s & R & F). clear Eb N0 H3 IH.
    induction H2 as [|b sb k k' H2 _ IH]; [constructor|]. cbn [map]. constructor; [|exact IH]. cbn [fst snd]. split; [exact H1|]. exists fl, s. auto. }
  pose proof (forall2_comp _ _ _ _ _ _ _ _ WB (helper_routes _ _ _ EH)) as FF. eapply Forall2_impl'; [|exact FF].
  intros [m b] [n hb] ([x sb] & (W1 & fl & s & (W2 & W3 & W4) & W5 & W6) & R1 & i & R2 & R3). cbn [fst snd] in *.
  destruct (PropHttp.c50_binding _ _ _ _ _ R2 R3) as (P1 & P2 & P3 & P4). split; [cbn [fst]; congruence|]. cbn [snd]. split; [rewrite P1, P2; exact W2|].
  exists s, (sb_params sb). split; [exact W5|]. split; [|split; [exact P3|exact P4]]. unfold params_of. clear - W3 W4 W6. subst fl. revert W6. generalize (filter (visible upper) (snd s)). induction (sb_params sb) as [|p ps IH]; intros l H; inversion H; subst; [constructor|].
  inversion W4; subst. constructor; [split; assumption|]. apply IH; assumption.
Qed.
(** Both definitions of a run: the first one, and the one that the code is generated from, whatever the orders of the maps. *)
Lemma empty_ok : ofs_ok [].
Proof. intros k os K. discriminate. Qed.
Theorem c73_routes : forall upper U fs sv texts, unicode_ok U -> proto_texts U texts sv -> compiled upper sv fs ->
  exists sd p svc hs, svcdef_new upper U fresh_process (map Some fs) texts = NewOk sd p /\ sd_service sd = Some svc /\ sv_name svc = go_camel_case (s_name sv) /\
    map sm_name (sv_methods svc) = map (fun m => go_camel_case (m_name m)) (s_methods sv) /\
    new_helper (sd_messages sd) (sv_methods svc) = Ret hs /\
    Forall2 (fun w r => route_of upper fs (fst w) (snd w) r) (written_bindings sv) (make_routes hs).
Proof.
  intros upper U fs sv texts HU HP HC. destruct (routes_in upper U [] fs sv texts HU empty_ok HP HC) as (sd & o & svc & hs & H1 & _ & H2). exists sd, (mkProc o globals0), svc, hs. split; [exact H1|exact H2].
Qed.
Print Assumptions c73_routes.
Lemma perm_texts : forall U t1 t2 sv, Permutation t1 t2 -> proto_texts U t1 sv -> proto_texts U t2 sv.
Proof. intros U t1 t2 sv H (main & others & pre & block & post & blocks & P & R). exists main, others, pre, block, post, blocks. split; [transitivity t1; [symmetry; exact H|exact P]|exact R]. Qed.
Lemma perm_flat_map : forall (A B : Type) (f : A -> list B) l l', Permutation l l' -> Permutation (flat_map f l) (flat_map f l').
Proof. intros A B f l l' H. apply Permutation_flat_map. exact H. Qed.
Lemma perm_filter_length : forall (A : Type) (f : A -> bool) l l', Permutation l l' -> length (filter f l) = length (filter f l').
Proof. intros A f l l' H. induction H; cbn [filter]; [reflexivity| | |congruence]. - destruct (f x); cbn [length]; congruence. - destruct (f x), (f y); reflexivity. Qed.
Lemma perm_compiled : forall upper sv fs fs', Permutation fs fs' -> compiled upper sv fs -> compiled upper sv fs'.
Proof.
  intros upper sv fs fs' P [CF CO (gms & CS & CM) CN CT]. split.
  - eapply Permutation_Forall; [exact P|exact CF].
  - unfold one_with_options in *. rewrite <- (perm_filter_length _ _ _ _ P). exact CO.
  - exists gms. split; [apply Permutation_length_1_inv; rewrite <- CS; apply perm_flat_map; exact P|]. eapply Forall2_impl'; [|exact CM]. intros m g (rq & rs & G & H). exists rq, rs. split; [exact G|]. intro Hb.
    destruct (H Hb) as (n & E & I1 & I2). exists n. split; [exact E|]. split.
    + eapply Permutation_in; [|exact I1]. apply Permutation_map. apply perm_flat_map. exact P.
    + intro K. apply I2. eapply Permutation_in; [|exact K]. apply perm_flat_map. symmetry. exact P.
  - exact CN.
  - eapply Permutation_NoDup; [|exact CT]. apply Permutation_map. apply perm_flat_map. exact P.
Qed.
Theorem c73_baron : forall upper U fs fs' sv texts texts', unicode_ok U -> proto_texts U texts sv -> compiled upper sv fs -> Permutation fs fs' -> Permutation texts texts' ->
  exists sd svc hs, baron_definition upper U (map Some fs) texts (map Some fs') texts' = BOk (go_camel_case (s_name sv)) sd /\ sd_service sd = Some svc /\ sv_name svc = go_camel_case (s_name sv) /\
    map sm_name (sv_methods svc) = map (fun m => go_camel_case (m_name m)) (s_methods sv) /\
    new_helper (sd_messages sd) (sv_methods svc) = Ret hs /\
    Forall2 (fun w r => route_of upper fs' (fst w) (snd w) r) (written_bindings sv) (make_routes hs).
Proof.
  intros upper U fs fs' sv texts texts' HU HP HC P1 P2. destruct (routes_in upper U [] fs sv texts HU empty_ok HP HC) as (sd1 & o & svc1 & hs1 & E1 & HO & Es1 & En1 & _).
  destruct (routes_in upper U o fs' sv texts' HU HO (perm_texts _ _ _ _ P2 HP) (perm_compiled _ _ _ _ P1 HC)) as (sd & o' & svc & hs & E2 & _ & Es & R).
  exists sd, svc, hs. split; [|split; [exact Es|exact R]]. unfold baron_definition, fresh_process. rewrite E1, Es1, E2, En1. reflexivity.
Qed.
Print Assumptions c73_baron.

(** ** Nothing else *)
(** For any Go files and any texts: a binding of the definition was parsed from one of the texts (with some state of the scanner), for an rpc
    of that name, and has the verb, the path and the places that the parsed binding says. *)
Definition written_in (U : unicode) (texts : list str) (name : str) (sb : sbinding) : Prop :=
  exists t g hs l g' hm b, In t texts /\ parse_text U g t = Ret (POk hs l, g') /\ In hm (hs_methods hs) /\ name = go_camel_case (Parser.hm_name hm) /\
    In b (Parser.hm_bindings hm) /\ verb_and_path b (sb_verb sb) (sb_path sb) /\ Forall (fun p => located b (fd_name (pm_field p)) (pm_loc p)) (sb_params sb).
(** An invariant of assembling, for a property of bindings that every binding made has. *)
Section Inv.
Context (msgs : list message) (P : str -> sbinding -> Prop).
Definition each_binding (ms : list smethod) : Prop := Forall (fun m => Forall (P (sm_name m)) (sm_bindings m)) ms.
Lemma assemble_method_inv : forall hm ms ms', (forall fl b, In b (Parser.hm_bindings hm) -> (exists r, fl = fields_of msgs r) -> P (go_camel_case (Parser.hm_name hm)) (create_params fl b)) ->
  each_binding ms -> assemble_method msgs ms hm = COk ms' -> each_binding ms'.
Proof.
  intros hm ms ms' Hc. revert ms'. induction ms as [|m ms IH]; intros ms' He H; cbn [assemble_method] in H; [discriminate|]. inversion He as [|x l H1 H2]; subst x l.
  destruct (str_eqb_spec (sm_name m) (go_camel_case (Parser.hm_name hm))) as [En|_].
  - assert (K : forall r, COk (mkSMeth (sm_name m) (sm_req m) (sm_resp m) (sm_bindings m ++ map (create_params (fields_of msgs r)) (Parser.hm_bindings hm)) :: ms) = COk ms' -> each_binding ms').
    { intros r E. injection E as <-. constructor; [|exact H2]. cbn [sm_bindings sm_name]. apply Forall_app. split; [exact H1|]. apply Forall_forall. intros sb Hb. apply in_map_iff in Hb. destruct Hb as (b & <- & Hb). rewrite En. apply Hc; [exact Hb|exists r; reflexivity]. }
    destruct (Parser.hm_bindings hm) as [|b bs]; [injection H as <-; exact He|]. destruct (ft_msg (sm_req m)) as [r|]; [|discriminate]. exact (K r H).
  - destruct (assemble_method msgs ms hm) as [ms1| |] eqn:E; try discriminate. injection H as <-. constructor; [exact H1|]. exact (IH ms1 H2 eq_refl).
Qed.
Lemma assemble_methods_inv : forall hms ms ms', (forall hm fl b, In hm hms -> In b (Parser.hm_bindings hm) -> (exists r, fl = fields_of msgs r) -> P (go_camel_case (Parser.hm_name hm)) (create_params fl b)) ->
  each_binding ms -> assemble_methods msgs ms hms = COk ms' -> each_binding ms'.
Proof.
  induction hms as [|hm hms IH]; intros ms ms' Hc He H; cbn [assemble_methods] in H; [injection H as <-; exact He|].
  destruct (assemble_method msgs ms hm) as [ms1| |] eqn:E; try discriminate. eapply IH; [|eapply assemble_method_inv; [|exact He|exact E]|exact H].
  - intros hm' fl b Hi. apply Hc. right. exact Hi.
  - intros fl b. apply Hc. left. reflexivity.
Qed.
End Inv.
Definition def_bindings (P : str -> sbinding -> Prop) (sd : svcdef) : Prop := match sd_service sd with None => True | Some sv => each_binding P (sv_methods sv) end.
Lemma consolidate_inv : forall U (P : str -> sbinding -> Prop) files g sd sd', 
  (forall t g hs l g' hm fl b, In t files -> parse_text U g t = Ret (POk hs l, g') -> In hm (hs_methods hs) -> In b (Parser.hm_bindings hm) -> (exists r, fl = fields_of (sd_messages sd) r) -> P (go_camel_case (Parser.hm_name hm)) (create_params fl b)) ->
  def_bindings P sd -> consolidate U g sd files = Ret (COk sd') -> def_bindings P sd' /\ sd_messages sd' = sd_messages sd.
Proof.
  intros U P. induction files as [|t files IH]; intros g sd sd' Hc Hd H; cbn [consolidate] in H; [injection H as <-; split; [exact Hd|reflexivity]|].
  destruct (parse_text U g t) as [[r g']| |] eqn:Ep; try discriminate. destruct r as [hs l|e| |]; try discriminate.
  - destruct (assemble_http_params sd hs) as [sd1| |] eqn:E; try discriminate.
    assert (K : def_bindings P sd1 /\ sd_messages sd1 = sd_messages sd).
    { unfold assemble_http_params in E. unfold def_bindings in *. destruct (sd_service sd) as [sv|] eqn:Es.
      - destruct (assemble_methods (sd_messages sd) (sv_methods sv) (hs_methods hs)) as [ms| |] eqn:Ea; try discriminate. injection E as <-. split; [|reflexivity]. cbn [sd_service sv_methods].
        eapply assemble_methods_inv; [|exact Hd|exact Ea]. intros hm fl b Hm Hb Hf. eapply Hc; [left; reflexivity|exact Ep|exact Hm|exact Hb|exact Hf].
      - destruct (hs_methods hs); [|discriminate]. injection E as <-. rewrite Es. split; [exact I|reflexivity]. }
    destruct K as [K1 K2]. destruct (IH g' sd1 sd') as [I1 I2]; [|exact K1|exact H|split; [exact I1|congruence]]. rewrite K2. intros t0 g0 hs0 l0 g0' hm fl b Hi. apply Hc. right. exact Hi.
  - destruct (is_optional_error e); [injection H as <-; split; [exact Hd|reflexivity]|]. destruct (is_eof e); [|discriminate]. eapply IH; [|exact Hd|exact H]. intros t0 g0 hs0 l0 g0' hm fl b Hi. apply Hc. right. exact Hi.
Qed.
Lemma each_nil : forall P ms, Forall (fun m => sm_bindings m = []) ms -> each_binding P ms.
Proof. intros P ms H. eapply Forall_impl; [|exact H]. intros m ->. constructor. Qed.
(** The Go files give no bindings. *)
Definition unbound (s : option service) : Prop := match s with None => True | Some sv => Forall (fun m => sm_bindings m = []) (sv_methods sv) end.
Lemma new_methods_unbound : forall upper ms xs, new_methods upper ms = SOk xs -> Forall (fun m => sm_bindings m = []) xs.
Proof.
  intros upper. induction ms as [|m ms IH]; intros xs H; cbn [new_methods] in H; [injection H as <-; constructor|]. destruct (gm_names m) eqn:En; [discriminate|]. destruct (negb _); [exact (IH xs H)|].
  destruct (new_service_method m) as [x| |] eqn:Ex; try discriminate. cbn [sbind] in H. destruct (new_methods upper ms) as [ys| |]; try discriminate. cbn [sbind] in H. injection H as <-. constructor; [|exact (IH ys eq_refl)].
  unfold new_service_method in Ex. rewrite En in Ex. destruct (gm_type m) as [ps rs|]; [|discriminate]. destruct rs as [|r rs]; [discriminate|]. destruct ps as [|c [|q ps]]; try discriminate.
  destruct (make_field_type q); try discriminate. cbn [sbind] in Ex. destruct (make_field_type r); try discriminate. cbn [sbind] in Ex. injection Ex as <-. reflexivity.
Qed.
Lemma iface_loop_unbound : forall upper ts svc ones svc' ones', unbound svc -> iface_loop upper ts svc ones = SOk (svc', ones') -> unbound svc'.
Proof.
  intros upper. induction ts as [|t ts IH]; intros svc ones svc' ones' Hu H; cbn [iface_loop] in H; [injection H as <- <-; exact Hu|].
  destruct (ts_type t) as [ms| | |]; try exact (IH _ _ _ _ Hu H). destruct (has_prefix _ (T "Unsafe")); [exact (IH _ _ _ _ Hu H)|]. destruct (negb _).
  - destruct (has_prefix _ (T "is")); exact (IH _ _ _ _ Hu H).
  - unfold new_service in H. destruct (new_methods upper ms) as [xs| |] eqn:E; try discriminate. cbn [sbind] in H. eapply IH; [|exact H]. exact (new_methods_unbound _ _ _ E).
Qed.
Lemma new_files_unbound : forall upper fs ofs sd sd' ofs', unbound (sd_service sd) -> new_files upper ofs sd fs = SOk (sd', ofs') -> unbound (sd_service sd').
Proof.
  intros upper. induction fs as [|[f|] fs IH]; intros ofs sd sd' ofs' Hu H; cbn [new_files] in H; [injection H as <- <-; exact Hu| |discriminate].
  destruct (new_file upper ofs sd f) as [[sd1 ofs1]| |] eqn:E; try discriminate. cbn [sbind] in H. eapply IH; [|exact H]. unfold new_file in E.
  destruct (iface_loop upper (type_specs f) (sd_service sd) []) as [[svc ones]| |] eqn:Ei; try discriminate. cbn [sbind] in E. pose proof (iface_loop_unbound _ _ _ _ _ _ Hu Ei) as Hs.
  match type of E with sbind ?x _ = _ => destruct x as [[otypes o]| |]; try discriminate end. cbn [sbind] in E.
  destruct (type_loop upper (type_specs f) otypes o) as [[ms es]| |]; try discriminate. cbn [sbind] in E. injection E as <- <-. exact Hs.
Qed.
Lemma new_go_unbound : forall upper ofs fs sd o, new_go upper ofs fs = SOk (sd, o) -> unbound (sd_service sd).
Proof.
  intros upper ofs fs sd o H. unfold new_go in H. destruct (new_files upper ofs empty_svcdef fs) as [[sd0 o0]| |] eqn:E; try discriminate. cbn [sbind] in H. injection H as <- <-.
  apply new_files_unbound in E; [|exact I]. cbn [resolve_types sd_service]. destruct (sd_service sd0) as [sv|]; [|exact I]. cbn [unbound sv_methods] in *. apply Forall_map. exact E.
Qed.
Lemma unbound_def : forall P sd, unbound (sd_service sd) -> def_bindings P sd.
Proof. intros P sd H. unfold def_bindings. unfold unbound in H. destruct (sd_service sd) as [sv|]; [|exact I]. apply each_nil. exact H. Qed.

Theorem c73_nothing_else : forall upper U p gofiles texts sd p' svc m sb, svcdef_new upper U p gofiles texts = NewOk sd p' -> sd_service sd = Some svc -> In m (sv_methods svc) -> In sb (sm_bindings m) ->
  written_in U texts (sm_name m) sb /\ map pm_field (sb_params sb) = req_fields (sd_messages sd) m.
Proof.
  intros upper U p gofiles texts sd p' svc m sb H Es Hm Hb. unfold svcdef_new in H. destruct (new_go upper (pr_oneofs p) gofiles) as [[sd0 o]| |] eqn:E0; try discriminate.
  destruct (consolidate U (pr_scanner p) sd0 texts) as [[sd1| |]| |] eqn:Ec; try discriminate. injection H as -> _. pose proof (new_go_unbound _ _ _ _ _ E0) as Hu. split.
  - destruct (consolidate_inv U (written_in U texts) texts (pr_scanner p) sd0 sd) as [K _]; [|exact (unbound_def _ _ Hu)|exact Ec|].
    + intros t g hs l g' hm fl b Ht Hp Hi Hbb _. exists t, g, hs, l, g', hm, b. destruct (create_consolidated fl b) as (V & _ & L). split; [exact Ht|]. split; [exact Hp|]. split; [exact Hi|]. split; [reflexivity|]. split; [exact Hbb|]. split; [exact V|exact L].
    + unfold def_bindings in K. rewrite Es in K. unfold each_binding in K. rewrite Forall_forall in K. specialize (K m Hm). rewrite Forall_forall in K. exact (K sb Hb).
  - assert (A : all_placed sd0). { intros sv x b Ev Hx Hbx. unfold unbound in Hu. rewrite Ev in Hu. rewrite Forall_forall in Hu. rewrite (Hu x Hx) in Hbx. destruct Hbx. }
    exact (proj1 (consolidate_placed U texts (pr_scanner p) sd0 sd A Ec svc m sb Es Hm Hb)).
Qed.
Print Assumptions c73_nothing_else.

(** Whatever definitions New makes in a process, the helper of the HTTP code is made from them without a panic. *)
Inductive process_of (upper : N -> bool) (U : unicode) : process -> Prop :=
| PFresh : process_of upper U fresh_process
| PNew : forall p gofiles texts sd p', process_of upper U p -> svcdef_new upper U p gofiles texts = NewOk sd p' -> process_of upper U p'.
Lemma process_ok : forall upper U p, process_of upper U p -> ofs_ok (pr_oneofs p).
Proof.
  intros upper U p H. induction H as [|p gofiles texts sd p' _ IH H]; [exact empty_ok|]. unfold svcdef_new in H. destruct (new_go upper (pr_oneofs p) gofiles) as [[sd0 o]| |] eqn:E0; try discriminate.
  destruct (consolidate U (pr_scanner p) sd0 texts) as [[sd1| |]| |] eqn:Ec; try discriminate. injection H as _ <-. exact (proj2 (new_go_opts _ _ _ _ _ IH E0)).
Qed.
Theorem c73_helper_total : forall upper U p gofiles texts sd p' svc, process_of upper U p -> svcdef_new upper U p gofiles texts = NewOk sd p' -> sd_service sd = Some svc ->
  exists hs, new_helper (sd_messages sd) (sv_methods svc) = Ret hs.
Proof.
  intros upper U p gofiles texts sd p' svc HP H Es. apply process_ok in HP. unfold svcdef_new in H. destruct (new_go upper (pr_oneofs p) gofiles) as [[sd0 o]| |] eqn:E0; try discriminate.
  destruct (consolidate U (pr_scanner p) sd0 texts) as [[sd1| |]| |] eqn:Ec; try discriminate. injection H as -> _. pose proof (new_go_unbound _ _ _ _ _ E0) as Hu. destruct (new_go_opts _ _ _ _ _ HP E0) as [Ho _].
  destruct (consolidate_inv U (fun _ sb => Forall (fun p => opts_ok (pm_field p)) (sb_params sb)) texts (pr_scanner p) sd0 sd) as [K _]; [|exact (unbound_def _ _ Hu)|exact Ec|].
  - intros t g hs l g' hm fl b _ _ _ _ (r & ->). destruct (create_consolidated (fields_of (sd_messages sd0) r) b) as (_ & M & _). apply (proj1 (Forall_map pm_field opts_ok _)). rewrite M.
    destruct r as [i|n]; [|constructor]. cbn [fields_of]. destruct (nth_error (sd_messages sd0) i) as [mm|] eqn:Ei; [|constructor]. rewrite Forall_forall in Ho. exact (Ho mm (nth_error_In _ _ Ei)).
  - apply new_helper_ok. unfold def_bindings in K. rewrite Es in K. exact K.
Qed.
Print Assumptions c73_helper_total.

(** ** The hypotheses hold of a file with two bindings, a oneof in the request, and an rpc without HTTP *)
Definition lit (s : str) : str := [c_dquote] ++ s ++ [c_dquote].
Definition get_option : option_src :=
  mkOptSrc [] (mkBodySrc [(OPEN_PAREN, T "("); (IDENT, T "h"); (CLOSE_PAREN, T ")"); (SYMBOL, T "=")]
                         [SField (mkFieldSrc [] (T "get") (lit (T "/b/{x}")) (T "/b/{x}"))] [])
           [mkAddSrc [] (mkBodySrc [] [SField (mkFieldSrc [] (T "post") (lit (T "/b")) (T "/b")); SField (mkFieldSrc [] (T "body") (lit (T "*")) (T "*"))] [])] [].
Definition ex_service : service_src :=
  mkServiceSrc (T "S")
    [mkMethodSrc [] (T "get_b") (mkTypeSrc false (T "B") []) (mkTypeSrc false (T "C") []) (OHttp get_option [] []);
     mkMethodSrc [] (T "N") (mkTypeSrc false (T "B") []) (mkTypeSrc false (T "C") []) ONone] [].
Definition ex_opt : list str := [T "get"; T ":"; lit (T "/b/{x}"); [c_nl]; T "additional_bindings"; T " "; T "{"; T "post"; T ":"; lit (T "/b"); T " "; T "body"; T ":"; lit (T "*"); T "}"].
Definition ex_block : list str :=
  [T "service"; T " "; T "S"; T " "; T "{"; [c_nl]; T "rpc"; T " "; T "get_b"; T "("; T "B"; T ")"; T "returns"; T "("; T "C"; T ")"; T "{"; T "option"; T "("; T "h"; T ")"; T "="; T "{"] ++ ex_opt ++
  [T "}"; T ";"; T "}"; [c_nl]; T "rpc"; T " "; T "N"; T "("; T "B"; T ")"; T "returns"; T "("; T "C"; T ")"; T ";"; T "}"].
Example ex_service_ok : service_ok ex_service.
Proof.
  unfold service_ok, ex_service. cbn [s_methods]. apply Forall_cons; [|apply Forall_cons; [|apply Forall_nil]].
  - split; [split; [discriminate|apply Forall_nil]|]. split; [split; [discriminate|apply Forall_nil]|]. cbn [m_options]. unfold option_ok, get_option. cbn [o_body o_more]. split; [split|].
    + cbn [b_filler]. unfold filler_ok. repeat (apply Forall_cons; [split; [discriminate|split; discriminate]|]). apply Forall_nil.
    + cbn [b_items]. apply Forall_cons; [split; [discriminate|split; [discriminate|vm_compute; reflexivity]]|apply Forall_nil].
    + apply Forall_cons; [|apply Forall_nil]. cbn [a_body]. split; [apply Forall_nil|]. cbn [b_items]. repeat (apply Forall_cons; [split; [discriminate|split; [discriminate|vm_compute; reflexivity]]|]). apply Forall_nil.
  - split; [split; [discriminate|apply Forall_nil]|split; [split; [discriminate|apply Forall_nil]|exact I]].
Qed.
Example ex_spells : spells latin1 ex_block (write_service ex_service).
Proof.
  unfold ex_block, ex_opt, write_service, ex_service, get_option.
  cbn [s_name s_methods s_trailing map concat write_method write_type write_options write_option write_body write_item write_field write_additional
       m_comments m_name m_req m_resp m_options t_stream t_first t_rest o_comments o_body o_more o_trailing b_filler b_items b_trailing a_comments a_body
       f_comments f_kind f_lit f_value comments app].
  PropParser.solve_spells.
Qed.
Ltac shape3 := first [PropLexer.solve_shape | PropParser.lit_shape (T "/b/{x}") | PropParser.lit_shape (T "/b") | PropParser.lit_shape (T "*")].
Ltac solve_ws3 := first [apply ws_nil | apply ws_cons; [shape3|PropLexer.solve_sep|solve_ws3]].
Example ex_separated : well_separated latin1 ([] ++ ex_block ++ []).
Proof. unfold ex_block, ex_opt. cbn [app]. solve_ws3. Qed.
Example ex_is_block : service_block ex_block.
Proof.
  refine (sb_intro [T " "; T "S"; T " "]
   ([[c_nl]; T "rpc"; T " "; T "get_b"; T "("; T "B"; T ")"; T "returns"; T "("; T "C"; T ")"; T "{"; T "option"; T "("; T "h"; T ")"; T "="; T "{"] ++ ex_opt ++
  [T "}"; T ";"; T "}"; [c_nl]; T "rpc"; T " "; T "N"; T "("; T "B"; T ")"; T "returns"; T "("; T "C"; T ")"; T ";"]) _ _ _ _ _); try PropLexer.nope.
  unfold ex_opt. cbn [app]. PropParser.nest_other.
  refine (ne_block ([T "option"; T "("; T "h"; T ")"; T "="; T "{"] ++ ex_opt ++ [T "}"; T ";"]) _ _ _); [|PropParser.nest_other; constructor].
  unfold ex_opt. cbn [app]. PropParser.nest_other. refine (ne_block ex_opt _ _ _); [|PropParser.nest_other; constructor].
  unfold ex_opt. cbn [app]. PropParser.nest_other. refine (ne_block [T "post"; T ":"; lit (T "/b"); T " "; T "body"; T ":"; lit (T "*")] _ _ _); [|constructor]. PropParser.nest_other. constructor.
Qed.
Definition ex_texts : list str := [PropConsolidate.file_plain; concat ex_block].
Example ex_proto : proto_texts latin1 ex_texts ex_service.
Proof.
  exists (concat ex_block), [PropConsolidate.file_plain], [], ex_block, [], []. split; [apply perm_swap|]. split; [constructor; [exact PropConsolidate.plain_serviceless|constructor]|].
  cbn [app]. rewrite app_nil_r. split; [reflexivity|]. split; [pose proof ex_separated as E; cbn [app] in E; rewrite app_nil_r in E; exact E|].
  assert (N : service_free []) by (split; [intros []|constructor]). split; [exact N|]. split; [exact ex_is_block|]. split; [apply pf_end; exact N|]. split; [exact ex_spells|exact ex_service_ok].
Qed.
Definition ex_pb : gofile := mkGo (T "pb") [
  GDGen [mkTS (T "B") (TStruct [PropSvcdef.fld "X" (GIdent (T "string")) (PropSvcdef.pbtag "bytes,1,opt" "x"); PropSvcdef.fld "Y" (GIdent (T "int64")) (PropSvcdef.pbtag "varint,2,opt" "y");
                                PropSvcdef.fld "Alt" (GIdent (T "isB_Alt")) (Some (tag_text [(T "protobuf_oneof", T "alt")]))])];
  GDGen [mkTS (T "C") (TStruct [PropSvcdef.fld "X" (GIdent (T "string")) (PropSvcdef.pbtag "bytes,1,opt" "x")])];
  GDGen [mkTS (T "isB_Alt") (TIface [mkGM [T "isB_Alt"] (MFunc [] [])])];
  GDGen [mkTS (T "B_Num") (TStruct [PropSvcdef.fld "Num" (GIdent (T "int64")) (PropSvcdef.pbtag "varint,3,opt" "num")])];
  GDFunc (T "isB_Alt") (Some [GStar (GIdent (T "B_Num"))])].
Definition ex_grpc : gofile := mkGo (T "pb") [
  GDGen [mkTS (T "SServer") (TIface [PropSvcdef.unary_method "GetB" "B" "C"; PropSvcdef.unary_method "N" "B" "C"; mkGM [T "mustEmbedUnimplementedSServer"] (MFunc [] [])])]].
Ltac tagged k n c name :=
  assert (NC : forall s, existsb (N.eqb 44) s = false -> no_comma s) by (let s := fresh in let H := fresh in let K := fresh in intros s H K; assert (existsb (N.eqb 44) s = true) by (apply existsb_exists; exists 44%N; split; [exact K|reflexivity]); congruence);
  exists [(T "protobuf", k ++ T "," ++ n ++ T "," ++ c ++ T ",name=" ++ name ++ T ",proto3"); (T "json", name ++ T ",omitempty")], (k ++ T "," ++ n ++ T "," ++ c ++ T ",name=" ++ name ++ T ",proto3"), k, n, c, false, [T "proto3"];
  split; [reflexivity|]; split; [|split; [reflexivity|split; [vm_compute; reflexivity|]]];
  [constructor; [split|constructor; [split|constructor]]; try (vm_compute; PropSvcdef.lit; fail); (split; [discriminate|]; apply Forall_forall; intros ? K; vm_compute in K; repeat destruct K as [<-|K]; try contradiction; repeat split; discriminate)
  |repeat split; try (apply NC; reflexivity); constructor; [apply NC; reflexivity|constructor]].
Example ex_tag1 : exists name, tag_name (tag_text [(T "protobuf", T "bytes,1,opt" ++ T ",name=" ++ T "x" ++ T ",proto3"); (T "json", T "x" ++ T ",omitempty")]) name.
Proof. exists (T "x"). tagged (T "bytes") (T "1") (T "opt") (T "x"). Qed.
Example ex_tag2 : exists name, tag_name (tag_text [(T "protobuf", T "varint,2,opt" ++ T ",name=" ++ T "y" ++ T ",proto3"); (T "json", T "y" ++ T ",omitempty")]) name.
Proof. exists (T "y"). tagged (T "varint") (T "2") (T "opt") (T "y"). Qed.
Example ex_tag3 : exists name, tag_name (tag_text [(T "protobuf", T "varint,3,opt" ++ T ",name=" ++ T "num" ++ T ",proto3"); (T "json", T "num" ++ T ",omitempty")]) name.
Proof. exists (T "num"). tagged (T "varint") (T "3") (T "opt") (T "num"). Qed.
Example ex_pb_protoc : protoc_file PropSvcdef.up ex_pb.
Proof.
  split.
  - intros s [<-|[<-|[<-|[]]]]; cbn [snd]; repeat (apply Forall_cons; [split; [discriminate|]; intros _; split; [|exact I]|]); try apply Forall_nil; try (left; exact ex_tag1); try (left; exact ex_tag2); try (left; exact ex_tag3).
    right. exists [(T "protobuf_oneof", T "alt")]. split; [reflexivity|]. split; [|reflexivity]. constructor; [|constructor]. split; [|vm_compute; PropSvcdef.lit]. split; [discriminate|]. apply Forall_forall; intros c K; vm_compute in K; repeat destruct K as [<-|K]; try contradiction; repeat split; discriminate.
  - intros s [].
  - intros n recv K _. cbn [go_decls ex_pb In] in K. repeat destruct K as [K|K]; try discriminate; try contradiction. injection K as <- <-. eexists _, _. reflexivity.
  - intros s [<-|[<-|[<-|[]]]] K; try (vm_compute in K; discriminate K). vm_compute. discriminate.
Qed.
Example ex_grpc_protoc : protoc_file PropSvcdef.up ex_grpc.
Proof.
  split.
  - intros s [].
  - intros s [<-|[]]. cbn [snd]. constructor; [|constructor; [|constructor; [|constructor]]].
    + split; [discriminate|]. intros _. do 5 eexists. split; [reflexivity|]. split; left; eexists; reflexivity.
    + split; [discriminate|]. intros _. do 5 eexists. split; [reflexivity|]. split; left; eexists; reflexivity.
    + split; [discriminate|]. intro K. vm_compute in K. discriminate K.
  - intros n recv K _. cbn [go_decls ex_grpc In] in K. repeat destruct K as [K|K]; try discriminate; contradiction.
  - intros s [].
Qed.
Example ex_compiled : compiled PropSvcdef.up ex_service [ex_pb; ex_grpc].
Proof.
  split.
  - constructor; [|constructor; [|constructor]].
    + exact ex_pb_protoc.
    + exact ex_grpc_protoc.
  - vm_compute. lia.
  - eexists. split; [reflexivity|]. constructor; [|constructor; [|constructor]].
    + exists (GIdent (T "B")), (GIdent (T "C")). split; [split; [vm_compute; reflexivity|eexists _, _; reflexivity]|]. intros _. exists (T "B"). split; [reflexivity|]. split; [vm_compute; auto|intros []].
    + exists (GIdent (T "B")), (GIdent (T "C")). split; [split; [vm_compute; reflexivity|eexists _, _; reflexivity]|]. intro K. destruct (K eq_refl).
  - constructor; [intros [K|[]]; vm_compute in K; discriminate|]. constructor; [intros []|constructor].
  - vm_compute. repeat constructor; intro K; repeat destruct K as [K|K]; try discriminate; contradiction.
Qed.
(** What becomes of it: the additional binding first, then the one of the option itself. *)
Example ex_routes : match baron_definition PropSvcdef.up latin1 (map Some [ex_pb; ex_grpc]) ex_texts (map Some [ex_grpc; ex_pb]) (rev ex_texts) with
  | BOk _ sd => match sd_service sd with Some svc => match new_helper (sd_messages sd) (sv_methods svc) with
      | Ret hs => map (fun r => (fst r, hb_verb (snd r), hb_path (snd r), map (fun f => (HttpTransport.hf_name f, hf_loc f)) (HttpTransport.hb_fields (snd r)), map (fun o => (ho_name o, ho_loc o)) (hb_oneofs (snd r)))) (make_routes hs) | _ => [] end | None => [] end
  | _ => [] end =
  [(T "GetB", T "post", T "/b", [(T "X", T "body"); (T "Y", T "body")], [(T "Alt", T "body")]);
   (T "GetB", T "get", T "/b/{x}", [(T "X", T "path"); (T "Y", T "query")], [(T "Alt", T "query")])].
Proof. vm_compute. reflexivity. Qed.
(** The hypothesis on requests is needed: an rpc with an http option whose request is google.protobuf.Empty (its Go type is of another
    package) makes New panic, and without the option New returns. *)
Definition empty_grpc : gofile := mkGo (T "pb") [
  GDGen [mkTS (T "SServer") (TIface [mkGM [T "Ping"] (MFunc [PropSvcdef.ctx; GStar (GSel (GIdent (T "emptypb")) (T "Empty"))] [GStar (GIdent (T "C")); GIdent (T "error")])])]].
Definition ping_text (opts : str) : str := T "service S { rpc Ping(google.protobuf.Empty) returns(C) { " ++ opts ++ T " } }".
Theorem c73_foreign_request_panics : protoc_file PropSvcdef.up empty_grpc /\
  svcdef_new PropSvcdef.up latin1 fresh_process (map Some [ex_pb; empty_grpc]) [ping_text (T "option (h) = { get: " ++ lit (T "/ping") ++ T " };")] = NewPanic /\
  exists sd p, svcdef_new PropSvcdef.up latin1 fresh_process (map Some [ex_pb; empty_grpc]) [ping_text []] = NewOk sd p.
Proof.
  split; [|split; [vm_compute; reflexivity|eexists _, _; vm_compute; reflexivity]]. split.
  - intros s [].
  - intros s [<-|[]]. cbn [snd]. constructor; [|constructor]. split; [discriminate|]. intros _. do 5 eexists. split; [reflexivity|]. split; [right; eexists _, _; reflexivity|left; eexists; reflexivity].
  - intros n recv K _. cbn [go_decls empty_grpc In] in K. repeat destruct K as [K|K]; try discriminate; contradiction.
  - intros s [].
Qed.
Print Assumptions c73_foreign_request_panics.
