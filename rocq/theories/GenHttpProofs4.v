(** Proofs about the generated client and server: a whole request. *)
From Coq Require Import Permutation.
From Verif Require Import GoStr GoStrProofs GoMap SplitJoin Decimals SvcTypes Strs HttpSpec HttpTransport HttpTypes HttpProofs HttpTypesProofs
  Url UrlProofs GenHttp GenHttpSpec GenHttpProofs GenHttpProofs2 GenHttpProofs3.

Section R.
Variable K : codecs.
Variable ms : list message.
Variable meth : str.
Variable ts : list tpart.
Variable req : request.

Definition travels (p : hparam) : Prop := carried K ts req p \/ pm_loc p = T "body".
Definition is_field (p : hparam) : bool :=
  match ft_oneof (fd_type (pm_field p)) with Some _ => false | None => negb (str_eqb (ft_name (fd_type (pm_field p))) []) end.

Lemma field_loop_filter : forall ps, field_loop meth ps = map (new_hfield meth) (filter is_field ps).
Proof.
  induction ps as [|p ps IH]; [reflexivity|]. unfold field_loop in *. cbn [flat_map filter]. unfold is_field at 1.
  destruct (ft_oneof _); [exact IH|]. destruct (str_eqb _ []); cbn; [exact IH|]. f_equal. exact IH.
Qed.
Lemma query_no_oneof : forall t v, query_value K t v -> ft_oneof t = None.
Proof. intros t v H. destruct H; reflexivity. Qed.
Lemma path_no_oneof : forall t v, path_value K t v -> ft_oneof t = None.
Proof. intros t v H. destruct H; reflexivity. Qed.

(** What a travelling parameter is. *)
Lemma travels_query : forall p, travels p -> pm_loc p = T "query" ->
  (is_field p = true /\ ft_oneof (fd_type (pm_field p)) = None /\ query_value K (fd_type (pm_field p)) (req (camel_of p)) /\ bytes (fd_pbname (pm_field p)))
  \/ exists os, ft_oneof (fd_type (pm_field p)) = Some os /\ NoDup (map fd_name os)
       /\ Forall (fun o => scalar_option o /\ bytes (fd_pbname o)) os /\ oneof_value K os (req (camel_of p)).
Proof.
  intros p [[H1 H2 H3 H4 H5|H1 H2 H3 H4|os H1 H2 H3 H4 H5]|H1] Hl; try (rewrite H1 in Hl; discriminate Hl).
  - left. split; [|split; [apply (query_no_oneof _ _ H2)|auto]]. unfold is_field. rewrite (query_no_oneof _ _ H2). apply str_eqb_neq in H3. rewrite H3. reflexivity.
  - right. exists os. auto.
Qed.
Lemma travels_path : forall p, travels p -> pm_loc p = T "path" ->
  is_field p = true /\ path_value K (fd_type (pm_field p)) (req (camel_of p)) /\ In (TVar (fd_pbname (pm_field p))) ts
  /\ go_camel_case (fd_pbname (pm_field p)) = camel_of p.
Proof.
  intros p [[H1 H2 H3 H4 H5|H1 H2 H3 H4|os H1 H2 H3 H4 H5]|H1] Hl; try (rewrite H1 in Hl; discriminate Hl).
  split; [|auto]. unfold is_field. rewrite (path_no_oneof _ _ H2). apply str_eqb_neq in H3. rewrite H3. reflexivity.
Qed.
Lemma travels_loc : forall p, travels p -> pm_loc p = T "query" \/ pm_loc p = T "path" \/ pm_loc p = T "body".
Proof. intros p [[H1 H2 H3 H4 H5|H1 H2 H3 H4|os H1 H2 H3 H4 H5]|H1]; auto. Qed.

(** The names in the query. *)
Lemma names_perm : forall ps os, Forall travels ps -> oneof_loop ms meth ps = Ret os ->
  Permutation (map hf_query (filter in_query (field_loop meth ps)) ++ map hf_query (query_opts os)) (query_names ps).
Proof.
  induction ps as [|p ps IH]; intros os Ht H; [injection H as <-; constructor|]. inversion Ht as [|x y Hp Hps]; subst. cbn [oneof_loop] in H.
  unfold query_names. cbn [flat_map]. fold (query_names ps). unfold field_loop. cbn [flat_map]. fold (field_loop meth ps).
  destruct (ft_oneof (fd_type (pm_field p))) as [o|] eqn:Eo.
  - destruct (new_options ms meth (pm_field p) o) as [xs| |] eqn:Ex; try discriminate. destruct (oneof_loop ms meth ps) as [r| |] eqn:Er; try discriminate.
    injection H as <-. cbn [app]. unfold query_opts. cbn [filter]. unfold o_in_query at 1. cbn [ho_loc]. destruct (str_eqb_spec (pm_loc p) (T "query")) as [El|Nl].
    + cbn [flat_map ho_options]. fold (query_opts r). rewrite map_app.
      destruct (travels_query p Hp El) as [(_ & E & _)|(os2 & Eo2 & _ & Hs & _)]; [congruence|]. rewrite Eo in Eo2. injection Eo2 as <-.
      assert (Hso : Forall scalar_option o) by (eapply Forall_impl; [|exact Hs]; intros a [Ha _]; exact Ha).
      destruct (new_options_names _ _ _ _ _ Ex Hso) as [_ En]. rewrite En. rewrite app_assoc.
      rewrite (Permutation_app_comm (map hf_query (filter in_query (field_loop meth ps)))). rewrite <- app_assoc. apply Permutation_app_head. apply IH; [exact Hps|reflexivity].
    + apply IH; [exact Hps|reflexivity].
  - destruct (str_eqb_spec (pm_loc p) (T "query")) as [El|Nl].
    + destruct (travels_query p Hp El) as [(Hf & _)|(os2 & Eo2 & _)]; [|congruence]. unfold is_field in Hf. rewrite Eo in Hf.
      destruct (str_eqb (ft_name (fd_type (pm_field p))) []); [discriminate|]. cbn [app filter]. unfold in_query at 1. cbn [hf_loc new_hfield]. rewrite El, str_eqb_refl.
      cbn [map hf_query new_hfield app]. constructor. apply IH; assumption.
    + assert (E : filter in_query ((if str_eqb (ft_name (fd_type (pm_field p))) [] then [] else [new_hfield meth p]) ++ field_loop meth ps) = filter in_query (field_loop meth ps)).
      { destruct (str_eqb _ []); [reflexivity|]. cbn [app filter]. unfold in_query at 1. cbn [hf_loc new_hfield]. apply str_eqb_neq in Nl. rewrite Nl. reflexivity. }
      rewrite E. apply IH; assumption.
Qed.

Definition entries (fs : list hfield) (os : list honeof) : list (str * list str) :=
  map (f_entry K req) (filter in_query fs) ++ map (o_entry K req) (query_opts os).
Lemma entries_names : forall fs os, map fst (entries fs os) = map hf_query (filter in_query fs) ++ map hf_query (query_opts os).
Proof. intros. unfold entries. rewrite map_app, !map_map. reflexivity. Qed.

Lemma oneof_loop_in : forall ps os o, oneof_loop ms meth ps = Ret os -> In o os -> exists p xs fs, In p ps /\ ft_oneof (fd_type (pm_field p)) = Some fs
  /\ new_options ms meth (pm_field p) fs = Ret xs /\ o = mkHOneof (fd_name (pm_field p)) (pm_loc p) xs.
Proof.
  induction ps as [|p ps IH]; intros os o H Ho; cbn [oneof_loop] in H; [injection H as <-; destruct Ho|].
  destruct (ft_oneof (fd_type (pm_field p))) as [fs|] eqn:Eo.
  - destruct (new_options ms meth (pm_field p) fs) as [xs| |] eqn:Ex; try discriminate. destruct (oneof_loop ms meth ps) as [r| |] eqn:Er; try discriminate.
    injection H as <-. destruct Ho as [<-|Ho]; [exists p, xs, fs; split; [left; reflexivity|auto]|].
    destruct (IH r o eq_refl Ho) as (p2 & xs2 & fs2 & H1 & H2). exists p2, xs2, fs2. split; [right; exact H1|exact H2].
  - destruct (IH os o H Ho) as (p2 & xs2 & fs2 & H1 & H2). exists p2, xs2, fs2. split; [right; exact H1|exact H2].
Qed.

Section Binding.
Variable ps : list hparam.
Variable os : list honeof.
Hypothesis Hps : Forall travels ps.
Hypothesis Hos : oneof_loop ms meth ps = Ret os.
Hypothesis Hq : NoDup (query_names ps).

Lemma in_ps : forall p, In p ps -> travels p.
Proof. intros p H. rewrite Forall_forall in Hps. apply Hps. exact H. Qed.
Lemma field_of : forall f, In f (field_loop meth ps) -> exists p, In p ps /\ is_field p = true /\ f = new_hfield meth p.
Proof.
  intros f Hf. rewrite field_loop_filter in Hf. apply in_map_iff in Hf. destruct Hf as (p & <- & Hp). apply filter_In in Hp. exists p. split; [apply Hp|]. split; [apply Hp|reflexivity].
Qed.
Lemma of_field : forall p, In p ps -> is_field p = true -> In (new_hfield meth p) (field_loop meth ps).
Proof. intros p Hp Hf. rewrite field_loop_filter. apply in_map. apply filter_In. auto. Qed.
Lemma field_query_value : forall p, In p ps -> is_field p = true -> pm_loc p = T "query" ->
  query_value K (fd_type (pm_field p)) (req (camel_of p)) /\ bytes (fd_pbname (pm_field p)).
Proof.
  intros p Hp Hf El. destruct (travels_query p (in_ps p Hp) El) as [(_ & _ & Hv & Hb)|(fs & Eo & _)]; [auto|].
  exfalso. unfold is_field in Hf. rewrite Eo in Hf. discriminate.
Qed.
Lemma fields_send : forall f, In f (field_loop meth ps) -> in_query f = true -> exists l, field_values K req f = Some l /\ Forall bytes l /\ bytes (hf_query f).
Proof.
  intros f Hf Hl. destruct (field_of f Hf) as (p & Hp & Hpf & ->). apply str_eqb_eq in Hl.
  destruct (field_query_value p Hp Hpf Hl) as [Hv Hb]. destruct (query_field K meth p req Hv) as (l & E & Hl2 & _). exists l. auto.
Qed.
Lemma oneof_of : forall o, In o os -> o_in_query o = true -> exists p fs xs, In p ps /\ o = mkHOneof (fd_name (pm_field p)) (pm_loc p) xs
  /\ ft_oneof (fd_type (pm_field p)) = Some fs /\ NoDup (map fd_name fs) /\ Forall (fun o => scalar_option o /\ bytes (fd_pbname o)) fs
  /\ oneof_value K fs (req (camel_of p)) /\ new_options ms meth (pm_field p) fs = Ret xs.
Proof.
  intros o Ho Hl. destruct (oneof_loop_in ps os o Hos Ho) as (p & xs & fs & Hp & Eo & Ex & ->). apply str_eqb_eq in Hl. cbn in Hl.
  destruct (travels_query p (in_ps p Hp) Hl) as [(_ & E & _)|(fs2 & Eo2 & H1 & H2 & H3)]; [congruence|].
  rewrite Eo in Eo2. injection Eo2 as <-. exists p, fs, xs. auto 10.
Qed.
Lemma options_send : forall h, In h (query_opts os) -> exists l, option_values K req h = Some l /\ Forall bytes l /\ bytes (hf_query h).
Proof.
  intros h Hh. unfold query_opts in Hh. apply in_flat_map in Hh. destruct Hh as (o & Ho & Hh). apply filter_In in Ho. destruct Ho as [Ho Hl].
  destruct (oneof_of o Ho Hl) as (p & fs & xs & Hp & -> & Eo & Hnd & Hs & Hv & Ex). cbn in Hh.
  destruct (oneof_step K ms meth p fs xs req Eo Hnd Hs Hv Ex) as [H _]. apply H. exact Hh.
Qed.
Definition the_query : values := fold_left add_entry (entries (field_loop meth ps) os) [].
Lemma query_built : exists m1, query_fields K req (field_loop meth ps) [] = Some m1 /\ query_oneofs K req os m1 = Some the_query.
Proof.
  eexists. split.
  - apply query_fields_fold. intros f Hf Hl. destruct (fields_send f Hf Hl) as (l & E & _). exists l. exact E.
  - rewrite query_oneofs_fold by (intros h Hh; destruct (options_send h Hh) as (l & E & _); exists l; exact E).
    unfold the_query, entries. rewrite fold_left_app. reflexivity.
Qed.
Lemma entries_nodup : NoDup (map fst (entries (field_loop meth ps) os)).
Proof. rewrite entries_names. eapply Permutation_NoDup; [apply Permutation_sym; apply names_perm; [exact Hps|exact Hos]|exact Hq]. Qed.
Lemma entries_bytes : Forall (fun e => bytes (fst e) /\ Forall bytes (snd e)) (entries (field_loop meth ps) os).
Proof.
  apply Forall_app. split; apply Forall_forall; intros e He; apply in_map_iff in He; destruct He as (f & <- & Hf).
  - apply filter_In in Hf. destruct (fields_send f (proj1 Hf) (proj2 Hf)) as (l & E & H1 & H2). cbn. rewrite E. auto.
  - destruct (options_send f Hf) as (l & E & H1 & H2). cbn. rewrite E. auto.
Qed.
Definition got : values := parse_query (encode_values the_query).
Lemma got_field : forall f, In f (field_loop meth ps) -> in_query f = true -> mget got (hf_query f) = opt_list (or_nil (field_values K req f)).
Proof.
  intros f Hf Hl. apply query_arrives; [apply entries_nodup|apply entries_bytes|]. apply in_or_app. left. apply (in_map (f_entry K req)). apply filter_In. auto.
Qed.
Lemma got_option : forall h, In h (query_opts os) -> mget got (hf_query h) = opt_list (or_nil (option_values K req h)).
Proof. intros h Hh. apply query_arrives; [apply entries_nodup|apply entries_bytes|]. apply in_or_app. right. apply (in_map (o_entry K req)). exact Hh. Qed.

(** ** The path of the request *)
Hypothesis Hcamel : NoDup (map camel_of ps).
Hypothesis Hvars : forall n, In (TVar n) ts -> exists p, In p ps /\ pm_loc p = T "path" /\ fd_pbname (pm_field p) = n.
Hypothesis Htmpl : template_plain ts.
Variable b : hbind.
Hypothesis Hbp : hb_path b = write_template (TLit [] :: ts).
Hypothesis Hbf : hb_fields b = field_loop meth ps.

Lemma same_camel : forall p p', In p ps -> In p' ps -> camel_of p = camel_of p' -> p = p'.
Proof.
  clear -Hcamel. intros p p' Hp Hp' E. induction ps as [|a l IH]; [destruct Hp|]. cbn [map] in Hcamel. inversion Hcamel as [|x y Hx Hy]; subst.
  destruct Hp as [->|Hp], Hp' as [->|Hp']; [reflexivity|..].
  - destruct Hx. rewrite E. apply in_map. exact Hp'.
  - destruct Hx. rewrite <- E. apply in_map. exact Hp.
  - apply IH; assumption.
Qed.
Definition env (n : str) : str := sprint K (gotype_of b (go_camel_case n)) (req (go_camel_case n)).
Lemma gotype_param : forall p, In p ps -> is_field p = true -> gotype_of b (camel_of p) = ft_name (fd_type (pm_field p)).
Proof.
  intros p Hp Hf. unfold gotype_of. rewrite Hbf. destruct (find (fun f => str_eqb (hf_camel f) (camel_of p)) (field_loop meth ps)) as [f|] eqn:E.
  - apply find_some in E. destruct E as [E1 E2]. destruct (field_of f E1) as (p2 & Hp2 & _ & ->). apply str_eqb_eq in E2.
    assert (p2 = p) by (apply same_camel; assumption). subst p2. reflexivity.
  - exfalso. pose proof (find_none _ _ E (new_hfield meth p) (of_field p Hp Hf)) as H. cbn in H. fold (camel_of p) in H. rewrite str_eqb_refl in H. discriminate.
Qed.
Lemma env_param : forall n, In (TVar n) ts -> exists p, In p ps /\ is_field p = true /\ pm_loc p = T "path" /\ fd_pbname (pm_field p) = n /\ go_camel_case n = camel_of p
  /\ path_value K (fd_type (pm_field p)) (req (camel_of p)) /\ env n = sprint K (ft_name (fd_type (pm_field p))) (req (camel_of p)).
Proof.
  intros n Hn. destruct (Hvars n Hn) as (p & Hp & Hl & En). destruct (travels_path p (in_ps p Hp) Hl) as (Hf & Hv & _ & Ec). rewrite En in Ec.
  exists p. split; [exact Hp|]. split; [exact Hf|]. split; [exact Hl|]. split; [exact En|]. split; [exact Ec|]. split; [exact Hv|].
  unfold env. rewrite Ec, gotype_param by assumption. reflexivity.
Qed.
Lemma env_safe : forall n, In (TVar n) ts -> path_safe (env n).
Proof.
  intros n Hn. destruct (env_param n Hn) as (p & Hp & _ & _ & _ & _ & Hv & ->). destruct (path_field K meth p _ Hv) as (_ & Hs & _). exact Hs.
Qed.
Lemma section_text : forall part, In part ts ->
  eval_section K b req (if is_param_part (write_part part) then
      let camel := go_camel_case (remove_braces (write_part part)) in
      if existsb (fun f => hf_enum f && str_eqb (hf_camel f) camel) (hb_fields b) then SecEnum camel else SecVal camel
    else SecLit (write_part part)) = fill_part env part.
Proof.
  intros part Hin. pose proof (fine_plain ts Htmpl) as Hf. rewrite Forall_forall in Hf. destruct (Hf part Hin) as [->|Hpl]; [reflexivity|].
  destruct part as [s|n]; cbn [fill_part].
  - cbn [write_part]. rewrite param_part_lit by apply Hpl. reflexivity.
  - destruct Hpl as (Hne & Hp & _). destruct (param_part_var n Hne Hp) as [E1 E2]. rewrite E1, E2. cbv zeta.
    destruct (existsb _ _) eqn:Ee; [|reflexivity]. cbn [eval_section]. apply existsb_exists in Ee. destruct Ee as (f & Hf1 & Hf2). rewrite Hbf in Hf1.
    apply andb_true_iff in Hf2. destruct Hf2 as [Hen Hc]. apply str_eqb_eq in Hc. destruct (field_of f Hf1) as (p2 & Hp2 & _ & ->).
    destruct (env_param n Hin) as (p & Hp1 & _ & _ & _ & Ec & Hv & ->). assert (p2 = p) by (apply same_camel; [exact Hp2|exact Hp1|rewrite <- Ec; exact Hc]). subst p2.
    destruct (path_field K meth p _ Hv) as (_ & _ & H). destruct (H Hen) as [z Ez]. rewrite Ec, Ez. reflexivity.
Qed.
Lemma write_split : split1 c_slash (hb_path b) = [] :: map write_part ts.
Proof.
  rewrite Hbp. unfold write_template. cbn [map write_part]. pose proof (proj1 Htmpl) as Hne. rewrite join_cons by (destruct ts; [congruence|discriminate]).
  cbn [app]. rewrite split_slash_cons, split_join; [reflexivity|destruct ts; [congruence|discriminate]|].
  apply Forall_forall. intros w Hw. apply in_map_iff in Hw. destruct Hw as (p & <- & Hp). pose proof (fine_plain ts Htmpl) as Hf. rewrite Forall_forall in Hf.
  destruct (Hf p Hp) as [->|Hpl]; [intros []|apply plain_free; exact Hpl].
Qed.
Lemma path_sent : client_path K b req = filled env ts.
Proof.
  unfold client_path, path_sections. rewrite write_split, map_map, map_cons, map_map.
  match goal with |- context [map ?g ts] => assert (E : map g ts = map (fill_part env) ts) by (apply map_ext_in; intros p Hp; exact (section_text p Hp)) end.
  rewrite E. change (is_param_part []) with false. cbn [eval_section]. unfold filled.
  rewrite join_cons; [reflexivity|]. pose proof (proj1 Htmpl) as Hne. destruct ts; [congruence|discriminate].
Qed.

(** ** Decoding *)
Lemma field_step : forall p r, In p ps -> is_field p = true -> pm_loc p <> T "body" ->
  exists r', decode_field K (var_pairs env ts) got (new_hfield meth p) r false = DOk r' false /\ toward req r r'
    /\ (r' (camel_of p) = req (camel_of p) \/ unsent (req (camel_of p)) /\ r' = r).
Proof.
  intros p r Hp Hf Hl. destruct (travels_loc p (in_ps p Hp)) as [El|[El|El]]; [| |contradiction].
  -     assert (Hiq : in_query (new_hfield meth p) = true) by (unfold in_query; cbn [hf_loc new_hfield]; rewrite El; reflexivity).
    pose proof (got_field (new_hfield meth p) (of_field p Hp Hf) Hiq) as Hg. unfold decode_field. change (hf_loc (new_hfield meth p)) with (pm_loc p). rewrite El. change (str_eqb (T "query") (T "path")) with false. cbn iota. rewrite Hg.
    destruct (field_query_value p Hp Hf El) as [Hv _]. destruct (query_field K meth p req Hv) as (l & E & _ & Hd). rewrite E. cbn [or_nil].
    destruct l as [|s arr]; cbn [opt_list].
    + exists r. split; [reflexivity|]. split; [apply toward_refl|]. right. split; [exact Hd|reflexivity].
    + cbn [delivered] in Hd. rewrite Hd. eexists. split; [reflexivity|]. change (hf_camel (new_hfield meth p)) with (camel_of p).
      split; [apply toward_upd|]. left. apply upd_same.
  - unfold decode_field. change (hf_loc (new_hfield meth p)) with (pm_loc p). change (hf_query (new_hfield meth p)) with (fd_pbname (pm_field p)). rewrite El, str_eqb_refl.
    destruct (travels_path p (in_ps p Hp) El) as (_ & Hv & Hin & Ec). rewrite (var_get env ts _ Hin).
    destruct (path_field K meth p _ Hv) as (Ha & _ & _). unfold env. rewrite Ec, gotype_param by assumption.
    change (hf_gotype (new_hfield meth p)) with (ft_name (fd_type (pm_field p))) in Ha. rewrite Ha. eexists. split; [reflexivity|].
    change (hf_camel (new_hfield meth p)) with (camel_of p). split; [apply toward_upd|]. left. apply upd_same.
Qed.
(** A starting request that already has what is not sent. *)
Definition complete (r : request) (l : list hparam) : Prop :=
  forall p, In p l -> unsent (req (camel_of p)) \/ pm_loc p = T "body" -> r (camel_of p) = req (camel_of p).
Lemma fields_steps : forall l r, (forall p, In p l -> In p ps) -> complete r l ->
  exists r', decode_fields K (var_pairs env ts) got (field_loop meth l) r false = DOk r' false /\ toward req r r'
    /\ forall p, In p l -> is_field p = true -> r' (camel_of p) = req (camel_of p).
Proof.
  induction l as [|p l IH]; intros r Hl Hc; [exists r; split; [reflexivity|]; split; [apply toward_refl|intros p []]|].
  rewrite field_loop_filter. cbn [filter]. destruct (is_field p) eqn:Hf.
  - cbn [map decode_fields]. rewrite <- field_loop_filter. change (hf_loc (new_hfield meth p)) with (pm_loc p). destruct (str_eqb_spec (pm_loc p) (T "body")) as [El|Nl].
    + destruct (IH r) as (r' & E & Ht & Hd); [intros x Hx; apply Hl; right; exact Hx|intros x Hx; apply Hc; right; exact Hx|].
      exists r'. split; [exact E|]. split; [exact Ht|]. intros x [<-|Hx] Hfx; [|apply Hd; assumption].
      eapply toward_keep; [exact Ht|]. apply Hc; [left; reflexivity|right; exact El].
    + destruct (field_step p r (Hl p (or_introl eq_refl)) Hf Nl) as (r1 & E1 & Ht1 & Hd1). rewrite E1.
      destruct (IH r1) as (r' & E & Ht & Hd); [intros x Hx; apply Hl; right; exact Hx| |].
      { intros x Hx Hu. eapply toward_keep; [exact Ht1|]. apply Hc; [right; exact Hx|exact Hu]. }
      exists r'. split; [exact E|]. split; [eapply toward_trans; eassumption|]. intros x [<-|Hx] Hfx; [|apply Hd; assumption].
      eapply toward_keep; [exact Ht|]. destruct Hd1 as [Hd1|[Hu ->]]; [exact Hd1|]. apply Hc; [left; reflexivity|left; exact Hu].
  - rewrite <- field_loop_filter. destruct (IH r) as (r' & E & Ht & Hd); [intros x Hx; apply Hl; right; exact Hx|intros x Hx; apply Hc; right; exact Hx|].
    exists r'. split; [exact E|]. split; [exact Ht|]. intros x [<-|Hx] Hfx; [congruence|apply Hd; assumption].
Qed.
Lemma oneofs_steps : forall l zs r, (forall p, In p l -> In p ps) -> (forall z, In z zs -> In z os) -> oneof_loop ms meth l = Ret zs -> complete r l ->
  exists r', decode_oneofs K got zs r false = DOk r' false /\ toward req r r'
    /\ forall p, In p l -> ft_oneof (fd_type (pm_field p)) <> None -> r' (camel_of p) = req (camel_of p).
Proof.
  induction l as [|p l IH]; intros zs r Hl Hz H Hc; cbn [oneof_loop] in H.
  - injection H as <-. exists r. split; [reflexivity|]. split; [apply toward_refl|intros p []].
  - destruct (ft_oneof (fd_type (pm_field p))) as [fs|] eqn:Eo.
    + destruct (new_options ms meth (pm_field p) fs) as [xs| |] eqn:Ex; try discriminate. destruct (oneof_loop ms meth l) as [zs'| |] eqn:Er; try discriminate.
      injection H as <-. cbn [decode_oneofs ho_loc]. destruct (str_eqb_spec (pm_loc p) (T "query")) as [El|Nl].
      * destruct (travels_query p (in_ps p (Hl p (or_introl eq_refl))) El) as [(_ & E & _)|(fs2 & Eo2 & H1 & H2 & H3)]; [congruence|].
        rewrite Eo in Eo2. injection Eo2 as <-. destruct (oneof_step K ms meth p fs xs req Eo H1 H2 H3 Ex) as [_ Hstep].
        destruct (Hstep got (fd_name (pm_field p)) (pm_loc p) r) as (r1 & E1 & Ht1 & Hd1).
        { intros h Hh. apply got_option. unfold query_opts. apply in_flat_map. exists (mkHOneof (fd_name (pm_field p)) (pm_loc p) xs). split; [|exact Hh].
          apply filter_In. split; [apply Hz; left; reflexivity|]. unfold o_in_query. cbn [ho_loc]. rewrite El. reflexivity. }
        rewrite E1. destruct (IH zs' r1) as (r' & E & Ht & Hd); [intros x Hx; apply Hl; right; exact Hx|intros z Hz2; apply Hz; right; exact Hz2|reflexivity| |].
        { intros x Hx Hu. eapply toward_keep; [exact Ht1|]. apply Hc; [right; exact Hx|exact Hu]. }
        exists r'. split; [exact E|]. split; [eapply toward_trans; eassumption|]. intros x [<-|Hx] Hfx; [|apply Hd; assumption].
        eapply toward_keep; [exact Ht|]. destruct Hd1 as [Hd1|[Hu ->]]; [exact Hd1|]. apply Hc; [left; reflexivity|left; exact Hu].
      * destruct (IH zs' r) as (r' & E & Ht & Hd); [intros x Hx; apply Hl; right; exact Hx|intros z Hz2; apply Hz; right; exact Hz2|reflexivity|intros x Hx; apply Hc; right; exact Hx|].
        exists r'. split; [exact E|]. split; [exact Ht|]. intros x [<-|Hx] Hfx; [|apply Hd; assumption].
        eapply toward_keep; [exact Ht|]. apply Hc; [left; reflexivity|]. right.
        destruct (travels_loc p (in_ps p (Hl p (or_introl eq_refl)))) as [E1|[E1|E1]]; [congruence| |exact E1].
        destruct (travels_path p (in_ps p (Hl p (or_introl eq_refl))) E1) as (Hf & _). unfold is_field in Hf. rewrite Eo in Hf. discriminate.
    + destruct (IH zs r) as (r' & E & Ht & Hd); [intros x Hx; apply Hl; right; exact Hx|exact Hz|exact H|intros x Hx; apply Hc; right; exact Hx|].
      exists r'. split; [exact E|]. split; [exact Ht|]. intros x [<-|Hx] Hfx; [congruence|apply Hd; assumption].
Qed.
Hypothesis Hbo : hb_oneofs b = os.
Lemma decoded : forall r0, complete r0 ps -> exists r,
  (match decode_fields K (var_pairs env ts) got (hb_fields b) r0 false with DOk r' err' => decode_oneofs K got (hb_oneofs b) r' err' | x => x end) = DOk r false
  /\ toward req r0 r /\ forall p, In p ps -> r (camel_of p) = req (camel_of p).
Proof.
  intros r0 Hc. rewrite Hbf, Hbo. destruct (fields_steps ps r0 (fun p H => H) Hc) as (r1 & E1 & Ht1 & Hd1). rewrite E1.
  destruct (oneofs_steps ps os r1 (fun p H => H) (fun p H => H) Hos) as (r & E2 & Ht2 & Hd2).
  { intros p Hp Hu. eapply toward_keep; [exact Ht1|]. apply Hc; assumption. }
  exists r. split; [exact E2|]. split; [eapply toward_trans; eassumption|]. intros p Hp.
  destruct (ft_oneof (fd_type (pm_field p))) as [fs|] eqn:Eo; [apply Hd2; [exact Hp|congruence]|].
  destruct (is_field p) eqn:Ef; [eapply toward_keep; [exact Ht2|]; apply Hd1; assumption|].
  destruct (travels_loc p (in_ps p Hp)) as [E|[E|E]].
  - destruct (travels_query p (in_ps p Hp) E) as [(Hf & _)|(fs & E3 & _)]; congruence.
  - destruct (travels_path p (in_ps p Hp) E) as (Hf & _). congruence.
  - eapply toward_keep; [exact Ht2|]. eapply toward_keep; [exact Ht1|]. apply Hc; [exact Hp|right; exact E].
Qed.
End Binding.
End R.
