(** What a binding made from a method definition is like: the hypotheses of DecoderRun2.v and DecoderTexts2.v. *)
From Coq Require Import String Lia.
From Verif Require Import GoStr GoStrProofs GoMap Strs StrsSpec SvcTypes HttpTransport Url GenHttp GoLex GoLexProofs GoLang GoLangProofs DecoderProg DecoderText DecoderTexts DecoderRun DecoderRun2 WiringProofs PropWiring.
From Verif Require Import Wiring WiringSpec.
From Verif Require Generator Render TextSpec TextFile DecoderTexts2.

(** The name of a field of a Go message: exported, and as protoc-gen-go writes it. *)
Definition go_name (n : str) : Prop := exported_ident n /\ go_camel_case n = n.
(** The name of a message or enum type, which is no variable of a decoder of this method. *)
Definition visible_type (meth n : str) : Prop := exported_ident n /\ forall y s, In s [go_camel_case meth; T "Str"; T "StrArr"; T "OK"; T "CountSet"] -> n <> y ++ s.
(** A scalar type (a repeated one without a star), or a message or enum type *)
Definition go_type (meth : str) (t : ftype) : Prop :=
  match ft_msg t, ft_enum t, ft_map t with
  | None, None, None => In (ft_name t) go_base_types /\ (ft_array t = true -> ft_star t = false)
  | _, _, _ => visible_type meth (ft_name t)
  end.
(** An option of a oneof: the field of the wrapper struct [ft_msg], which is a scalar, an enum, or a message (with a star) *)
Definition option_type (ms : list message) (meth : str) (t : ftype) : Prop :=
  ft_array t = false /\ ft_map t = None /\ (exists w, ft_msg t = Some w /\ exported_ident (mref_name ms w)) /\
  match ft_enum t with
  | Some _ => visible_type meth (ft_name t) /\ ft_star t = false
  | None => In (ft_name t) go_base_types /\ ft_star t = false \/ visible_type meth (ft_name t)
  end.
(** A parameter of a binding *)
Definition param_ok (ms : list message) (meth : str) (p : hparam) : Prop :=
  go_name (fd_name (pm_field p)) /\
  match ft_oneof (fd_type (pm_field p)) with
  | None => safe (fd_pbname (pm_field p)) /\ In (pm_loc p) [T "path"; T "query"; T "body"] /\ (pm_loc p <> T "body" -> go_type meth (fd_type (pm_field p)))
  | Some os => Forall (fun o => go_name (fd_name o) /\ safe (fd_pbname o) /\ option_type ms meth (fd_type o)) os
  end.

Lemma exported_cap n : exported_ident n -> cap n = true. Proof. destruct n as [|c n]; [intros []|]. intros [H _]. exact H. Qed.
Lemma exported_both a b : exported_ident a -> exported_ident b -> exported_ident (a ++ b).
Proof. intros A B. apply exported_app; [exact A|apply exported_runes; exact B]. Qed.
Lemma safe_no_escape s : safe s -> contains1 s c_backslash = false.
Proof.
  intro H. unfold contains1. destruct (existsb (N.eqb c_backslash) s) eqn:E; [|reflexivity]. apply existsb_exists in E. destruct E as (c & I & E). apply N.eqb_eq in E. destruct (H c I) as (_ & _ & H3). congruence.
Qed.
Lemma base_ident g : In g go_base_types -> ident g.
Proof. intro H. cbn [go_base_types In] in H. assert (X : forallb (fun w => match w with c :: w' => (is_letter c) && forallb ident_runeb w' | [] => false end && negb (existsb (str_eqb w) go_keywords)) go_base_types = true) by reflexivity.
  rewrite forallb_forall in X. specialize (X g H). apply andb_prop in X. destruct X as [X1 X2]. split.
  - destruct g as [|c g]; [discriminate|]. apply andb_prop in X1. destruct X1 as [X1 X3]. split; [left; exact X1|]. rewrite forallb_forall in X3. apply Forall_forall. intros d Hd. apply ident_rune_b. apply X3. exact Hd.
  - intro I. apply Bool.negb_true_iff in X2. assert (Y : existsb (str_eqb g) go_keywords = true) by (apply existsb_exists; exists g; split; [exact I|apply str_eqb_refl]). congruence.
Qed.
Lemma base_not_cap g : In g go_base_types -> cap g = false.
Proof. intro H. cbn [go_base_types In] in H. repeat (destruct H as [<-|H]; [reflexivity|]). destruct H. Qed.
Lemma base_is g : In g go_base_types -> is_go_base_type g = true.
Proof. intro H. unfold is_go_base_type. apply existsb_exists. exists g. split; [exact H|apply str_eqb_refl]. Qed.
Lemma cap_not_base g : cap g = true -> ~ In g go_base_types /\ is_go_base_type g = false.
Proof.
  intro C. assert (N : ~ In g go_base_types) by (intro H; rewrite (base_not_cap g H) in C; discriminate). split; [exact N|]. unfold is_go_base_type. destruct (existsb _ _) eqn:E; [|reflexivity].
  apply existsb_exists in E. destruct E as (w & I & E). apply str_eqb_eq in E. subst w. contradiction.
Qed.
Lemma pair_eta {A B} (p : A * B) : (fst p, snd p) = p. Proof. destruct p; reflexivity. Qed.
(** ** Fields *)
Lemma field_regular meth p : go_type meth (fd_type (pm_field p)) -> regular (new_hfield meth p).
Proof.
  intro H. unfold go_type in H. unfold regular, shape_of, new_hfield, field_shape. cbn [hf_conv hf_check hf_gotype hf_star hf_base hf_enum hf_rep sh_base sh_enum sh_rep]. split; [apply pair_eta|].
  destruct (ft_msg (fd_type (pm_field p))), (ft_enum (fd_type (pm_field p))), (ft_map (fd_type (pm_field p)));
    try (destruct H as [H _]; apply exported_cap, cap_not_base in H; destruct H as [H1 H2]; split; [discriminate|]; split; [intros _; exact H1|reflexivity]).
  destruct H as [H1 H2]. rewrite (base_is _ H1). split; [intros _ E; split; [exact H1|apply H2; exact E]|]. split; discriminate.
Qed.
Lemma field_type meth p : go_type meth (fd_type (pm_field p)) -> type_name (hf_gotype (new_hfield meth p)) /\ ident (hf_gotype (new_hfield meth p)) /\ (In (hf_gotype (new_hfield meth p)) go_base_types \/ visible_type meth (hf_gotype (new_hfield meth p))).
Proof.
  intro H. unfold go_type in H. unfold new_hfield. cbn [hf_gotype].
  destruct (ft_msg (fd_type (pm_field p))), (ft_enum (fd_type (pm_field p))), (ft_map (fd_type (pm_field p)));
    try (split; [right; apply exported_cap; apply H|split; [apply exported_is_ident; apply H|right; exact H]]).
  destruct H as [H1 H2]. split; [left; exact H1|]. split; [apply base_ident; exact H1|left; exact H1].
Qed.
Lemma tconv_plain g b e st r : ident g -> plain_tconv (create_decode_tconv (mkShape g st b e r)).
Proof. intro H. unfold create_decode_tconv. cbn [sh_rep sh_gotype sh_enum sh_base sh_star]. destruct r; [exact I|]. destruct (b && st)%bool; destruct (_ || e)%bool; cbn [plain_tconv]; auto. Qed.
(** ** Options *)
Section Option.
  Variables (ms : list message) (meth : str) (parent o : field) (f : hfield).
  Hypothesis made : new_option ms meth parent o = Ret f.
  Hypothesis ty_ok : option_type ms meth (fd_type o).
  Lemma option_is : hf_gotype f = ft_name (fd_type o) /\ hf_local f = go_camel_case (fd_name o) ++ go_camel_case meth /\ hf_query f = fd_pbname o /\ hf_camel f = go_camel_case (fd_name parent) /\ hf_loc f = [] /\ hf_rep f = false /\ hf_star f = false /\ hf_name f = fd_name o.
  Proof. unfold new_option in made. destruct (ft_msg (fd_type o)); try discriminate. injection made as <-. cbn. destruct ty_ok as (E & _). rewrite E. repeat split. Qed.
  Lemma option_regular : regular f.
  Proof.
    unfold new_option in made. destruct (ft_msg (fd_type o)); try discriminate. injection made as <-. destruct ty_ok as (Ea & Em & _ & Hn). unfold regular, shape_of. cbn [hf_conv hf_check hf_gotype hf_star hf_base hf_enum hf_rep sh_base sh_enum sh_rep].
    rewrite Ea, Em in *. split; [apply pair_eta|]. split; [intros _; discriminate|]. destruct (ft_enum (fd_type o)); [|split; discriminate].
    split; [|reflexivity]. intros _. destruct Hn as [[Hn _] _]. apply exported_cap, cap_not_base in Hn. apply Hn.
  Qed.
  Lemma option_types_ok : type_name (hf_gotype f) /\ ident (hf_gotype f) /\ (In (hf_gotype f) go_base_types \/ visible_type meth (hf_gotype f)).
  Proof.
    destruct option_is as (E & _). rewrite E. destruct ty_ok as (_ & _ & _ & Hn).
    assert (V : visible_type meth (ft_name (fd_type o)) -> type_name (ft_name (fd_type o)) /\ ident (ft_name (fd_type o)) /\ (In (ft_name (fd_type o)) go_base_types \/ visible_type meth (ft_name (fd_type o)))).
    { intro H. split; [right; apply exported_cap; apply H|]. split; [apply exported_is_ident; apply H|right; exact H]. }
    destruct (ft_enum (fd_type o)); [apply V; apply Hn|]. destruct Hn as [[Hn _]|Hn]; [|apply V; exact Hn]. split; [left; exact Hn|]. split; [apply base_ident; exact Hn|left; exact Hn].
  Qed.
  Lemma option_fits : go_camel_case (fd_name o) = fd_name o -> fits f.
  Proof.
    intro Ec. unfold new_option in made. destruct (ft_msg (fd_type o)) as [w|]; try discriminate. injection made as <-. destruct ty_ok as (Ea & Em & _ & Hn). unfold fits, shape_of. cbn [hf_conv hf_tconv hf_check hf_gotype hf_star hf_base hf_enum hf_rep hf_name sh_base sh_enum sh_rep].
    rewrite Ea, Em, Ec in *. destruct (ft_enum (fd_type o)) eqn:Ee.
    - destruct Hn as [_ ->]. right. left. split; [reflexivity|]. eexists. reflexivity.
    - destruct Hn as [[Hn ->]|[Hn _]]; [right; left; split; [reflexivity|]; eexists; reflexivity|]. right. right. apply exported_cap, cap_not_base in Hn. destruct Hn as [Hn _]. destruct (no_table _ Hn) as [Et _].
      unfold create_decode_convert. cbn [sh_enum sh_rep sh_base sh_gotype andb negb orb]. rewrite Et. reflexivity.
  Qed.
  Lemma option_named : exported_ident (go_camel_case meth) -> go_name (fd_name o) -> exported_ident (go_camel_case (fd_name parent)) -> safe (fd_pbname o) -> named f.
  Proof.
    intros HM [Hn Ec] Hp Hs. destruct option_is as (E1 & E2 & E3 & E4 & E5 & _). destruct option_types_ok as (_ & Hi & _). unfold named. rewrite E2, E3, E4, E5, Ec.
    split; [apply exported_is_ident, exported_both; assumption|]. split; [exact Hi|]. split; [apply exported_is_ident; exact Hp|]. split; [|split; [exact Hs|intros c []]].
    rewrite E1 in Hi. unfold new_option in made. destruct ty_ok as (_ & _ & (w & Ew & Hw) & _). rewrite Ew in made. injection made as <-. cbn [hf_tconv good_tconv]. rewrite Ec. split; [apply exported_is_ident; exact Hw|]. split; [apply exported_is_ident; exact Hn|]. apply tconv_plain. exact Hi.
  Qed.
End Option.
Lemma options_each ms meth parent : forall os xs, new_options ms meth parent os = Ret xs -> forall f, In f xs -> exists o, In o os /\ new_option ms meth parent o = Ret f.
Proof.
  induction os as [|o os IH]; intros xs H f I; cbn [new_options] in H; [injection H as <-; destruct I|]. destruct (new_option ms meth parent o) as [x| |] eqn:E; try discriminate. destruct (new_options ms meth parent os) as [xs'| |]; try discriminate.
  injection H as <-. destruct I as [<-|I]; [exists o; split; [left; reflexivity|exact E]|]. destruct (IH xs' eq_refl f I) as (o' & I' & E'). exists o'. split; [right; exact I'|exact E'].
Qed.
Lemma oneofs_each ms meth : forall ps os, oneof_loop ms meth ps = Ret os -> forall x, In x os -> exists p l, In p ps /\ ft_oneof (fd_type (pm_field p)) = Some l /\ ho_name x = fd_name (pm_field p) /\ ho_loc x = pm_loc p /\ new_options ms meth (pm_field p) l = Ret (ho_options x).
Proof.
  induction ps as [|p ps IH]; intros os H x I; cbn [oneof_loop] in H; [injection H as <-; destruct I|]. destruct (ft_oneof (fd_type (pm_field p))) as [l|] eqn:El.
  - destruct (new_options ms meth (pm_field p) l) as [xs| |] eqn:Ex; try discriminate. destruct (oneof_loop ms meth ps) as [r| |]; try discriminate. injection H as <-. destruct I as [<-|I].
    + exists p, l. repeat split; try assumption. left. reflexivity.
    + destruct (IH r eq_refl x I) as (p' & l' & A & B). exists p', l'. split; [right; exact A|exact B].
  - destruct (IH os H x I) as (p' & l' & A & B). exists p', l'. split; [right; exact A|exact B].
Qed.
Lemma fields_each meth ps f : In f (field_loop meth ps) -> exists p, In p ps /\ f = new_hfield meth p /\ ft_oneof (fd_type (pm_field p)) = None.
Proof. intro H. unfold field_loop in H. apply in_flat_map in H. destruct H as (p & I & H). destruct (ft_oneof _) eqn:E; [destruct H|]. destruct (str_eqb _ _); [destruct H|]. destruct H as [<-|[]]. exists p. auto. Qed.

(** ** A binding *)
Section Binding.
  Variables (ms : list message) (i : nat) (m : smethod) (sb : sbinding) (b : hbind).
  Hypothesis Hb : nth_error (sm_bindings m) i = Some sb.
  Hypothesis made : new_binding ms i m = Ret b.
  Hypothesis HM : exported_ident (go_camel_case (sm_name m)).
  Hypothesis HQ : WiringSpec.quiet (go_camel_case (sm_name m)).
  Hypothesis HP : Forall (param_ok ms (sm_name m)) (sb_params sb).
  Hypothesis N1 : NoDup (path_names (sb_params sb) ++ query_options (sb_params sb)).
  Hypothesis N2 : NoDup (oneof_names (sb_params sb)).
  Lemma binding_is : hb_fields b = field_loop (sm_name m) (sb_params sb) /\ oneof_loop ms (sm_name m) (sb_params sb) = Ret (hb_oneofs b).
  Proof. unfold new_binding in made. rewrite Hb in made. destruct (oneof_loop ms (sm_name m) (sb_params sb)) as [os| |] eqn:Eo; try discriminate. injection made as <-. split; reflexivity. Qed.
  Lemma field_ok f : In f (hb_fields b) -> exists p, In p (sb_params sb) /\ f = new_hfield (sm_name m) p /\ param_ok ms (sm_name m) p /\ ft_oneof (fd_type (pm_field p)) = None.
  Proof. destruct binding_is as [E _]. rewrite E. intro H. destruct (fields_each _ _ _ H) as (p & I & Ef & Eo). exists p. rewrite Forall_forall in HP. auto. Qed.
  Lemma oneof_ok x f : In x (hb_oneofs b) -> In f (ho_options x) -> exists p o, In p (sb_params sb) /\ param_ok ms (sm_name m) p /\ ho_name x = fd_name (pm_field p) /\
    new_option ms (sm_name m) (pm_field p) o = Ret f /\ go_name (fd_name o) /\ safe (fd_pbname o) /\ option_type ms (sm_name m) (fd_type o).
  Proof.
    destruct binding_is as [_ E]. intros I J. destruct (oneofs_each _ _ _ _ E x I) as (p & l & A1 & A2 & A3 & A4 & A5). destruct (options_each _ _ _ _ _ A5 f J) as (o & B1 & B2).
    rewrite Forall_forall in HP. pose proof (HP p A1) as P. exists p, o. split; [exact A1|]. split; [exact P|]. split; [exact A3|]. split; [exact B2|]. destruct P as [_ P]. rewrite A2, Forall_forall in P. exact (P o B1).
  Qed.
  Lemma oneof_name_ok x : In x (hb_oneofs b) -> go_name (ho_name x).
  Proof. destruct binding_is as [_ E]. intro I. destruct (oneofs_each _ _ _ _ E x I) as (p & l & A1 & _ & A3 & _). rewrite Forall_forall in HP. rewrite A3. apply (HP p A1). Qed.
  (** Locals *)
  Lemma scope : NoDup (decoder_locals b).
  Proof.
    apply (proj2 (c68_decoder_scope ms i m sb b Hb made HM HQ ltac:(
      assert (G : forall p, In p (sb_params sb) -> param_ok ms (sm_name m) p) by (rewrite Forall_forall in HP; exact HP);
      apply Forall_app; split; [|apply Forall_app; split]; apply Forall_forall; intros n I;
      [unfold path_names in I; apply in_map_iff in I; destruct I as (p & <- & I); apply filter_In in I; destruct I as [I _]; destruct (G p I) as [[A ->] _]; exact A
      |unfold query_options, query_oneofs in I; apply in_flat_map in I; destruct I as (p & I & J); apply filter_In in I; destruct I as [I _]; destruct (G p I) as [_ P]; destruct (ft_oneof (fd_type (pm_field p))) as [l|]; [|destruct J];
        apply in_map_iff in J; destruct J as (o & <- & J); rewrite Forall_forall in P; destruct (P o J) as [[A ->] _]; exact A
      |unfold oneof_names, query_oneofs in I; apply in_map_iff in I; destruct I as (p & <- & I); apply filter_In in I; destruct I as [I _]; destruct (G p I) as [[A _] _]; exact A])) (conj N1 N2)).
  Qed.
  Lemma type_hidden n : visible_type (sm_name m) n -> ~ In n (all_locals b).
  Proof.
    intros [He Ht] Hx. destruct (c68_local_shape ms i m sb b n Hb made Hx) as [K|(y & s & Hs & E)]; [|exact (Ht y s Hs E)].
    cbn [few_words In] in K. repeat (destruct K as [<-|K]; [destruct He as [He _]; discriminate|]). destruct K.
  Qed.

  Let paths := flat_map path_locals (hb_fields b).
  Let all := paths ++ flat_map oneof_locals (hb_oneofs b).
  Lemma local_cap f : In f (hb_fields b) -> cap (hf_local f) = true.
  Proof. intro I. destruct (field_ok f I) as (p & _ & -> & [[A E] _] & _). unfold new_hfield. cbn [hf_local]. rewrite E. apply exported_cap, exported_both; assumption. Qed.
  Lemma option_cap x f : In x (hb_oneofs b) -> In f (ho_options x) -> cap (hf_local f) = true.
  Proof.
    intros I J. destruct (oneof_ok x f I J) as (p & o & _ & _ & _ & Mk & [A E] & _ & Ty). destruct (option_is _ _ _ _ _ Mk Ty) as (_ & L & _). rewrite L, E. apply exported_cap, exported_both; assumption.
  Qed.
  Lemma all_caps : caps all.
  Proof.
    unfold all, paths. apply caps_app; intros y H; apply in_flat_map in H; destruct H as (z & I & H).
    - unfold path_locals in H. destruct (str_eqb _ _); [|destruct H]. pose proof (local_cap z I) as C. destruct H as [<-|[<-|[]]]; [apply cap_app; exact C|exact C].
    - unfold oneof_locals in H. destruct (str_eqb _ _); [|destruct H]. destruct H as [<-|H]; [apply cap_app, exported_cap; apply (oneof_name_ok z I)|]. apply in_flat_map in H. destruct H as (f & J & H).
      exact (caps_option f (option_cap z f I J) y H).
  Qed.
  Lemma all_nodup : NoDup all. Proof. pose proof scope as H. unfold decoder_locals in H. apply (NoDup_app_in _ _ H). Qed.
  Lemma in_all y : In y all -> In y (all_locals b).
  Proof. intro H. unfold all_locals, decoder_locals. rewrite !in_app_iff. unfold all, paths in H. apply in_app_or in H. tauto. Qed.
  Lemma hidden g L : (forall y, In y L -> cap y = true /\ In y (all_locals b)) -> In g go_base_types \/ visible_type (sm_name m) g -> ~ In g L.
  Proof. intros HL [H|H] I; destruct (HL g I) as [A B]; [rewrite (base_not_cap g H) in A; discriminate|exact (type_hidden g H B)]. Qed.
  Lemma field_made f : In f (hb_fields b) -> str_eqb (hf_loc f) (T "body") = true \/ places f /\ well_made paths f /\ named f.
  Proof.
    intro I. destruct (str_eqb (hf_loc f) (T "body")) eqn:Eb; [left; reflexivity|right]. pose proof (local_cap f I) as C. destruct (field_ok f I) as (p & Ip & Ef & [[A E] P] & Eo). rewrite Eo in P. destruct P as (P1 & P2 & P3).
    assert (Nb : pm_loc p <> T "body") by (intro X; rewrite Ef in Eb; unfold new_hfield in Eb; cbn [hf_loc] in Eb; rewrite X in Eb; discriminate). specialize (P3 Nb).
    assert (Pl : places f) by (rewrite Ef; unfold places, new_hfield; cbn [hf_loc]; destruct P2 as [H|[H|[H|[]]]]; [left; exact H|right; left; exact H|destruct Nb; symmetry; exact H]).
    destruct (field_type (sm_name m) p P3) as (T1 & T2 & T3). pose proof (field_regular (sm_name m) p P3) as R.
    assert (Q : hf_query f = fd_pbname (pm_field p)) by (rewrite Ef; reflexivity).
    split; [exact Pl|]. split.
    - split; [exact C|]. rewrite <- Ef in R, T1, T3. split; [exact R|]. split; [exact T1|]. split; [left; rewrite Ef; reflexivity|]. split; [rewrite Q; apply safe_no_escape; exact P1|].
      apply hidden; [|exact T3]. assert (BL : forall y, In y (concat (query_locals f)) -> In y (all_locals b)).
      { intros y Hy. unfold all_locals. rewrite !in_app_iff. right. left. apply in_flat_map. exists f. split; [exact I|]. rewrite Eb. exact Hy. }
      unfold local. intros y [<-|[<-|[<-|Hy]]].
      + split; [exact C|apply BL; cbn [query_locals concat app In]; auto].
      + split; [apply cap_app; exact C|apply BL; cbn [query_locals concat app In]; auto].
      + split; [apply cap_app; exact C|apply BL; cbn [query_locals concat app In]; auto].
      + assert (Ha : In y all) by (unfold all; apply in_or_app; left; exact Hy). split; [apply all_caps; exact Ha|apply in_all; exact Ha].
    - unfold named. rewrite Q, Ef. unfold new_hfield at 1 3 4 5. cbn [hf_local hf_camel hf_tconv hf_loc]. rewrite E. split; [apply exported_is_ident, exported_both; assumption|]. split; [exact T2|]. split; [apply exported_is_ident; exact A|].
      split; [|split; [exact P1|]].
      + assert (PT := tconv_plain (ft_name (fd_type (pm_field p))) (sh_base (field_shape (fd_type (pm_field p)))) (sh_enum (field_shape (fd_type (pm_field p)))) (ft_star (fd_type (pm_field p))) (ft_array (fd_type (pm_field p))) T2).
        unfold good_tconv. unfold field_shape in *. cbn [sh_base sh_enum] in PT. destruct (create_decode_tconv _); try exact PT. destruct PT.
      + destruct P2 as [<-|[<-|[<-|[]]]]; intros c Hc; cbn [In] in Hc; repeat (destruct Hc as [<-|Hc]; [repeat split; discriminate|]); destruct Hc.
  Qed.
  Lemma path_array f : In f (hb_fields b) -> hf_loc f = T "path" -> ~ In (local f "StrArr") paths.
  Proof.
    intros I _ H. unfold paths in H. apply in_flat_map in H. destruct H as (z & Iz & H). unfold path_locals in H. destruct (str_eqb _ _); [|destruct H]. unfold local in H. destruct H as [H|[H|[]]].
    - assert (X : compat (rev (T "Str")) (rev (T "StrArr")) = true) by (eapply same_suffix; exact H). discriminate.
    - destruct (field_ok z Iz) as (p & _ & -> & _). unfold new_hfield in H. cbn [hf_local] in H.
      assert (X : compat (rev (go_camel_case (sm_name m))) (rev (T "StrArr")) = true) by (eapply same_suffix; exact H).
      rewrite (not_same_end _ _ (HQ (T "StrArr") ltac:(cbn [In]; auto))) in X. discriminate.
  Qed.
  Lemma oneof_made_ok x : In x (hb_oneofs b) -> ho_loc x = T "query" -> Forall (fun f => (well_made all f /\ hf_rep f = false) /\ named f) (ho_options x).
  Proof.
    intros I Hl. apply Forall_forall. intros f J. pose proof (option_cap x f I J) as C. destruct (oneof_ok x f I J) as (p & o & Ip & [[A E] _] & Hn & Mk & Gn & Sf & Ty). destruct (option_is _ _ _ _ _ Mk Ty) as (G1 & G2 & G3 & G4 & G5 & G6 & G7 & G8).
    destruct (option_types_ok _ _ _ _ _ Mk Ty) as (T1 & T2 & T3). split; [split; [|exact G6]|].
    - split; [exact C|]. split; [apply (option_regular _ _ _ _ _ Mk Ty)|]. split; [exact T1|]. split; [apply (option_fits _ _ _ _ _ Mk Ty); apply Gn|]. split; [rewrite G3; apply safe_no_escape; exact Sf|].
      apply hidden; [|exact T3]. assert (OL : forall y, In y (option_locals f) -> In y all).
      { intros y Hy. unfold all. apply in_or_app. right. apply in_flat_map. exists x. split; [exact I|]. unfold oneof_locals. rewrite Hl. change (str_eqb (T "query") (T "query")) with true. cbn iota. right. apply in_flat_map. exists f. split; [exact J|exact Hy]. }
      unfold local. intros y [<-|[<-|[<-|Hy]]].
      + split; [exact C|]. unfold all_locals. rewrite !in_app_iff. right. right. apply in_flat_map. exists x. split; [exact I|apply in_map; exact J].
      + split; [apply cap_app; exact C|]. apply in_all, OL. cbn [option_locals In]. auto.
      + split; [apply cap_app; exact C|]. apply in_all, OL. cbn [option_locals In]. auto.
      + split; [apply all_caps; exact Hy|apply in_all; exact Hy].
    - apply (option_named _ _ _ _ _ Mk Ty HM Gn); [rewrite E; exact A|exact Sf].
  Qed.

  (** ** What the tree does *)
  Theorem run_binding K zero request vars query body : (forall k l, mget query k = Some l -> l <> []) -> str_eqb request (T "string") = false ->
    call K zero request vars query body (decoder_prog request b) =
    Some match body with
         | None => DErr
         | Some s => match (match s with [] => Some zero | _ => pj_dec K s end) with
                     | Some r => match decode_fields K vars query (hb_fields b) r false with DOk r' err' => decode_oneofs K query (hb_oneofs b) r' err' | x => x end
                     | None => DErr
                     end
         end.
  Proof.
    intros Hq Hs. apply run_decoder; [exact Hq|exact Hs|exact all_caps|exact all_nodup| |exact path_array|].
    - apply Forall_forall. intros f I. destruct (field_made f I) as [H|(H1 & H2 & _)]; [left; exact H|right; split; assumption].
    - apply Forall_forall. intros x I Hl. apply str_eqb_eq in Hl. split; [apply exported_cap, oneof_name_ok; exact I|]. eapply Forall_impl; [|apply (oneof_made_ok x I Hl)]. intros f H. apply H.
  Qed.

  (** ** The text *)
  Section Text.
    Variable format_source : str -> option str.
    Hypothesis lays_f : forall f t, In f (hb_fields b) -> field_text f = Some t -> lays_out format_source t.
    Hypothesis lays_o : forall o t, In o (hb_oneofs b) -> oneof_text o = Some t -> lays_out format_source t.
    Lemma formatted t : lays_out format_source t -> tokens (Generator.format_code format_source t) = tokens t.
    Proof. intro H. unfold Generator.format_code. destruct (format_source t) as [t'|] eqn:E; [exact (H t' E)|reflexivity]. Qed.
    Theorem binding_text request : ident (hb_label b) -> ident request ->
      tokens (TextSpec.decoder_func (hb_label b) request
        (TextSpec.each (fun f => TextSpec.decoder_slot (if str_eqb (hf_loc f) (T "body") then None else Some (TextFile.field_code format_source f))) (hb_fields b))
        (TextSpec.each (fun o => TextSpec.decoder_slot (if str_eqb (ho_loc o) (T "query") then Some (TextFile.oneof_code format_source o) else None)) (hb_oneofs b))) =
      plain (decoder_toks (concat [T "DecodeHTTP"; hb_label b; T "Request"]) (decoder_prog request b)).
    Proof.
      intros Hl Hr.
      pose proof (DecoderTexts2.decoder_lexed (hb_label b) request (map (fun f => if str_eqb (hf_loc f) (T "body") then None else Some (TextFile.field_code format_source f)) (hb_fields b))
        (map (fun o => if str_eqb (ho_loc o) (T "query") then Some (TextFile.oneof_code format_source o) else None) (hb_oneofs b))
        (map (fun f => if str_eqb (hf_loc f) (T "body") then Nil else DecoderProg.field_code f) (hb_fields b))
        (map (fun o => if str_eqb (ho_loc o) (T "query") then DecoderProg.oneof_code o else Nil) (hb_oneofs b)) Hl Hr) as D.
      unfold TextSpec.each in *. rewrite !map_map in D. apply D; clear D.
      - assert (G : forall l, (forall f, In f l -> In f (hb_fields b)) -> Forall2 (fun c bl => plain (match c with Some c => lex c | None => [] end) = plain (block_toks bl))
            (map (fun f => if str_eqb (hf_loc f) (T "body") then None else Some (TextFile.field_code format_source f)) l) (map (fun f => if str_eqb (hf_loc f) (T "body") then Nil else DecoderProg.field_code f) l)).
        { induction l as [|f l IH]; intro Sub; [constructor|]. cbn [map]. constructor; [|apply IH; intros g J; apply Sub; right; exact J]. assert (I : In f (hb_fields b)) by (apply Sub; left; reflexivity).
          destruct (str_eqb (hf_loc f) (T "body")) eqn:Eb; [reflexivity|]. destruct (field_made f I) as [X|(P & W & N)]; [congruence|]. destruct W as (_ & Rg & _).
          destruct (field_lexed f P N Rg) as (t & Et & Lt).
          assert (Ec : TextFile.field_code format_source f = Generator.format_code format_source t).
          { unfold TextFile.field_code, Render.field_unmarshaler. unfold field_text, field_template in Et. rewrite Et. reflexivity. }
          rewrite Ec. change (plain (lex ?x)) with (tokens x). rewrite (formatted t (lays_f f t I Et)). unfold tokens. rewrite Lt. reflexivity. }
        apply G. auto.
      - assert (G : forall l, (forall o, In o l -> In o (hb_oneofs b)) -> Forall2 (fun c bl => plain (match c with Some c => lex c | None => [] end) = plain (block_toks bl))
            (map (fun o => if str_eqb (ho_loc o) (T "query") then Some (TextFile.oneof_code format_source o) else None) l) (map (fun o => if str_eqb (ho_loc o) (T "query") then DecoderProg.oneof_code o else Nil) l)).
        { induction l as [|o l IH]; intro Sub; [constructor|]. cbn [map]. constructor; [|apply IH; intros g J; apply Sub; right; exact J]. assert (I : In o (hb_oneofs b)) by (apply Sub; left; reflexivity).
          destruct (str_eqb (ho_loc o) (T "query")) eqn:Eb; [|reflexivity]. apply str_eqb_eq in Eb. pose proof (oneof_made_ok o I Eb) as W.
          assert (Ec : TextFile.oneof_code format_source o = Generator.format_code format_source (oneof_src o)).
          { unfold TextFile.oneof_code, Render.oneof_unmarshaler. pose proof (oneof_made o) as M. unfold oneof_text in M. rewrite M. reflexivity. }
          rewrite Ec. change (plain (lex ?x)) with (tokens x). rewrite (formatted (oneof_src o) (lays_o o (oneof_src o) I (oneof_made o))). unfold tokens.
          rewrite (DecoderTexts2.oneof_lexed o Eb); [reflexivity|apply exported_is_ident; apply (oneof_name_ok o I)| |].
          - eapply Forall_impl; [|exact W]. intros f H. apply H.
          - eapply Forall_impl; [|exact W]. intros f ((H & _) & _). apply H. }
        apply G. auto.
    Qed.
  End Text.
End Binding.
(** No list of a parsed query is empty. *)
Lemma v_add_some q k w : (forall x l, mget q x = Some l -> l <> []) -> forall x l, mget (v_add q k w) x = Some l -> l <> [].
Proof.
  intros H x l. unfold v_add. rewrite mget_mset. destruct (str_eqb _ _); [|apply H]. intro E. injection E as <-. destruct (mget q k) as [[|]|]; discriminate.
Qed.
Lemma query_some s : forall k l, mget (parse_query s) k = Some l -> l <> [].
Proof.
  unfold parse_query. assert (G : forall parts q, (forall x l, mget q x = Some l -> l <> []) -> forall k l, mget (fold_left parse_pair parts q) k = Some l -> l <> []).
  { induction parts as [|p parts IH]; intros q H k l; [apply H|]. cbn [fold_left]. apply IH. unfold parse_pair. destruct (contains1 p c_semi); [exact H|]. destruct p as [|c p]; [exact H|].
    destruct (cut_at 61 (c :: p)) as [a w]. destruct (unescape true a); [|exact H]. destruct (unescape true w); [|exact H]. apply v_add_some. exact H. }
  apply G. intros x l H. discriminate.
Qed.
