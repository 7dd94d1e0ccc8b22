(** What the encoder of a binding made from a method definition is like: the hypotheses of EncoderText.v and EncoderRun.v. *)
From Coq Require Import String.
From Verif Require Import GoStr GoStrProofs GoMap Strs StrsSpec SvcTypes HttpTransport Url GenHttp GoLex GoLexProofs GoLang GoEncode DecoderProg EncoderProg EncoderText EncoderRun WiringProofs.
From Verif Require Import WiringSpec.
From Verif Require DecoderProto.
From Verif Require Render TextSpec PropText.
Import DecoderProto.

(** The Go type of a field, as svcdef reads it from the struct *)
Definition go_ty (t : ftype) : ty := let e := if ft_star t then TyPtr (TyName (ft_name t)) else TyName (ft_name t) in if ft_array t then TySlice e else e.
(** An option of a scalar type *)
Definition scalar_option (t : ftype) : Prop := ft_enum t = None /\ In (ft_name t) go_base_types.
(** One that is none: an enum, or a message, whose Go type is a pointer *)
Definition other_option (t : ftype) : Prop := match ft_enum t with Some _ => True | None => ~ In (ft_name t) go_base_types /\ ft_star t = true end.
(** A part of a path: the name in braces of a field, or text with no quote, backslash or newline. *)
Definition part_ok (ps : list hparam) (part : str) : Prop :=
  if is_param_part part then exists p, In p ps /\ ft_oneof (fd_type (pm_field p)) = None /\ ft_name (fd_type (pm_field p)) <> [] /\ go_camel_case (remove_braces part) = fd_name (pm_field p) else safe part.
(** The struct of the request message, with the fields and oneofs of these parameters *)
Definition struct_of (ps : list hparam) (S : struct) : Prop :=
  Forall (fun p =>
    match ft_oneof (fd_type (pm_field p)) with
    | None => ft_name (fd_type (pm_field p)) <> [] -> st_fields S (fd_name (pm_field p)) = Some (go_ty (fd_type (pm_field p)))     (* svcdef gives maps no name *)
    | Some os => Forall (fun o => st_options S (fd_name o) = Some (fd_name (pm_field p), go_ty (fd_type o))) os
    end) ps.
(** A message whose oneofs in the query hold values of the types of their options *)
Definition typed (ps : list hparam) (r : request) : Prop :=
  forall p os o g, In p ps -> pm_loc p = T "query" -> ft_oneof (fd_type (pm_field p)) = Some os -> In o os -> r (fd_name (pm_field p)) = VOneof (Some (fd_name o, g)) -> has_type (go_ty (fd_type o)) g.

Lemma exported_safe n : exported_ident n -> safe n.
Proof.
  destruct n as [|c n]; [intros []|]. intros [H1 H2] d Hd.
  assert (X : forall d, is_upper d = true \/ is_alnum d = true \/ d = c_underscore -> d <> 10%N /\ d <> c_dquote /\ d <> c_backslash).
  { intros e [He|[He| ->]]; [| |repeat split; discriminate]; repeat split; intros ->; discriminate. }
  destruct Hd as [<-|Hd]; apply X; [left; exact H1|]. rewrite Forall_forall in H2. right. apply H2. exact Hd.
Qed.
Lemma option_made ms meth parent : forall os xs o, new_options ms meth parent os = Ret xs -> In o os -> exists f, In f xs /\ new_option ms meth parent o = Ret f.
Proof.
  induction os as [|o' os IH]; intros xs o H I; cbn [new_options] in H; [destruct I|]. destruct (new_option ms meth parent o') as [x| |] eqn:E; try discriminate. destruct (new_options ms meth parent os) as [xs'| |] eqn:Es; try discriminate.
  injection H as <-. destruct I as [<-|I]; [exists x; split; [left; reflexivity|exact E]|]. destruct (IH xs' o eq_refl I) as (f & F1 & F2). exists f. split; [right; exact F1|exact F2].
Qed.
Lemma oneof_made ms meth p os : forall ps xs, oneof_loop ms meth ps = Ret xs -> In p ps -> ft_oneof (fd_type (pm_field p)) = Some os -> exists x, In x xs /\ ho_loc x = pm_loc p /\ new_options ms meth (pm_field p) os = Ret (ho_options x).
Proof.
  induction ps as [|p' ps IH]; intros xs H I E; cbn [oneof_loop] in H; [destruct I|]. destruct (ft_oneof (fd_type (pm_field p'))) as [l|] eqn:El.
  - destruct (new_options ms meth (pm_field p') l) as [ys| |] eqn:Ey; try discriminate. destruct (oneof_loop ms meth ps) as [r| |] eqn:Er; try discriminate. injection H as <-. destruct I as [<-|I].
    + rewrite E in El. injection El as <-. eexists. split; [left; reflexivity|]. split; [reflexivity|exact Ey].
    + destruct (IH r eq_refl I E) as (x & X1 & X2). exists x. split; [right; exact X1|exact X2].
  - destruct I as [<-|I]; [rewrite E in El; discriminate|]. exact (IH xs H I E).
Qed.
Section Binding.
  Variables (ms : list message) (i : nat) (m : smethod) (sb : sbinding) (b : hbind).
  Hypothesis Hb : nth_error (sm_bindings m) i = Some sb.
  Hypothesis made : new_binding ms i m = Ret b.
  Hypothesis HP : Forall (param_ok ms (sm_name m)) (sb_params sb).
  Hypothesis Hpath : Forall (part_ok (sb_params sb)) (split1 c_slash (sb_path sb)).
  Lemma made_is : hb_path b = sb_path sb /\ hb_verb b = sb_verb sb.
  Proof. unfold new_binding in made. rewrite Hb in made. destruct (oneof_loop ms (sm_name m) (sb_params sb)); try discriminate. injection made as <-. split; reflexivity. Qed.
  Lemma named_field p : In p (sb_params sb) -> ft_oneof (fd_type (pm_field p)) = None -> ft_name (fd_type (pm_field p)) <> [] -> In (new_hfield (sm_name m) p) (hb_fields b) /\ hf_camel (new_hfield (sm_name m) p) = fd_name (pm_field p).
  Proof.
    intros I E N. destruct (binding_is ms i m sb b Hb made) as [Ef _]. rewrite Ef. split.
    - unfold field_loop. apply in_flat_map. exists p. split; [exact I|]. rewrite E. destruct (str_eqb (ft_name (fd_type (pm_field p))) []) eqn:Q; [apply str_eqb_eq in Q; contradiction|left; reflexivity].
    - rewrite Forall_forall in HP. destruct (HP p I) as [[_ C] _]. exact C.
  Qed.
  Lemma in_loc_in loc f : In f (in_loc loc (hb_fields b)) -> In f (hb_fields b) /\ hf_loc f = T loc.
  Proof. intro H. apply filter_In in H. destruct H as [H E]. split; [exact H|apply str_eqb_eq; exact E]. Qed.
  Lemma field_nonempty meth ps f : In f (field_loop meth ps) -> hf_gotype f <> [].
  Proof. intro H. unfold field_loop in H. apply in_flat_map in H. destruct H as (p & I & H). destruct (ft_oneof _) eqn:E; [destruct H|]. destruct (str_eqb _ _) eqn:Q; [destruct H|]. destruct H as [<-|[]]. apply str_eqb_neq. exact Q. Qed.
  Lemma field_names f : In f (hb_fields b) -> exported_ident (hf_camel f) /\ safe (hf_query f).
  Proof. intro H. destruct (field_ok ms i m sb b Hb made HP f H) as (p & I & -> & P & E). destruct P as [[P1 P2] P3]. rewrite E in P3. cbn [new_hfield hf_camel hf_query]. rewrite P2. split; [exact P1|apply P3]. Qed.
  Lemma options_in f : In f (flat_map ho_options (query_oneofs_of b)) -> exists x, In x (hb_oneofs b) /\ In f (ho_options x) /\ ho_loc x = T "query".
  Proof. intro H. apply in_flat_map in H. destruct H as (x & I & J). apply filter_In in I. destruct I as [I L]. exists x. split; [exact I|]. split; [exact J|apply str_eqb_eq; exact L]. Qed.
  Lemma option_ok_of f x : In x (hb_oneofs b) -> In f (ho_options x) -> exists p os o, In p (sb_params sb) /\ pm_loc p = ho_loc x /\ ft_oneof (fd_type (pm_field p)) = Some os /\ In o os /\
    go_camel_case (fd_name (pm_field p)) = fd_name (pm_field p) /\ new_option ms (sm_name m) (pm_field p) o = Ret f /\ go_name (fd_name o) /\ safe (fd_pbname o) /\ option_type ms (sm_name m) (fd_type o).
  Proof.
    destruct (binding_is ms i m sb b Hb made) as [_ E]. intros I J. destruct (oneofs_each _ _ _ _ E x I) as (p & l & A1 & A2 & A3 & A4 & A5). destruct (options_each _ _ _ _ _ A5 f J) as (o & B1 & B2).
    rewrite Forall_forall in HP. pose proof (HP p A1) as P. exists p, l, o. split; [exact A1|]. split; [symmetry; exact A4|]. split; [exact A2|]. split; [exact B1|]. destruct P as [[_ C] P]. split; [exact C|]. split; [exact B2|]. rewrite A2, Forall_forall in P. exact (P o B1).
  Qed.
  Lemma option_zero f x : In x (hb_oneofs b) -> In f (ho_options x) -> ident (hf_name f) /\ safe (hf_query f) /\ zero_text (hf_zero f).
  Proof.
    intros I J. destruct (option_ok_of f x I J) as (p & os & o & _ & _ & _ & _ & _ & E & [N _] & Q & _). unfold new_option in E. destruct (ft_msg (fd_type o)); [|discriminate]. injection E as <-. cbn [hf_name hf_query hf_zero].
    split; [apply exported_is_ident; exact N|]. split; [exact Q|]. unfold get_zero_value, zero_text. destruct (_ || _ || _)%bool; [right; right; right; left; reflexivity|]. destruct (str_eqb _ (T "bool")); [right; right; left; reflexivity|].
    destruct (str_eqb _ (T "string")); [right; left; reflexivity|left; reflexivity].
  Qed.
  (** The tokens *)
  Definition text_of (request : str) : str :=
    TextSpec.encoder_func (hb_label b) request (map Render.section_text (path_sections b))
      (TextSpec.each PropText.query_of (in_loc "query" (hb_fields b)) ++ TextSpec.each (fun o => TextSpec.each PropText.option_query_of (ho_options o)) (query_oneofs_of b))
      (if str_eqb (hb_verb b) (T "get") then None else Some (TextSpec.each (fun f => TextSpec.body_field (hf_camel f)) (in_loc "body" (hb_fields b)))).
  Theorem encoder_tokens request : ident (hb_label b) -> ident request -> tokens (text_of request) = plain (encoder_toks (concat [T "EncodeHTTP"; hb_label b; T "Request"]) (encoder_prog request b)).
  Proof.
    intros HL HR. unfold text_of. rewrite each_flat.
    assert (G : Forall good_section (path_sections b)).
    { unfold path_sections. destruct made_is as [-> _]. apply Forall_forall. intros s Hs. apply in_map_iff in Hs. destruct Hs as (part & <- & Hin). rewrite Forall_forall in Hpath. specialize (Hpath part Hin). unfold part_ok in Hpath.
      destruct (is_param_part part); [|exact Hpath]. destruct Hpath as (p & I & E & N & ->). rewrite Forall_forall in HP. destruct (HP p I) as [[X _] _]. cbv zeta.
      destruct (existsb _ (hb_fields b)); exact (exported_is_ident _ X). }
    pose proof (encoder_lexed (hb_label b) request (path_sections b) (in_loc "query" (hb_fields b)) (flat_map ho_options (query_oneofs_of b)) (if str_eqb (hb_verb b) (T "get") then None else Some (in_loc "body" (hb_fields b))) HL HR G) as L.
    unfold encoder_text, body_code, name in L. unfold encoder_prog. destruct (str_eqb (hb_verb b) (T "get")); cbn [option_map] in L; apply L.
    all: try exact I.
    all: apply Forall_forall; intros f Hf; try (destruct (options_in f Hf) as (x & A & B & _); exact (option_zero f x A B)); try (destruct (in_loc_in _ _ Hf) as [Hf' Hl]; destruct (field_names f Hf') as [Hc Hq]).
    2, 3: try (apply exported_is_ident; exact Hc).
    all: split; [apply exported_is_ident; exact Hc|]; split; [exact Hq|]; destruct (field_ok ms i m sb b Hb made HP f Hf') as (p & I & -> & P & E); destruct P as [_ P]; rewrite E in P; destruct P as (_ & _ & P);
      apply (field_type (sm_name m) p); apply P; cbn [new_hfield hf_loc] in Hl; rewrite Hl; discriminate.
  Qed.
  (** What it does *)
  Variables (K : codecs) (S : struct) (base : str) (r : request).
  Hypothesis Hpj : forall r1 r2 : request, (forall x, r1 x = r2 x) -> pj_enc K r1 = pj_enc K r2.
  Hypothesis HS : struct_of (sb_params sb) S.
  Hypothesis Ht : typed (sb_params sb) r.
  Lemma field_struct f : In f (hb_fields b) -> st_fields S (hf_camel f) = Some (field_ty f).
  Proof.
    intro H. destruct (field_ok ms i m sb b Hb made HP f H) as (p & I & -> & P & E). unfold struct_of in HS. rewrite Forall_forall in HS. specialize (HS p I). rewrite E in HS.
    assert (NE : ft_name (fd_type (pm_field p)) <> []) by (destruct (binding_is ms i m sb b Hb made) as [Ef _]; rewrite Ef in H; exact (field_nonempty _ _ _ H)). specialize (HS NE).
    destruct P as [[_ C] _]. cbn [new_hfield hf_camel]. rewrite C, HS. unfold field_ty, go_ty, new_hfield. cbn [hf_star hf_gotype hf_rep field_shape sh_rep]. reflexivity.
  Qed.
  Lemma field_named f : named_type (field_ty f) = hf_gotype f. Proof. unfold field_ty. destruct (hf_rep f), (hf_star f); reflexivity. Qed.
  Lemma sections_ok : Forall (section_ok S b) (path_sections b).
  Proof.
    unfold path_sections. destruct made_is as [-> _]. apply Forall_forall. intros s Hs. apply in_map_iff in Hs. destruct Hs as (part & <- & Hin). rewrite Forall_forall in Hpath. specialize (Hpath part Hin). unfold part_ok in Hpath.
    destruct (is_param_part part); [|exact Hpath]. destruct Hpath as (p & I & E & N & ->). destruct (named_field p I E N) as [A B]. cbv zeta.
    destruct (existsb _ (hb_fields b)).
    - cbn [section_ok]. eexists. rewrite <- B. apply field_struct. exact A.
    - cbn [section_ok]. unfold gotype_of. destruct (find (fun f => str_eqb (hf_camel f) (fd_name (pm_field p))) (hb_fields b)) as [f|] eqn:F.
      + apply find_some in F. destruct F as [F1 F2]. apply str_eqb_eq in F2. exists (field_ty f). rewrite <- F2. split; [apply field_struct; exact F1|apply field_named].
      + exfalso. pose proof (find_none _ _ F _ A) as X. cbv beta in X. rewrite B, str_eqb_refl in X. discriminate.
  Qed.
  (** The option [o] of the parameter [p] *)
  Section Option.
    Variables (p : hparam) (os : list field) (o : field) (f : hfield).
    Hypothesis P1 : In p (sb_params sb).
    Hypothesis P0 : pm_loc p = T "query".
    Hypothesis P2 : ft_oneof (fd_type (pm_field p)) = Some os.
    Hypothesis P3 : In o os.
    Hypothesis C : go_camel_case (fd_name (pm_field p)) = fd_name (pm_field p).
    Hypothesis E : new_option ms (sm_name m) (pm_field p) o = Ret f.
    Hypothesis N : go_name (fd_name o).
    Hypothesis Q : safe (fd_pbname o).
    Hypothesis O : option_type ms (sm_name m) (fd_type o).
    Lemma option_struct : st_options S (fd_name o) = Some (fd_name (pm_field p), go_ty (fd_type o)).
    Proof. unfold struct_of in HS. rewrite Forall_forall in HS. specialize (HS p P1). rewrite P2, Forall_forall in HS. exact (HS o P3). Qed.
    Lemma option_good : scalar_option (fd_type o) -> option_ok S r f.
    Proof.
      intros [Ee Eb]. destruct O as (Oa & Om & _ & Oe). rewrite Ee in Oe. assert (St : ft_star (fd_type o) = false).
      { destruct Oe as [[_ Oe]|Oe]; [exact Oe|]. exfalso. destruct Oe as [Oe _]. apply exported_cap, cap_not_base in Oe. destruct Oe as [Oe _]. exact (Oe Eb). }
      pose proof option_struct as H. unfold go_ty in H. rewrite St, Oa in H. pose proof (Ht p os o) as Hty. unfold go_ty in Hty. rewrite St, Oa in Hty.
      unfold new_option in E. destruct (ft_msg (fd_type o)); [|discriminate]. injection E as <-. unfold option_ok. cbn [hf_query hf_name hf_rep hf_zero hf_gotype hf_star hf_base hf_enum hf_camel sh_rep sh_base sh_enum].
      rewrite Ee, Om, Oa in *. split; [exact Q|]. split; [apply exported_safe; apply N|]. split; [reflexivity|]. split; [reflexivity|]. split; [split; [reflexivity|exact Eb]|].
      unfold field_ty. cbn [hf_query hf_name hf_rep hf_zero hf_gotype hf_star hf_base hf_enum hf_camel sh_rep sh_base sh_enum]. rewrite C. split; [exact H|]. intros g Hg. exact (Hty g P1 P0 P2 P3 Hg).
    Qed.
    Lemma option_bad : other_option (fd_type o) -> bad_literal S f.
    Proof.
      intro Ho. destruct O as (Oa & Om & _ & Oe). pose proof option_struct as H. unfold go_ty in H. rewrite Oa in H. unfold new_option in E. destruct (ft_msg (fd_type o)); [|discriminate]. injection E as <-.
      unfold bad_literal. cbn [hf_name hf_camel hf_zero]. rewrite C. eexists. split; [exact H|]. unfold get_zero_value. cbn [sh_base sh_rep sh_star sh_gotype]. rewrite Om, Oa. unfold other_option in Ho. destruct (ft_enum (fd_type o)).
      - destruct Oe as [_ ->]. left. split; [eexists; reflexivity|reflexivity].
      - destruct Ho as [Ho ->]. cbn [negb orb]. right. split; [eexists; reflexivity|].
        destruct (str_eqb (ft_name (fd_type o)) (T "bool")) eqn:X1; [exfalso; apply Ho; apply str_eqb_eq in X1; rewrite X1; unfold go_base_types; cbn [In]; auto 10|].
        destruct (str_eqb (ft_name (fd_type o)) (T "string")) eqn:X2; [exfalso; apply Ho; apply str_eqb_eq in X2; rewrite X2; unfold go_base_types; cbn [In]; auto 10|]. reflexivity.
    Qed.
  End Option.
  Lemma body_fields_ok : Forall (body_ok S) (in_loc "body" (hb_fields b)).
  Proof. apply Forall_forall. intros f Hf. destruct (in_loc_in _ _ Hf) as [Hf' _]. eexists. apply field_struct. exact Hf'. Qed.
  Lemma query_fields_ok : Forall (query_ok S) (in_loc "query" (hb_fields b)).
  Proof. apply Forall_forall. intros f Hf. destruct (in_loc_in _ _ Hf) as [Hf' _]. destruct (field_names f Hf') as [Hc Hq]. split; [exact Hq|]. split; [apply exported_safe; exact Hc|apply field_struct; exact Hf']. Qed.
  (** The options of oneofs in the query *)
  Definition oneof_params : list (field * hparam) := flat_map (fun p => match ft_oneof (fd_type (pm_field p)) with Some os => map (fun o => (o, p)) os | None => [] end) (filter (fun p => str_eqb (pm_loc p) (T "query")) (sb_params sb)).
  Theorem encoder_runs : (forall o p, In (o, p) oneof_params -> scalar_option (fd_type o)) -> call K S base r (encoder_prog (st_name S) b) = Some (sent_of b base (encode_request K b r)).
  Proof.
    intro Hscalar. apply run_encoder; [exact sections_ok|exact Hpj|exact body_fields_ok|exact query_fields_ok|].
    apply Forall_forall. intros f Hf. destruct (options_in f Hf) as (x & A & B & L). destruct (option_ok_of f x A B) as (p & os & o & P1 & P0 & P2 & P3 & C & E & N & Q & O). rewrite L in P0.
    apply (option_good p os o f P1 P0 P2 P3 C E N Q O). apply (Hscalar o p). unfold oneof_params. apply in_flat_map. exists p. split; [apply filter_In; split; [exact P1|]; rewrite P0; reflexivity|]. rewrite P2. apply (in_map (fun o => (o, p))). exact P3.
  Qed.
  (** With an option that is no scalar in the query *)
  Theorem encoder_stuck : (forall o p, In (o, p) oneof_params -> scalar_option (fd_type o) \/ other_option (fd_type o)) -> (exists o p, In (o, p) oneof_params /\ other_option (fd_type o)) ->
    call K S base r (encoder_prog (st_name S) b) = None \/ call K S base r (encoder_prog (st_name S) b) = Some Fails.
  Proof.
    intros Hall (o & p & Hin & Ho). apply run_bad_encoder; [exact sections_ok|exact query_fields_ok| |].
    - apply Forall_forall. intros f Hf. destruct (options_in f Hf) as (x & A & B & L). destruct (option_ok_of f x A B) as (p' & os & o' & P1 & P0 & P2 & P3 & C & E & N & Q & O). rewrite L in P0.
      assert (I : In (o', p') oneof_params) by (unfold oneof_params; apply in_flat_map; exists p'; split; [apply filter_In; split; [exact P1|]; rewrite P0; reflexivity|]; rewrite P2; apply (in_map (fun o => (o, p'))); exact P3).
      destruct (Hall o' p' I) as [X|X]; [left; exact (option_good p' os o' f P1 P0 P2 P3 C E N Q O X)|right; exact (option_bad p' os o' f P1 P2 P3 C E O X)].
    - unfold oneof_params in Hin. apply in_flat_map in Hin. destruct Hin as (p' & P1 & Hin). apply filter_In in P1. destruct P1 as [P1 Hl]. apply str_eqb_eq in Hl. destruct (ft_oneof (fd_type (pm_field p'))) as [os|] eqn:P2; [|destruct Hin]. apply in_map_iff in Hin. destruct Hin as (o' & E0 & P3). injection E0 as -> ->.
      destruct (binding_is ms i m sb b Hb made) as [_ Eo]. destruct (oneof_made ms (sm_name m) p os (sb_params sb) (hb_oneofs b) Eo P1 P2) as (x & X1 & X2 & X3). destruct (option_made ms (sm_name m) (pm_field p) os (ho_options x) o X3 P3) as (f & F1 & F2).
      rewrite Forall_forall in HP. destruct (HP p P1) as [[_ C] P]. rewrite P2, Forall_forall in P. destruct (P o P3) as (_ & _ & O).
      apply Exists_exists. exists f. split; [|exact (option_bad p os o f P1 P2 P3 C F2 O Ho)]. apply in_flat_map. exists x. split; [|exact F1]. apply filter_In. split; [exact X1|]. rewrite X2, Hl. reflexivity.
  Qed.
End Binding.
