From Coq Require Import Permutation.
From Verif Require Import GoStr GoStrProofs Scanner ScannerSpec Lexer LexerSpec LexRun LexerProofs5 Unquote Parser ParserSim Strs SvcTypes
  Consolidate ConsolidateSpec.

(** ** Braces *)
Lemma until_close_some : forall s w, until_close s = Some w ->
  exists s', s = w ++ c_rbrace :: s' /\ ~ In c_rbrace w /\ ~ In c_nl w.
Proof.
  induction s as [|c s IH]; intros w H; cbn [until_close] in H; [discriminate|].
  destruct (N.eqb_spec c c_rbrace) as [->|H1].
  { injection H as <-. exists s. split; [reflexivity|]. split; intros []. }
  destruct (N.eqb_spec c c_nl) as [->|H2]; [discriminate|].
  destruct (until_close s) as [v|] eqn:E; [|discriminate]. injection H as <-.
  destruct (IH v eq_refl) as (s' & -> & H3 & H4). exists s'. split; [reflexivity|].
  split; intros [K|K]; congruence || contradiction.
Qed.
Lemma until_close_app : forall w s, ~ In c_rbrace w -> ~ In c_nl w -> until_close (w ++ c_rbrace :: s) = Some w.
Proof.
  induction w as [|c w IH]; intros s H1 H2; cbn [app until_close].
  - rewrite N.eqb_refl. reflexivity.
  - destruct (N.eqb_spec c c_rbrace) as [->|_]; [exfalso; apply H1; left; reflexivity|].
    destruct (N.eqb_spec c c_nl) as [->|_]; [exfalso; apply H2; left; reflexivity|].
    rewrite IH; [reflexivity| |]; intro; [apply H1|apply H2]; right; assumption.
Qed.
Lemma until_close_none : forall s, until_close s = None <-> ~ closes_on_line s.
Proof.
  intro s. split.
  - intros H (w & s' & -> & Hn). revert s' Hn H. induction w as [|c w IH]; intros s' Hn H; cbn [app until_close] in H.
    + rewrite N.eqb_refl in H. discriminate.
    + destruct (N.eqb c c_rbrace); [discriminate|].
      destruct (N.eqb_spec c c_nl) as [->|_]; [apply Hn; left; reflexivity|].
      destruct (until_close (w ++ c_rbrace :: s')) eqn:E; [discriminate|].
      apply (IH s'); [intro; apply Hn; right; assumption|exact E].
  - intro H. destruct (until_close s) as [w|] eqn:E; [|reflexivity].
    destruct (until_close_some s w E) as (s' & -> & H1 & H2). exfalso. apply H. exists w, s'. auto.
Qed.
Lemma parts_skip : forall w s, braced_parts (length w) (w ++ s) = braced_parts 0 s.
Proof. induction w as [|c w IH]; intro s; [reflexivity|]. cbn [length app braced_parts]. apply IH. Qed.
Lemma parts_skip' : forall w c s, braced_parts (S (length w)) (w ++ c :: s) = braced_parts 0 s.
Proof.
  intros w c s. replace (w ++ c :: s) with ((w ++ [c]) ++ s) by (rewrite <- app_assoc; reflexivity).
  rewrite <- (parts_skip (w ++ [c]) s). f_equal. rewrite app_length. cbn. lia.
Qed.
Lemma braced_fun : forall s ps, braced s ps -> braced_parts 0 s = ps.
Proof.
  intros s ps H. induction H as [|c s ps Hc Hs IH|s ps Hn Hs IH|w s ps H1 H2 Hs IH].
  - reflexivity.
  - cbn [braced_parts]. destruct (N.eqb_spec c c_lbrace); [contradiction|exact IH].
  - cbn [braced_parts]. rewrite N.eqb_refl. apply until_close_none in Hn. rewrite Hn. exact IH.
  - cbn [braced_parts]. rewrite N.eqb_refl, until_close_app by assumption. rewrite parts_skip', IH. reflexivity.
Qed.
Lemma braced_total : forall n s, length s <= n -> exists ps, braced s ps.
Proof.
  induction n as [|n IH]; intros [|c s] H; cbn in H; try lia; try (exists []; apply br_nil).
  destruct (N.eq_dec c c_lbrace) as [->|Hc].
  - destruct (until_close s) as [w|] eqn:E.
    + destruct (until_close_some s w E) as (s' & -> & H1 & H2). rewrite app_length in H. cbn in H.
      destruct (IH s') as [ps Hp]; [lia|]. eexists. apply br_part; eassumption.
    + destruct (IH s) as [ps Hp]; [lia|]. exists ps. apply br_open; [apply until_close_none; exact E|exact Hp].
  - destruct (IH s) as [ps Hp]; [lia|]. exists ps. apply br_text; assumption.
Qed.
Lemma braced_iff : forall s ps, braced_parts 0 s = ps <-> braced s ps.
Proof.
  intros s ps. split; [|apply braced_fun]. intros <-.
  destruct (braced_total (length s) s (le_n _)) as [qs H]. rewrite (braced_fun s qs H). exact H.
Qed.
Lemma without_id : forall d s, ~ In d s -> without d s = s.
Proof.
  intros d. induction s as [|c s IH]; intro H; [reflexivity|]. unfold without in *. cbn [filter].
  destruct (N.eqb_spec c d) as [->|_]; [exfalso; apply H; left; reflexivity|]. cbn [negb]. f_equal.
  apply IH. intro; apply H; right; assumption.
Qed.
Lemma braced_lit : forall s rest ps, ~ In c_lbrace s -> braced rest ps -> braced (s ++ rest) ps.
Proof.
  induction s as [|c s IH]; intros rest ps H Hr; [exact Hr|]. cbn [app]. apply br_text.
  - intros ->. apply H. left. reflexivity.
  - apply IH; [|exact Hr]. intro; apply H; right; assumption.
Qed.
Lemma braced_template : forall xs, Forall seg_ok xs -> braced (flat_map write_seg xs) (seg_names xs).
Proof.
  induction xs as [|x xs IH]; intro H; [constructor|]. inversion H as [|y l Hx Hxs]; subst y l.
  specialize (IH Hxs). unfold seg_names in *. cbn [flat_map]. destruct x as [s|n]; cbn [write_seg seg_ok] in *.
  - cbn [app]. apply braced_lit; assumption.
  - destruct Hx as (H1 & H2 & H3). cbn [app]. rewrite <- app_assoc. cbn [app].
    rewrite <- (without_id c_lbrace n H1) at 2. apply br_part; assumption.
Qed.

(** ** Verb and path *)
Lemma is_verb_iff : forall k, is_verb k = true <-> standard_verb k.
Proof.
  intro k. unfold is_verb, standard_verb. rewrite !orb_true_iff, !str_eqb_eq. cbn [In]. intuition congruence.
Qed.
Lemma field_verb_spec : forall fs, first_standard fs (fst (field_verb fs)) (snd (field_verb fs)).
Proof.
  induction fs as [|f fs IH]; cbn [field_verb].
  - right. auto.
  - destruct (is_verb (hf_kind f)) eqn:E.
    + apply is_verb_iff in E. left. exists [], f, fs. cbn. auto.
    + assert (Hn : ~ standard_verb (hf_kind f)) by (rewrite <- is_verb_iff, E; discriminate).
      destruct IH as [(a & g & b & -> & Hs & Hv & Hp & Ha)|(Hv & Hp & Ha)].
      * left. exists (f :: a), g, b. cbn. auto 6.
      * right. auto.
Qed.
Lemma first_standard_fun : forall fs v p v' p', first_standard fs v p -> first_standard fs v' p' -> v = v' /\ p = p'.
Proof.
  induction fs as [|f fs IH]; intros v p v' p' H H'.
  - destruct H as [(a & g & b & E & _)|(-> & -> & _)]; [destruct a; discriminate|].
    destruct H' as [(a & g & b & E & _)|(-> & -> & _)]; [destruct a; discriminate|]. auto.
  - assert (K : forall v p, first_standard (f :: fs) v p ->
        (standard_verb (hf_kind f) /\ v = hf_kind f /\ p = hf_value f)
        \/ (~ standard_verb (hf_kind f) /\ first_standard fs v p)).
    { clear. intros v p [(a & g & b & E & Hs & -> & -> & Ha)|(-> & -> & Ha)].
      - destruct a as [|f0 a]; injection E as -> ->; [left; auto|]. inversion Ha; subst. right. split; [assumption|].
        left. exists a, g, b. auto.
      - inversion Ha; subst. right. split; [assumption|]. right. auto. }
    destruct (K _ _ H) as [(A1 & -> & ->)|(A1 & A2)], (K _ _ H') as [(B1 & -> & ->)|(B1 & B2)]; try contradiction; auto.
Qed.
Lemma last_of_kind_fun : forall k fs v v', last_of_kind k fs v -> last_of_kind k fs v' -> v = v'.
Proof.
  intros k fs. induction fs as [|f fs IH] using rev_ind; intros v v' H H'.
  - destruct H as [(a & g & b & E & _)|(-> & _)]; [destruct a; discriminate|].
    destruct H' as [(a & g & b & E & _)|(-> & _)]; [destruct a; discriminate|]. auto.
  - assert (K : forall v, last_of_kind k (fs ++ [f]) v ->
        (hf_kind f = k /\ v = hf_value f) \/ (hf_kind f <> k /\ last_of_kind k fs v)).
    { clear. intros v [(a & g & b & E & Hk & <- & Hb)|(-> & Ha)].
      - destruct b as [|x b] using rev_ind.
        + apply app_inj_tail in E. destruct E as [-> ->]. left. auto.
        + clear IHb. rewrite app_comm_cons, app_assoc in E. apply app_inj_tail in E. destruct E as [-> ->].
          apply Forall_app in Hb. destruct Hb as [Hb Hx]. inversion Hx; subst. right. split; [assumption|].
          left. exists a, g, b. auto.
      - apply Forall_app in Ha. destruct Ha as [Ha Hx]. inversion Hx; subst. right. split; [assumption|]. right. auto. }
    destruct (K _ H) as [(A1 & ->)|(A1 & A2)], (K _ H') as [(B1 & ->)|(B1 & B2)]; try contradiction; auto.
Qed.
Lemma last_of_kind_cons : forall k f fs v d, hf_kind f <> k ->
  (last_of_kind k fs v \/ (v = d /\ Forall (fun g => hf_kind g <> k) fs)) ->
  last_of_kind k (f :: fs) v \/ (v = d /\ Forall (fun g => hf_kind g <> k) (f :: fs)).
Proof.
  intros k f fs v d Hf [[(a & g & b & -> & H1 & H2 & H3)|(-> & H)]|(-> & H)].
  - left. left. exists (f :: a), g, b. auto.
  - left. right. auto.
  - right. auto.
Qed.
Definition last_or (k : str) (fs : list hfield) (d v : str) : Prop :=
  (exists a f b, fs = a ++ f :: b /\ hf_kind f = k /\ hf_value f = v /\ Forall (fun g => hf_kind g <> k) b)
  \/ (v = d /\ Forall (fun g => hf_kind g <> k) fs).
Lemma last_or_here : forall k f fs d v, hf_kind f = k -> last_or k fs (hf_value f) v -> last_or k (f :: fs) d v.
Proof.
  intros k f fs d v Hk [(a & g & b & -> & H1 & H2 & H3)|(-> & H)].
  - left. exists (f :: a), g, b. auto.
  - left. exists [], f, fs. auto.
Qed.
Lemma last_or_skip : forall k f fs d v, hf_kind f <> k -> last_or k fs d v -> last_or k (f :: fs) d v.
Proof.
  intros k f fs d v Hk [(a & g & b & -> & H1 & H2 & H3)|(-> & H)].
  - left. exists (f :: a), g, b. auto.
  - right. auto.
Qed.
Lemma custom_verb_spec : forall fs v0 p0,
  last_or (T "kind") fs v0 (fst (custom_verb fs v0 p0)) /\ last_or (T "path") fs p0 (snd (custom_verb fs v0 p0)).
Proof.
  induction fs as [|f fs IH]; intros v0 p0; cbn [custom_verb].
  - split; right; auto.
  - destruct (str_eqb_spec (hf_kind f) (T "kind")) as [E|E].
    + destruct (IH (hf_value f) p0) as [H1 H2]. split; [apply last_or_here; assumption|].
      apply last_or_skip; [rewrite E; discriminate|exact H2].
    + destruct (str_eqb_spec (hf_kind f) (T "path")) as [E'|E'].
      * destruct (IH v0 (hf_value f)) as [H1 H2]. split; [apply last_or_skip; assumption|].
        apply last_or_here; assumption.
      * destruct (IH v0 p0) as [H1 H2]. split; apply last_or_skip; assumption.
Qed.
Lemma get_verb_spec : forall b, verb_and_path b (fst (get_verb b)) (snd (get_verb b)).
Proof.
  intro b. unfold get_verb. destruct (hb_custom b) as [|f fs] eqn:E.
  - right. split; [exact E|apply field_verb_spec].
  - left. rewrite E. split; [discriminate|]. exact (custom_verb_spec (f :: fs) [] []).
Qed.
Lemma verb_and_path_fun : forall b v p v' p', verb_and_path b v p -> verb_and_path b v' p' -> v = v' /\ p = p'.
Proof.
  intros b v p v' p' [(H1 & H2 & H3)|(H1 & H2)] [(K1 & K2 & K3)|(K1 & K2)]; try contradiction.
  - split; eapply last_of_kind_fun; eassumption.
  - eapply first_standard_fun; eassumption.
Qed.
Lemma get_verb_iff : forall b v p, get_verb b = (v, p) <-> verb_and_path b v p.
Proof.
  intros b v p. split; intro H.
  - pose proof (get_verb_spec b) as K. rewrite H in K. exact K.
  - destruct (verb_and_path_fun b _ _ _ _ (get_verb_spec b) H) as [<- <-]. apply surjective_pairing.
Qed.

(** ** Locations *)
Lemma before_dot_nil : forall s, split1 c_dot s <> [].
Proof. induction s as [|c s IH]; cbn [split1]; [discriminate|]. destruct (N.eqb c c_dot); [discriminate|]. destruct (split1 c_dot s); discriminate. Qed.
Lemma before_dot_spec : forall s, first_component s (before_dot s).
Proof.
  induction s as [|c s IH]; unfold before_dot; cbn [split1].
  - split; [intros []|left; reflexivity].
  - destruct (N.eqb_spec c c_dot) as [->|Hc].
    + split; [intros []|]. right. exists s. reflexivity.
    + unfold before_dot in IH. destruct (split1 c_dot s) as [|w ws] eqn:E; [destruct (before_dot_nil s E)|].
      destruct IH as [H1 H2]. split; [intros [K|K]; congruence || contradiction|].
      destruct H2 as [->|[r ->]]; [left; reflexivity|right; exists r; reflexivity].
Qed.
Lemma first_component_fun : forall s w w', first_component s w -> first_component s w' -> w = w'.
Proof.
  assert (K : forall w w' r, ~ In c_dot w' -> w' = w ++ c_dot :: r -> False).
  { intros w w' r H ->. apply H. apply in_or_app. right. left. reflexivity. }
  intros s w w' [H1 H2] [H3 H4]. destruct H2 as [->|[r ->]], H4 as [E|[r' E]].
  - auto.
  - exfalso. eapply K; [exact H1|exact E].
  - exfalso. eapply K; [exact H3|symmetry; exact E].
  - clear K. revert w' H3 E. induction w as [|c w IH]; intros [|c' w'] H3 E; cbn [app] in E; auto.
    + injection E as E1 E2. exfalso. apply H3. left. auto.
    + injection E as E1 E2. exfalso. apply H1. left. auto.
    + injection E as -> E. f_equal. apply IH; [| |exact E]; intro; [apply H1|apply H3]; right; assumption.
Qed.
Lemma names_field_iff : forall s name, str_eqb (go_camel_case (before_dot s)) name = true <-> names_field s name.
Proof.
  intros s name. rewrite str_eqb_eq. split.
  - intro H. exists (before_dot s). split; [apply before_dot_spec|exact H].
  - intros (w & H1 & H2). rewrite (first_component_fun s _ _ (before_dot_spec s) H1). exact H2.
Qed.
Lemma in_path_iff : forall b name,
  existsb (fun p => str_eqb (go_camel_case (before_dot p)) name) (get_path_params b) = true <-> in_path b name.
Proof.
  intros b name. rewrite existsb_exists. unfold get_path_params. split.
  - intros (q & H1 & H2). apply names_field_iff in H2.
    exists (fst (get_verb b)), (snd (get_verb b)), (braced_parts 0 (snd (get_verb b))), q.
    split; [apply get_verb_spec|]. split; [apply braced_iff; reflexivity|]. auto.
  - intros (v & p & ps & q & H1 & H2 & H3 & H4). apply get_verb_iff in H1. rewrite H1. cbn [snd].
    apply braced_iff in H2. rewrite H2. exists q. split; [exact H3|]. apply names_field_iff. exact H4.
Qed.
Lemma in_body_iff : forall b name, body_takes name (hb_fields b) = true <-> in_body b name.
Proof.
  intros b name. unfold in_body. generalize (hb_fields b). intro fs. induction fs as [|f fs IH]; cbn [body_takes].
  - split; [discriminate|]. intros (f & [] & _).
  - destruct (str_eqb_spec (hf_kind f) (T "body")) as [E|E].
    + destruct (str_eqb_spec (hf_value f) (T "*")) as [E1|E1].
      { split; [intros _; exists f; split; [left; reflexivity|auto]|reflexivity]. }
      destruct (str_eqb_spec (hf_value f) name) as [E2|E2].
      { split; [intros _; exists f; split; [left; reflexivity|auto]|reflexivity]. }
      destruct (str_eqb (go_camel_case (before_dot (hf_value f))) name) eqn:E3.
      { apply names_field_iff in E3. split; [intros _; exists f; split; [left; reflexivity|auto]|reflexivity]. }
      rewrite IH. split.
      * intros (g & H1 & H2). exists g. split; [right; exact H1|exact H2].
      * intros (g & [<-|H1] & H2 & H3); [|exists g; auto]. exfalso. destruct H3 as [H3|[H3|H3]]; try contradiction.
        apply names_field_iff in H3. congruence.
    + rewrite IH. split.
      * intros (g & H1 & H2). exists g. split; [right; exact H1|exact H2].
      * intros (g & [<-|H1] & H2 & H3); [contradiction|]. exists g. auto.
Qed.

(** ** Methods *)
Definition with_bindings (m : smethod) (bs : list sbinding) : smethod :=
  mkSMeth (sm_name m) (sm_req m) (sm_resp m) (sm_bindings m ++ bs).
Lemma with_bindings_nil : forall m, with_bindings m [] = m.
Proof. intros []. unfold with_bindings. cbn. rewrite app_nil_r. reflexivity. Qed.
Lemma with_bindings_app : forall m a b, with_bindings (with_bindings m a) b = with_bindings m (a ++ b).
Proof. intros. unfold with_bindings. cbn. rewrite app_assoc. reflexivity. Qed.

Definition new_bindings (msgs : list message) (hms : list hmethod) (m : smethod) : list sbinding :=
  map (create_params (req_fields msgs m)) (bindings_for hms (sm_name m)).


Lemma one_nil : forall msgs hm m, sm_name m <> go_camel_case (hm_name hm) -> new_bindings msgs [hm] m = [].
Proof.
  intros msgs hm m H. unfold new_bindings, bindings_for. cbn [flat_map].
  destruct (str_eqb_spec (sm_name m) (go_camel_case (hm_name hm))); [contradiction|reflexivity].
Qed.
Lemma assemble_one : forall msgs ms hm, NoDup (map sm_name ms) ->
  (has_home ms hm -> assemble_method msgs ms hm = COk (map (fun m => with_bindings m (new_bindings msgs [hm] m)) ms))
  /\ (forall ms', assemble_method msgs ms hm = COk ms' -> has_home ms hm)
  /\ (assemble_method msgs ms hm = CPanic -> exists m, In m ms /\ sm_name m = go_camel_case (hm_name hm) /\ ft_msg (sm_req m) = None)
  /\ (forall e, assemble_method msgs ms hm = CErr e -> e = ECNoMethod (hm_name hm) /\ ~ In (go_camel_case (hm_name hm)) (map sm_name ms)).
Proof.
  intros msgs ms hm. induction ms as [|m ms IH]; intro Hnd; cbn [assemble_method map].
  - split; [intros (m & [] & _)|]. split; [intros ms' H; discriminate|]. split; [discriminate|]. intros e H. injection H as <-. auto.
  - inversion Hnd as [|x l Hn Hnd']; subst x l. destruct (IH Hnd') as (IH1 & IH2 & IH3 & IH4). clear IH.
    destruct (str_eqb_spec (sm_name m) (go_camel_case (hm_name hm))) as [E|E].
    + assert (Hrest : map (fun m => with_bindings m (new_bindings msgs [hm] m)) ms = ms).
      { rewrite <- (map_id ms) at 2. apply map_ext_in. intros m' Hm'. rewrite one_nil; [apply with_bindings_nil|].
        intro E'. apply Hn. rewrite E, <- E'. apply in_map. exact Hm'. }
      assert (Hbf : bindings_for [hm] (sm_name m) = hm_bindings hm).
      { unfold bindings_for. cbn [flat_map]. rewrite E, str_eqb_refl, app_nil_r. reflexivity. }
      destruct (hm_bindings hm) as [|b bs] eqn:Eb.
      * split; [|split; [|split]]; try discriminate.
        -- intros _. rewrite Hrest. unfold new_bindings at 1. rewrite Hbf. cbn [map]. rewrite with_bindings_nil. reflexivity.
        -- intros ms' _. exists m. split; [left; reflexivity|]. split; [exact E|]. rewrite Eb. congruence.
      * destruct (ft_msg (sm_req m)) as [r|] eqn:Er.
        -- split; [|split; [|split]]; try discriminate.
           ++ intros _. rewrite Hrest. unfold new_bindings at 1. rewrite Hbf. unfold req_fields. rewrite Er. reflexivity.
           ++ intros ms' _. exists m. split; [left; reflexivity|]. split; [exact E|]. rewrite Er. discriminate.
        -- split; [|split; [|split]]; try discriminate.
           ++ intros (m' & Hin & En & Hmsg). rewrite Eb in Hmsg. destruct Hin as [<-|Hin].
              ** exfalso. apply Hmsg; [discriminate|exact Er].
              ** exfalso. apply Hn. rewrite E, <- En. apply in_map. exact Hin.
           ++ intros _. exists m. split; [left; reflexivity|]. auto.
    + split; [|split; [|split]].
      * intros (m' & Hin & En & Hmsg). destruct Hin as [<-|Hin]; [contradiction|].
        rewrite IH1 by (exists m'; auto). rewrite one_nil by exact E. rewrite with_bindings_nil. reflexivity.
      * intros ms' H. destruct (assemble_method msgs ms hm) eqn:Ea; try discriminate.
        destruct (IH2 _ eq_refl) as (m' & Hin & En). exists m'. split; [right; exact Hin|exact En].
      * intro H. destruct (assemble_method msgs ms hm) eqn:Ea; try discriminate.
        destruct (IH3 eq_refl) as (m' & Hin & En). exists m'. split; [right; exact Hin|exact En].
      * intros e H. destruct (assemble_method msgs ms hm) eqn:Ea; try discriminate. injection H as <-.
        destruct (IH4 _ eq_refl) as [-> Hno]. split; [reflexivity|]. intros [K|K]; congruence || contradiction.
Qed.
Lemma wb_names : forall (f : smethod -> list sbinding) ms, map sm_name (map (fun m => with_bindings m (f m)) ms) = map sm_name ms.
Proof. intros. rewrite map_map. reflexivity. Qed.
Lemma wb_home : forall (f : smethod -> list sbinding) ms hm, has_home (map (fun m => with_bindings m (f m)) ms) hm <-> has_home ms hm.
Proof.
  intros f ms hm. split.
  - intros (m & Hin & H1 & H2). apply in_map_iff in Hin. destruct Hin as (m0 & <- & Hin). exists m0. auto.
  - intros (m & Hin & H1 & H2). exists (with_bindings m (f m)). split; [apply in_map_iff; exists m; auto|]. auto.
Qed.
Lemma assemble_all : forall msgs hms ms, NoDup (map sm_name ms) -> Forall (has_home ms) hms ->
  assemble_methods msgs ms hms = COk (map (fun m => with_bindings m (new_bindings msgs hms m)) ms).
Proof.
  intros msgs. induction hms as [|hm hms IH]; intros ms Hnd Hall; cbn [assemble_methods].
  - f_equal. rewrite <- (map_id ms) at 1. apply map_ext. intro m. unfold new_bindings. cbn. symmetry. apply with_bindings_nil.
  - inversion Hall as [|x l H1 H2]; subst x l. destruct (assemble_one msgs ms hm Hnd) as (A1 & _). rewrite (A1 H1).
    rewrite IH; [|rewrite wb_names; exact Hnd|].
    + f_equal. rewrite map_map. apply map_ext. intro m. rewrite with_bindings_app. f_equal.
      unfold new_bindings. cbn [sm_name with_bindings]. unfold req_fields. cbn [sm_req with_bindings].
      rewrite <- map_app. f_equal. unfold bindings_for. cbn [flat_map]. rewrite app_nil_r. reflexivity.
    + eapply Forall_impl; [|exact H2]. intros h Hh. apply wb_home. exact Hh.
Qed.
Lemma assemble_only : forall msgs hms ms ms', NoDup (map sm_name ms) ->
  assemble_methods msgs ms hms = COk ms' -> Forall (has_home ms) hms.
Proof.
  intros msgs. induction hms as [|hm hms IH]; intros ms ms' Hnd H; cbn [assemble_methods] in H; [constructor|].
  destruct (assemble_one msgs ms hm Hnd) as (A1 & A2 & _).
  destruct (assemble_method msgs ms hm) as [ms1| |] eqn:E; try discriminate.
  specialize (A2 _ eq_refl). constructor; [exact A2|]. specialize (A1 A2). injection A1 as ->.
  apply IH in H; [|rewrite wb_names; exact Hnd]. eapply Forall_impl; [|exact H]. intros h Hh. exact (proj1 (wb_home _ ms h) Hh).
Qed.
Lemma assemble_panic : forall msgs hms ms, NoDup (map sm_name ms) -> assemble_methods msgs ms hms = CPanic ->
  exists hm m, In hm hms /\ In m ms /\ sm_name m = go_camel_case (hm_name hm) /\ ft_msg (sm_req m) = None.
Proof.
  intros msgs. induction hms as [|hm hms IH]; intros ms Hnd H; cbn [assemble_methods] in H; [discriminate|].
  destruct (assemble_one msgs ms hm Hnd) as (A1 & A2 & A3 & _).
  destruct (assemble_method msgs ms hm) as [ms1| |] eqn:E; try discriminate.
  - specialize (A1 (A2 _ eq_refl)). injection A1 as ->. apply IH in H; [|rewrite wb_names; exact Hnd].
    destruct H as (h & m & Hh & Hm & H1 & H2). apply in_map_iff in Hm. destruct Hm as (m0 & <- & Hm).
    exists h, m0. split; [right; exact Hh|]. auto.
  - destruct (A3 eq_refl) as (m & Hm). exists hm, m. split; [left; reflexivity|exact Hm].
Qed.
Lemma assemble_err : forall msgs hms ms e, NoDup (map sm_name ms) -> assemble_methods msgs ms hms = CErr e ->
  exists hm, In hm hms /\ e = ECNoMethod (hm_name hm) /\ ~ In (go_camel_case (hm_name hm)) (map sm_name ms).
Proof.
  intros msgs. induction hms as [|hm hms IH]; intros ms e Hnd H; cbn [assemble_methods] in H; [discriminate|].
  destruct (assemble_one msgs ms hm Hnd) as (A1 & A2 & _ & A4).
  destruct (assemble_method msgs ms hm) as [ms1|e1|] eqn:E; try discriminate.
  - specialize (A1 (A2 _ eq_refl)). injection A1 as ->. apply IH in H; [|rewrite wb_names; exact Hnd].
    rewrite wb_names in H. destruct H as (h & Hh & H1). exists h. split; [right; exact Hh|exact H1].
  - injection H as <-. exists hm. split; [left; reflexivity|]. apply A4. reflexivity.
Qed.

(** ** Files *)
Section F.
Variable U : unicode.
Hypothesis HU : unicode_ok U.
Lemma serviceless_parse : forall t, serviceless_text U t -> parse_text U globals0 t = Ret (PErr EUnexpectedEOF, globals0).
Proof.
  intros t (vs & -> & Hw & Hp). destruct (c08_main U vs [] HU Hw Hp) as (ub & tss & Eb & Ht & El & _).
  destruct ub; [|discriminate]. inversion Ht; subst. unfold parse_text. rewrite El. reflexivity.
Qed.
Lemma file_globals : forall t, file_text U t -> exists r, parse_text U globals0 t = Ret (r, globals0).
Proof.
  intros t (vs & blocks & -> & Hw & Hp). destruct (c08_main U vs blocks HU Hw Hp) as (ub & tss & _ & _ & El & _).
  unfold parse_text. rewrite El. eexists. reflexivity.
Qed.
Lemma consolidate_none : forall files sd, Forall (serviceless_text U) files -> consolidate U globals0 sd files = Ret (COk sd).
Proof.
  induction files as [|t files IH]; intros sd H; cbn [consolidate]; [reflexivity|].
  inversion H as [|x l H1 H2]; subst x l. rewrite (serviceless_parse t H1). cbn. apply IH. exact H2.
Qed.
Lemma consolidate_main : forall pre main post sd, Forall (serviceless_text U) pre -> Forall (serviceless_text U) post ->
  file_text U main -> consolidate U globals0 sd (pre ++ main :: post) = consolidate U globals0 sd [main].
Proof.
  intros pre main post sd Hpre Hpost Hm. induction pre as [|t pre IH]; cbn [app].
  - destruct (file_globals main Hm) as [r Er]. cbn [consolidate]. rewrite Er. destruct r as [hs l|e| |]; try reflexivity.
    + destruct (assemble_http_params sd hs); try reflexivity. apply consolidate_none. exact Hpost.
    + destruct (is_optional_error e); [reflexivity|]. destruct (is_eof e); [|reflexivity]. apply consolidate_none. exact Hpost.
  - inversion Hpre as [|x l H1 H2]; subst x l. cbn [consolidate]. rewrite (serviceless_parse t H1). cbn. apply IH. exact H2.
Qed.
Lemma consolidate_perm : forall files main others sd, Permutation files (main :: others) ->
  Forall (serviceless_text U) others -> file_text U main ->
  consolidate U globals0 sd files = consolidate U globals0 sd [main].
Proof.
  intros files main others sd Hp Ho Hm.
  assert (Hin : In main files) by (eapply Permutation_in; [symmetry; exact Hp|left; reflexivity]).
  apply in_split in Hin. destruct Hin as (pre & post & ->).
  symmetry in Hp. apply Permutation_cons_app_inv in Hp.
  assert (Hall : Forall (serviceless_text U) (pre ++ post)).
  { apply Forall_forall. intros x Hx. rewrite Forall_forall in Ho. apply Ho. eapply Permutation_in; [symmetry; exact Hp|exact Hx]. }
  apply Forall_app in Hall. destruct Hall. apply consolidate_main; assumption.
Qed.
End F.

(** ** Placement *)
Lemma location_located : forall b name, located b name (param_location name b).
Proof.
  intros b name. unfold param_location.
  destruct (existsb _ (get_path_params b)) eqn:E1; [left; split; [reflexivity|apply in_path_iff; exact E1]|].
  assert (H1 : ~ in_path b name) by (rewrite <- in_path_iff, E1; discriminate). right.
  destruct (body_takes name (hb_fields b)) eqn:E2; [left; split; [reflexivity|split; [exact H1|apply in_body_iff; exact E2]]|].
  assert (H2 : ~ in_body b name) by (rewrite <- in_body_iff, E2; discriminate). right. auto.
Qed.
Lemma located_fun : forall b name l l', located b name l -> located b name l' -> l = l'.
Proof. intros b name l l' H H'. unfold located in *. intuition congruence. Qed.
Lemma create_consolidated : forall fields b, consolidated fields b (create_params fields b).
Proof.
  intros fields b. unfold create_params, consolidated. destruct (get_verb b) as [v p] eqn:E. cbn [sb_verb sb_path sb_params].
  split; [apply get_verb_iff; exact E|]. split; [rewrite map_map; cbn; apply map_id|].
  apply Forall_forall. intros q Hq. apply in_map_iff in Hq. destruct Hq as (f & <- & _). cbn. apply location_located.
Qed.
Lemma consolidated_fun : forall fields b s s', consolidated fields b s -> consolidated fields b s' -> s = s'.
Proof.
  intros fields b [v p ps] [v' p' ps'] (H1 & H2 & H3) (K1 & K2 & K3). cbn in *.
  destruct (verb_and_path_fun b _ _ _ _ H1 K1) as [<- <-]. f_equal.
  subst fields. revert ps' K2 K3. induction ps as [|[f l] ps IH]; intros [|[f' l'] ps'] K2 K3; cbn in K2; try discriminate; [reflexivity|].
  injection K2 as -> K2. inversion H3 as [|x y H4 H5]; subst x y. inversion K3 as [|x y K4 K5]; subst x y. cbn in *.
  rewrite (located_fun _ _ _ _ H4 K4). f_equal. apply IH; assumption.
Qed.
Lemma consolidated_one_place : forall fields b sb, consolidated fields b sb -> one_place fields sb.
Proof.
  intros fields b sb (H1 & H2 & H3). split; [exact H2|]. eapply Forall_impl; [|exact H3].
  intros p [(-> & _)|[(-> & _)|(-> & _)]]; cbn; auto.
Qed.
Definition methods_placed (msgs : list message) (ms : list smethod) : Prop :=
  Forall (fun m => Forall (one_place (req_fields msgs m)) (sm_bindings m)) ms.
Lemma assemble_method_placed : forall msgs hm ms ms', methods_placed msgs ms -> assemble_method msgs ms hm = COk ms' ->
  methods_placed msgs ms'.
Proof.
  intros msgs hm. induction ms as [|m ms IH]; intros ms' Hp H; cbn [assemble_method] in H; [discriminate|].
  inversion Hp as [|x l H1 H2]; subst x l. destruct (str_eqb (sm_name m) (go_camel_case (hm_name hm))).
  - destruct (hm_bindings hm) as [|b bs]; [injection H as <-; exact Hp|].
    destruct (ft_msg (sm_req m)) as [r|] eqn:Er; [|discriminate]. injection H as <-. constructor; [|exact H2].
    cbn [sm_bindings]. unfold req_fields in *. cbn [sm_req]. rewrite Er in *. apply Forall_app. split; [exact H1|].
    apply Forall_forall. intros sb Hsb. change (In sb (map (create_params (fields_of msgs r)) (b :: bs))) in Hsb.
    apply in_map_iff in Hsb. destruct Hsb as (b0 & <- & _). eapply consolidated_one_place. apply create_consolidated.
  - destruct (assemble_method msgs ms hm) as [ms1| |] eqn:E; try discriminate. injection H as <-.
    constructor; [exact H1|]. apply IH; auto.
Qed.
Lemma assemble_methods_placed : forall msgs hms ms ms', methods_placed msgs ms -> assemble_methods msgs ms hms = COk ms' ->
  methods_placed msgs ms'.
Proof.
  intros msgs. induction hms as [|hm hms IH]; intros ms ms' Hp H; cbn [assemble_methods] in H; [injection H as <-; exact Hp|].
  destruct (assemble_method msgs ms hm) as [ms1| |] eqn:E; try discriminate. eapply IH; [|exact H].
  eapply assemble_method_placed; eassumption.
Qed.
Lemma all_placed_iff : forall sd, all_placed sd <->
  match sd_service sd with None => True | Some sv => methods_placed (sd_messages sd) (sv_methods sv) end.
Proof.
  intro sd. unfold all_placed, methods_placed. split.
  - intro H. destruct (sd_service sd) as [sv|]; [|exact I]. apply Forall_forall. intros m Hm. apply Forall_forall. intros sb Hsb.
    exact (H sv m sb eq_refl Hm Hsb).
  - intros H sv m sb E Hm Hsb. rewrite E in H. rewrite Forall_forall in H. specialize (H m Hm). rewrite Forall_forall in H. auto.
Qed.
Lemma assemble_params_placed : forall sd hs sd', all_placed sd -> assemble_http_params sd hs = COk sd' -> all_placed sd'.
Proof.
  intros sd hs sd' Hp H. apply all_placed_iff. apply all_placed_iff in Hp. unfold assemble_http_params in H.
  destruct (sd_service sd) as [sv|] eqn:Es.
  - destruct (assemble_methods (sd_messages sd) (sv_methods sv) (hs_methods hs)) as [ms| |] eqn:E; try discriminate.
    injection H as <-. cbn. eapply assemble_methods_placed; eassumption.
  - destruct (hs_methods hs); [|discriminate]. injection H as <-. rewrite Es. exact I.
Qed.
Lemma consolidate_placed : forall U files g sd sd', all_placed sd -> consolidate U g sd files = Ret (COk sd') -> all_placed sd'.
Proof.
  intros U. induction files as [|t files IH]; intros g sd sd' Hp H; cbn [consolidate] in H.
  - injection H as <-. exact Hp.
  - destruct (parse_text U g t) as [[r g']| |]; try discriminate. destruct r as [hs l|e| |]; try discriminate.
    + destruct (assemble_http_params sd hs) as [sd1| |] eqn:E; try discriminate. eapply IH; [|exact H].
      eapply assemble_params_placed; eassumption.
    + destruct (is_optional_error e); [injection H as <-; exact Hp|]. destruct (is_eof e); [eapply IH; eassumption|discriminate].
Qed.
Lemma assemble_forall2 : forall msgs hms ms,
  Forall2 (fun m m' => same_but_bindings m m' /\ exists new, sm_bindings m' = sm_bindings m ++ new
             /\ Forall2 (consolidated (req_fields msgs m)) (bindings_for hms (sm_name m)) new)
          ms (map (fun m => with_bindings m (new_bindings msgs hms m)) ms).
Proof.
  intros msgs hms. induction ms as [|m ms IH]; cbn [map]; constructor; [|exact IH].
  split; [split; [reflexivity|split; reflexivity]|]. exists (new_bindings msgs hms m). split; [reflexivity|].
  unfold new_bindings. generalize (bindings_for hms (sm_name m)). intro bs. induction bs as [|b bs IHb]; cbn [map]; constructor; [|exact IHb].
  apply create_consolidated.
Qed.
