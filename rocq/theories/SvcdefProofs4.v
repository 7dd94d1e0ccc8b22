(** Proofs about the contents of a definition: all files, and after the resolution of types. *)
From Coq Require Import Permutation.
From Verif Require Import GoStr GoStrProofs GoMap Unquote SplitJoin SvcTypes HttpTypes Svcdef SvcdefSpec SvcdefProofs SvcdefProofs2 SvcdefProofs3.

Section S.
  Variable upper : N -> bool.
  Notation tagged fs := (flat_map (fun f => map (pair f) (non_options upper f)) fs).

  Lemma options_has : forall f i, options_of upper f i <> [] -> has_options upper f = true.
  Proof.
    intros f i H. unfold options_of in H. destruct (filter _ (struct_specs upper f)) as [|s l] eqn:E; [contradiction|]. assert (K : In s (s :: l)) by (left; reflexivity). rewrite <- E in K. apply filter_In in K. destruct K as [K1 K2].
    apply andb_prop in K2. destruct K2 as [K2 K3]. apply existsb_exists in K3. destruct K3 as (d & K3 & K4). unfold has_options. apply existsb_exists. exists s. split; [exact K1|]. apply is_option_iff. exists i. split; [exact K2|]. exists d. split; assumption.
  Qed.
  Lemma no_options_all : forall f, has_options upper f = false -> non_options upper f = struct_specs upper f.
  Proof.
    intros f H. unfold non_options, has_options in *. rewrite <- (filter_true _ (fun _ => true) (struct_specs upper f)) at 2 by reflexivity. apply filter_ext_in'. intros s Hs.
    destruct (is_option f (fst s)) eqn:E; [|reflexivity]. assert (existsb (fun s => is_option f (fst s)) (struct_specs upper f) = true) by (apply existsb_exists; exists s; split; assumption). congruence.
  Qed.
  Lemma new_message_oneofs : forall ofs all h s m,
    (forall i, options_of upper h i <> [] -> exists os, mget ofs i = Some os /\ Forall2 (option_field upper) (options_of upper h i) os) ->
    (forall i, (forall k, In k all -> options_of upper k i = []) -> mget ofs i = None) ->
    new_message upper ofs (fst s) (snd s) = SOk m -> oneofs_of upper all h s m.
  Proof.
    intros ofs all h s m H1 H2 H. unfold new_message in H. sb H. injection H as <-. unfold oneofs_of. cbn [ms_fields]. apply new_fields_spec in E.
    eapply Forall2_impl'; [|exact E]. intros g f Hf i Ei. rewrite (new_field_oneof _ _ _ _ Hf Ei). split; [apply H1|apply H2].
  Qed.
  Lemma Forall2_map_l : forall A B C (R : B -> C -> Prop) (h : A -> B) l m, Forall2 R (map h l) m <-> Forall2 (fun x y => R (h x) y) l m.
  Proof. intros A B C R h l. induction l as [|x l IH]; intro m; split; intro H; inversion H; subst; constructor; auto; apply IH; assumption. Qed.

  Lemma new_files_spec : forall fs all ofs sd sd' ofs', new_files upper ofs sd (map Some fs) = SOk (sd', ofs') ->
    (ofs = [] -> one_with_options upper fs) -> (ofs <> [] -> forall f, In f fs -> has_options upper f = false) -> incl fs all ->
    (forall i, (forall k, In k all -> options_of upper k i = []) -> mget ofs i = None) ->
    exists ms, sd_messages sd' = sd_messages sd ++ ms /\
      Forall2 (fun x m => message_of upper (snd x) m /\ (one_oneof_each (fst x) -> oneofs_of upper all (fst x) (snd x) m)) (tagged fs) ms.
  Proof.
    induction fs as [|f fs IH]; intros all ofs sd sd' ofs' H H1 H2 Hin Hno; cbn [map new_files] in H.
    - injection H as <- <-. exists []. split; [symmetry; apply app_nil_r|constructor].
    - sb H. destruct a as [sd1 ofs1]. destruct (new_file_spec _ _ _ _ _ _ E) as (ms & _ & M1 & _ & _ & _ & M2 & M3 & M4).
      assert (Hf : In f all) by (apply Hin; left; reflexivity).
      assert (Hone : forall i, (forall k, In k all -> options_of upper k i = []) -> mget ofs1 i = None).
      { intros i K. destruct ofs as [|p ofs]; [destruct (M3 i) as [M5 _]; apply M5; apply K; exact Hf|subst ofs1; apply Hno; exact K]. }
      assert (EL : match ofs with [] => non_options upper f | _ => struct_specs upper f end = non_options upper f).
      { destruct ofs as [|p ofs]; [reflexivity|]. symmetry. apply no_options_all. apply H2; [discriminate|left; reflexivity]. }
      rewrite EL in M2.
      edestruct (IH all ofs1 sd1 sd' ofs' H) as (ms' & M6 & M7).
      + intros ->. destruct ofs as [|p ofs]; [|discriminate M3]. specialize (H1 eq_refl). unfold one_with_options in *. cbn [filter] in H1. destruct (has_options upper f); [cbn [length] in H1; lia|exact H1].
      + intros Hne k Hk. destruct ofs as [|p ofs]; [|apply H2; [discriminate|right; exact Hk]]. destruct (has_options upper k) eqn:Ek; [|reflexivity]. exfalso. apply Hne. destruct (M3 []) as (_ & _ & M5). apply M5.
        destruct (has_options upper f) eqn:Ef; [|reflexivity]. specialize (H1 eq_refl). unfold one_with_options in H1. cbn [filter] in H1. rewrite Ef in H1. assert (K : In k (filter (has_options upper) fs)) by (apply filter_In; split; assumption). destruct (filter (has_options upper) fs); [destruct K|cbn [length] in H1; lia].
      + intros k Hk. apply Hin. right. exact Hk.
      + exact Hone.
      + exists (ms ++ ms'). split; [rewrite M6, M1, app_assoc; reflexivity|]. cbn [flat_map]. apply Forall2_app'; [|exact M7]. apply Forall2_map_l. cbn [fst snd]. eapply Forall2_impl'; [|exact M2]. cbn beta. intros s m Hm. split.
        * destruct s as [n l]. exact (new_message_of _ _ _ _ _ Hm).
        * intro Hoe. eapply new_message_oneofs; [|exact Hone|exact Hm]. intros i Hi. destruct ofs as [|p ofs].
          -- destruct (M3 i) as (_ & M5 & _). apply M5; assumption.
          -- pose proof (options_has f i Hi) as K. rewrite (H2 ltac:(discriminate) f (or_introl eq_refl)) in K. discriminate.
  Qed.
  Lemma last_of_app : forall A (l l' : list A) d, last_of (l ++ l') d = last_of l' (last_of l d).
  Proof. intros. apply fold_left_app. Qed.
  (** What does not depend on the oneofs. *)
  Lemma new_files_rest : forall fs ofs sd sd' ofs', new_files upper ofs sd (map Some fs) = SOk (sd', ofs') ->
    sd_enums sd' = sd_enums sd ++ flat_map enum_names fs /\
    (forall s, service_is upper s (sd_service sd) -> service_is upper (last_of (flat_map server_specs fs) s) (sd_service sd')) /\
    (Forall fresh_message (sd_messages sd) -> Forall fresh_message (sd_messages sd')) /\ (fresh_opt (sd_service sd) -> fresh_opt (sd_service sd')) /\
    Some (sd_pkg sd') = last_of (map go_pkg fs) (Some (sd_pkg sd)).
  Proof.
    induction fs as [|f fs IH]; intros ofs sd sd' ofs' H; cbn [map new_files] in H.
    - injection H as <- <-. cbn. rewrite app_nil_r. repeat split; auto.
    - sb H. destruct a as [sd1 ofs1]. destruct (new_file_spec _ _ _ _ _ _ E) as (ms & M0 & M1 & M2 & M3 & M4 & M5 & _). destruct (IH _ _ _ _ H) as (I1 & I2 & I3 & I4 & I5).
      split; [rewrite I1, M2, <- app_assoc; reflexivity|]. split; [|split; [|split]].
      + intros s Hs. cbn [flat_map]. rewrite last_of_app. apply I2. apply M3. exact Hs.
      + intro Hm. apply I3. rewrite M1. apply Forall_app. split; [exact Hm|]. clear - M5. revert M5. generalize (match ofs with [] => non_options upper f | _ => struct_specs upper f end). intros l M5. induction M5 as [|s m l ms Hm _ IH]; constructor; [exact (new_message_fresh _ _ _ _ _ Hm)|exact IH].
      + auto.
      + rewrite I5, M0. reflexivity.
  Qed.
  (** A later call. *)
  Lemma new_file_again : forall f ofs sd sd' ofs' ofs2 sd2, new_file upper ofs sd f = SOk (sd', ofs') -> ofs2 <> [] -> exists sd2', new_file upper ofs2 sd2 f = SOk (sd2', ofs2).
  Proof.
    intros f ofs sd sd' ofs' ofs2 sd2 H Hne. unfold new_file in *. sb H. destruct a as [svc ones]. sb H. destruct a as [otypes ofs1]. sb H. destruct a as [ms es]. injection H as <- <-.
    assert (EI : exists svc2, iface_loop upper (type_specs f) (sd_service sd2) [] = SOk (svc2, ones)).
    { clear - E. revert E. generalize (sd_service sd) (sd_service sd2) (@nil str). induction (type_specs f) as [|t ts IH]; intros s1 s2 l E; cbn [iface_loop] in *; [injection E as <- <-; eexists; reflexivity|].
      destruct (ts_type t) as [xs|fs|n|]; try exact (IH _ _ _ E). destruct (has_prefix (ts_name t) (T "Unsafe")); [exact (IH _ _ _ E)|]. destruct (negb (has_suffix (ts_name t) (T "Server"))).
      - destruct (has_prefix (ts_name t) (T "is")); exact (IH _ _ _ E).
      - sb E. rewrite E0. exact (IH _ _ _ E). }
    destruct EI as [svc2 EI]. rewrite EI. cbn [sbind]. destruct ofs2 as [|p2 ofs2]; [contradiction|]. cbn [sbind].
    assert (ET : exists ms', type_loop upper (type_specs f) [] (p2 :: ofs2) = SOk (ms', es)).
    { destruct ofs as [|p ofs].
      - sb E0. sb E0. injection E0 as -> ->.
        assert (G : forall ts, incl ts (type_specs f) -> forall ms es, type_loop upper ts otypes ofs1 = SOk (ms, es) -> exists ms', type_loop upper ts [] (p2 :: ofs2) = SOk (ms', es)).
        { induction ts as [|t ts IH]; intros Hin ms0 es0 K; cbn [type_loop] in *; [injection K as <- <-; eexists; reflexivity|]. assert (Hin' : incl ts (type_specs f)) by (intros x Hx; apply Hin; right; exact Hx). specialize (IH Hin').
          destruct (ts_type t) as [xs|fs|n|] eqn:Et; try exact (IH _ _ K).
          - destruct (go_exported upper (ts_name t)) eqn:Ex; cbn [negb] in *; [|exact (IH _ _ K)]. cbn [mget]. destruct (mget otypes (ts_name t)) as [o|] eqn:Eo.
            + destruct (option_loop_ok _ _ _ _ _ E3 t fs o (Hin t (or_introl eq_refl)) Et Ex Eo) as (ofs0 & m & Em). destruct (new_message_any upper ofs0 (p2 :: ofs2) _ _ _ Em) as [m' ->]. destruct (IH _ _ K) as [ms' ->]. eexists. reflexivity.
            + sb K. sb K. destruct a0 as [ms1 es1]. injection K as <- <-. destruct (new_message_any upper ofs1 (p2 :: ofs2) _ _ _ E0) as [m' ->]. destruct (IH _ _ E4) as [ms' ->]. eexists. reflexivity.
          - destruct (str_eqb n (T "int32")); [|exact (IH _ _ K)]. sb K. destruct a as [ms1 es1]. injection K as <- <-. destruct (IH _ _ E0) as [ms' ->]. eexists. reflexivity. }
        exact (G _ (incl_refl _) _ _ E1).
      - injection E0 as <- <-. apply (type_loop_any upper _ [] (p :: ofs) (p2 :: ofs2) ms es E1). intros t fs o _ _ K. discriminate K. }
    destruct ET as [ms' ET]. rewrite ET. cbn [sbind]. eexists. reflexivity.
  Qed.
  Lemma new_files_again : forall fs ofs sd sd' ofs' ofs2 sd2, new_files upper ofs sd (map Some fs) = SOk (sd', ofs') -> ofs2 <> [] ->
    exists sd2' ms, new_files upper ofs2 sd2 (map Some fs) = SOk (sd2', ofs2) /\ sd_messages sd2' = sd_messages sd2 ++ ms /\ Forall2 (message_of upper) (flat_map (struct_specs upper) fs) ms.
  Proof.
    induction fs as [|f fs IH]; intros ofs sd sd' ofs' ofs2 sd2 H Hne; cbn [map new_files] in *.
    - exists sd2, []. split; [reflexivity|]. split; [symmetry; apply app_nil_r|constructor].
    - sb H. destruct a as [sd1 ofs1]. destruct (new_file_again f _ _ _ _ ofs2 sd2 E Hne) as [sd3 E3]. rewrite E3. cbn [sbind]. destruct (IH _ _ _ _ ofs2 sd3 H Hne) as (sd4 & ms & I1 & I2 & I3).
      destruct (new_file_spec _ _ _ _ _ _ E3) as (ms1 & _ & M1 & _ & _ & _ & M2 & _). exists sd4, (ms1 ++ ms). split; [exact I1|]. split; [rewrite I2, M1, <- app_assoc; reflexivity|].
      cbn [flat_map]. apply Forall2_app'; [|exact I3]. destruct ofs2 as [|p2 ofs2]; [contradiction|]. eapply Forall2_impl'; [|exact M2]. intros [n l] m Hm. exact (new_message_of _ _ _ _ _ Hm).
  Qed.

  (** ** After the resolution *)
  Lemma box_type_same : forall tm t, ft_name (box_type tm t) = ft_name t /\ ft_star (box_type tm t) = ft_star t /\ ft_array (box_type tm t) = ft_array t /\ ft_map (box_type tm t) = ft_map t /\ ft_oneof (box_type tm t) = ft_oneof t.
  Proof. intros tm t. unfold box_type. destruct (mget tm (ft_name t)) as [[]|]; repeat split. Qed.
  Lemma box_type_gty : forall tm t, field_gty (box_type tm t) = field_gty t.
  Proof. intros tm t. destruct (box_type_same tm t) as (H1 & H2 & H3 & _). unfold field_gty. rewrite H1, H2, H3. reflexivity. Qed.
  Lemma set_type_gty : forall tm t, field_gty (set_type tm t) = field_gty t.
  Proof. intros tm t. unfold set_type. destruct (ft_map t) as [[k v]|]; [destruct (ft_star v)|]; try apply box_type_gty. reflexivity. Qed.
  Lemma set_type_oneof : forall tm t, ft_oneof (set_type tm t) = ft_oneof t.
  Proof. intros tm t. unfold set_type. destruct (ft_map t) as [[k v]|]; [destruct (ft_star v)|]; try apply (box_type_same tm t). reflexivity. Qed.
  Lemma set_type_map : forall tm t, ft_map (set_type tm t) = match ft_map t with Some (k, v) => Some (k, if ft_star v then box_type tm v else v) | None => None end.
  Proof. intros tm t. unfold set_type. destruct (ft_map t) as [[k v]|] eqn:E; [destruct (ft_star v)|]; try (destruct (box_type_same tm t) as (_ & _ & _ & -> & _); exact E). reflexivity. Qed.
  Lemma set_field_of : forall tm g f, field_of g f -> field_of g (set_field tm f).
  Proof.
    intros tm g f (H1 & H2 & H3 & H4 & H5 & H6). split; [exact H1|]. split; [exact H2|]. split; [exact H3|]. split; [|split]; cbn [set_field fd_type].
    - intro Hp. destruct (H4 Hp) as [K1 K2]. rewrite set_type_gty, set_type_map, K2. split; [exact K1|reflexivity].
    - intros k v E. destruct (H5 k v E) as (kt & vt & K1 & K2 & K3). rewrite set_type_map, K1. eexists _, _. split; [reflexivity|]. split; [exact K2|]. destruct (ft_star vt); [rewrite box_type_gty|]; exact K3.
    - intros k v E. destruct (H6 k v E) as (kt & vt & K1 & K2 & K3). rewrite set_type_map, K1. eexists _, _. split; [reflexivity|]. split; [exact K2|]. destruct (ft_star vt); [rewrite box_type_gty|]; exact K3.
  Qed.
  Lemma Forall2_map_r' : forall A B C (R : A -> C -> Prop) (h : B -> C) l m, Forall2 (fun x y => R x (h y)) l m -> Forall2 R l (map h m).
  Proof. intros A B C R h l m H. induction H; constructor; auto. Qed.
  Lemma set_message_of : forall tm s m, message_of upper s m -> message_of upper s (set_message tm m).
  Proof. intros tm s m [H1 H2]. split; [exact H1|]. cbn [set_message ms_fields]. apply Forall2_map_r'. eapply Forall2_impl'; [|exact H2]. intros g f. apply set_field_of. Qed.
  Lemma set_message_oneofs : forall tm all h s m, oneofs_of upper all h s m -> oneofs_of upper all h s (set_message tm m).
  Proof.
    intros tm all h s m H. unfold oneofs_of in *. cbn [set_message ms_fields]. apply Forall2_map_r'. eapply Forall2_impl'; [|exact H]. intros g f K i Ei. cbn [set_field fd_type]. rewrite set_type_oneof. exact (K i Ei).
  Qed.
  Lemma set_points : forall tm e t, points_to e t -> points_to e (set_type tm t).
  Proof.
    intros tm e t (n & H1 & H2 & H3 & H4 & H5 & H6). exists n. split; [exact H1|]. unfold set_type. rewrite H5. destruct (box_type_same tm t) as (-> & -> & -> & -> & ->). repeat split; assumption.
  Qed.
  Lemma set_service_is : forall tm s v, service_is upper s v -> service_is upper s (match v with Some v => Some (mkSvc (sv_name v) (map (set_method tm) (sv_methods v))) | None => None end).
  Proof.
    intros tm [s|] [v|] H; try exact H. destruct H as [H1 H2]. split; [exact H1|]. cbn [sv_methods]. apply Forall2_map_r'. eapply Forall2_impl'; [|exact H2]. intros m x (n & rest & c & rq & ps & rs & qs & K1 & K2 & K3 & K4 & K5 & K6).
    exists n, rest, c, rq, ps, rs, qs. repeat (split; [first [assumption|apply set_points; assumption]|]). exact K6.
  Qed.
  Lemma linked_box : forall sd t, unlinked t -> linked (map ms_name (sd_messages sd)) (sd_enums sd) (box_type (new_type_map sd) t).
  Proof.
    intros sd t [H1 H2]. pose proof (box_type_spec sd t) as H. set (msgs := map ms_name (sd_messages sd)) in *. set (enums := sd_enums sd) in *. clearbody msgs enums.
    assert (U : forall l n i j, last_index n l i -> last_index n l j -> i = j).
    { intros l n i j [A1 A2] [B1 B2]. destruct (Nat.lt_trichotomy i j) as [K|[K|K]]; [exfalso; exact (A2 j K B1)|exact K|exfalso; exact (B2 i K A1)]. }
    assert (NI : forall l n i, last_index n l i -> In n l) by (intros l n i [A1 _]; exact (nth_error_In _ _ A1)).
    destruct H as [i Hi|i Hn Hi|Hn Hm]; split; cbn [ft_enum ft_msg ft_name]; rewrite ?H1, ?H2.
    - intro j. split; [intros [= <-]; exact Hi|]. intro K. f_equal. exact (U _ _ _ _ Hi K).
    - intro r. split; [discriminate|]. intros (j & _ & K & _). exfalso. apply K. exact (NI _ _ _ Hi).
    - intro j. split; [discriminate|]. intro K. exfalso. apply Hn. exact (NI _ _ _ K).
    - intro r. split; [intros [= <-]; exists i; repeat split; [exact Hn|apply Hi|apply Hi]|]. intros (j & -> & _ & K). f_equal. f_equal. exact (U _ _ _ _ Hi K).
    - intro j. split; [discriminate|]. intro K. exfalso. apply Hn. exact (NI _ _ _ K).
    - intro r. split; [discriminate|]. intros (j & _ & _ & K). exfalso. apply Hm. exact (NI _ _ _ K).
  Qed.
  Lemma links_set : forall sd t, unlinked t -> (forall kt vt, ft_map t = Some (kt, vt) -> unlinked vt) -> links (map ms_name (sd_messages sd)) (sd_enums sd) (set_type (new_type_map sd) t).
  Proof.
    intros sd t H1 H2. unfold links. rewrite set_type_map. destruct (ft_map t) as [[k v]|] eqn:Em.
    - specialize (H2 k v eq_refl). destruct (ft_star v) eqn:Es.
      + destruct (box_type_same (new_type_map sd) v) as (_ & -> & _). rewrite Es. split; [apply linked_box; exact H2|]. unfold set_type. rewrite Em, Es. exact H1.
      + rewrite Es. exact H2.
    - unfold set_type. rewrite Em. apply linked_box. exact H1.
  Qed.
  Lemma resolve_names : forall sd, map ms_name (sd_messages (resolve_types sd)) = map ms_name (sd_messages sd).
  Proof. intro sd. cbn [resolve_types sd_messages]. rewrite map_map. reflexivity. Qed.
End S.
