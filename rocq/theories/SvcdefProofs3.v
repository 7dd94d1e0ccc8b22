(** Proofs about the contents of a definition: oneofs, files, resolution. *)
From Coq Require Import Permutation.
From Verif Require Import GoStr GoStrProofs GoMap Unquote SplitJoin SvcTypes HttpTypes Svcdef SvcdefSpec SvcdefProofs SvcdefProofs2.

Lemma filter_ext_in' : forall A (p q : A -> bool) l, (forall x, In x l -> p x = q x) -> filter p l = filter q l.
Proof. induction l as [|x l IH]; intro H; [reflexivity|]. cbn [filter]. rewrite (H x (or_introl eq_refl)), IH by (intros y Hy; apply H; right; exact Hy). reflexivity. Qed.
Lemma filter_true : forall A (p : A -> bool) l, (forall x, p x = true) -> filter p l = l.
Proof. induction l as [|x l IH]; intro H; [reflexivity|]. cbn [filter]. rewrite (H x), (IH H). reflexivity. Qed.
Lemma filter_none : forall A (p : A -> bool) l, filter p l = [] <-> forall x, In x l -> p x = false.
Proof.
  induction l as [|x l IH]; [split; [intros _ x []|reflexivity]|]. cbn [filter]. destruct (p x) eqn:E.
  - split; [discriminate|]. intro H. specialize (H x (or_introl eq_refl)). congruence.
  - rewrite IH. split; [intros H y [<-|Hy]; auto|intros H y Hy; apply H; right; exact Hy].
Qed.
Lemma Forall2_app' : forall A B (R : A -> B -> Prop) l1 l2 m1 m2, Forall2 R l1 m1 -> Forall2 R l2 m2 -> Forall2 R (l1 ++ l2) (m1 ++ m2).
Proof. intros. apply Forall2_app; assumption. Qed.
Lemma Forall2_impl' : forall A B (R Q : A -> B -> Prop) l m, (forall x y, R x y -> Q x y) -> Forall2 R l m -> Forall2 Q l m.
Proof. intros A B R Q l m H. induction 1; constructor; auto. Qed.

Section S.
  Variable upper : N -> bool.
  Definition otype_is (otypes : gomap str) (i : str) (s : str * list gfield) : bool := match mget otypes (fst s) with Some j => str_eqb j i | None => false end.
  Definition getl (ofs : gomap (list field)) (i : str) : list field := match mget ofs i with Some l => l | None => [] end.
  Lemma with_msg_of : forall g f n, field_of g f -> field_of g (with_msg f n).
  Proof. intros g [fn fp ft] n H. exact H. Qed.
  Lemma option_loop_spec : forall ts otypes ofs ofs', option_loop upper ts otypes ofs = SOk ofs' -> forall i,
    (filter (otype_is otypes i) (structs upper ts) = [] -> mget ofs' i = mget ofs i) /\
    exists l, getl ofs' i = getl ofs i ++ l /\ Forall2 (option_field upper) (filter (otype_is otypes i) (structs upper ts)) l.
  Proof.
    induction ts as [|t ts IH]; intros otypes ofs ofs' H i; cbn [option_loop] in H.
    - injection H as <-. split; [reflexivity|]. exists []. split; [symmetry; apply app_nil_r|constructor].
    - cbn [structs flat_map]. fold (structs upper ts). destruct (ts_type t) as [ms|fs|n|] eqn:Et; cbn [app]; try exact (IH _ _ _ H i).
      destruct (go_exported upper (ts_name t)) eqn:Ex; cbn [negb app] in *; [|exact (IH _ _ _ H i)].
      destruct (mget otypes (ts_name t)) as [j|] eqn:Ej.
      + sb H. destruct (ms_fields a) as [|f0 rest] eqn:Ef; [discriminate|]. destruct (IH _ _ _ H i) as [I1 (l & I2 & I3)].
        cbn [filter]. assert (Eo : otype_is otypes i (ts_name t, fs) = str_eqb j i) by (unfold otype_is; cbn [fst]; rewrite Ej; reflexivity). rewrite Eo.
        fold (getl ofs j) in I1, I2. unfold getl at 2 in I2. rewrite mget_mset in I1, I2. destruct (str_eqb_spec j i) as [->|Nj].
        * rewrite str_eqb_refl in I1, I2. split; [discriminate|]. eexists. split; [rewrite I2, <- app_assoc; reflexivity|]. constructor; [|exact I3].
          destruct (new_message_of _ _ _ _ _ E) as [M1 M2]. cbn [snd] in M2. rewrite Ef in M2. inversion M2 as [|g x gs xs Hg Hgs Eg Ex']; subst.
          exists g, gs. cbn [snd fst]. split; [symmetry; assumption|]. split; [apply with_msg_of; exact Hg|]. cbn [fst] in M1. cbn. rewrite M1. reflexivity.
        * apply not_eq_sym in Nj. apply str_eqb_neq in Nj. rewrite Nj in I1, I2. split; [exact I1|]. exists l. split; [exact I2|exact I3].
      + cbn [filter]. assert (Eo : otype_is otypes i (ts_name t, fs) = false) by (unfold otype_is; cbn [fst]; rewrite Ej; reflexivity). rewrite Eo. exact (IH _ _ _ H i).
  Qed.
  Lemma option_loop_empty : forall ts otypes ofs, (forall s, In s (structs upper ts) -> mget otypes (fst s) = None) -> option_loop upper ts otypes ofs = SOk ofs.
  Proof.
    induction ts as [|t ts IH]; intros otypes ofs H; [reflexivity|]. cbn [option_loop structs flat_map] in *. fold (structs upper ts) in H. destruct (ts_type t) as [ms|fs|n|]; try (apply IH; intros s Hs; apply H; exact Hs).
    destruct (go_exported upper (ts_name t)); cbn [negb app] in *; [|apply IH; exact H]. rewrite (H (ts_name t, fs) (or_introl eq_refl) : mget otypes (ts_name t) = None). apply IH. intros s Hs. apply H. right. exact Hs.
  Qed.
  Lemma type_loop_spec : forall ts otypes ofs ms es, type_loop upper ts otypes ofs = SOk (ms, es) ->
    Forall2 (fun s m => new_message upper ofs (fst s) (snd s) = SOk m) (filter (fun s => match mget otypes (fst s) with None => true | Some _ => false end) (structs upper ts)) ms /\ es = enums_in ts.
  Proof.
    induction ts as [|t ts IH]; intros otypes ofs ms es H; cbn [type_loop] in H.
    - injection H as <- <-. split; [constructor|reflexivity].
    - cbn [structs enums_in flat_map]. fold (structs upper ts) (enums_in ts). destruct (ts_type t) as [xs|fs|n|] eqn:Et; cbn [app]; try exact (IH _ _ _ _ H).
      + destruct (go_exported upper (ts_name t)) eqn:Ex; cbn [negb app] in *; [|exact (IH _ _ _ _ H)]. cbn [filter fst].
        destruct (mget otypes (ts_name t)) as [j|] eqn:Ej; [exact (IH _ _ _ _ H)|]. sb H. sb H. destruct a0 as [ms0 es0]. injection H as <- <-.
        destruct (IH _ _ _ _ E0) as [I1 I2]. split; [constructor; [exact E|exact I1]|exact I2].
      + destruct (str_eqb n (T "int32")); [|exact (IH _ _ _ _ H)]. sb H. destruct a as [ms0 es0]. injection H as <- <-. destruct (IH _ _ _ _ E) as [I1 I2]. split; [exact I1|cbn [app]; f_equal; exact I2].
  Qed.
  Lemma type_loop_any : forall ts otypes ofs ofs' ms es, type_loop upper ts otypes ofs = SOk (ms, es) ->
    (forall t fs o, In t ts -> ts_type t = TStruct fs -> mget otypes (ts_name t) = Some o -> exists m, new_message upper ofs (ts_name t) fs = SOk m) ->
    exists ms', type_loop upper ts [] ofs' = SOk (ms', es).
  Proof.
    induction ts as [|t ts IH]; intros otypes ofs ofs' ms es H HO; cbn [type_loop] in *.
    - injection H as <- <-. eexists. reflexivity.
    - assert (HO' : forall t fs o, In t ts -> ts_type t = TStruct fs -> mget otypes (ts_name t) = Some o -> exists m, new_message upper ofs (ts_name t) fs = SOk m)
        by (intros t0 fs0 o0 K; apply HO; right; exact K).
      destruct (ts_type t) as [xs|fs|n|] eqn:Et; try exact (IH _ _ _ _ _ H HO').
      + destruct (go_exported upper (ts_name t)); cbn [negb] in *; [|exact (IH _ _ _ _ _ H HO')]. cbn [mget].
        destruct (mget otypes (ts_name t)) as [o|] eqn:Eo.
        * destruct (HO t fs o (or_introl eq_refl) Et Eo) as [m Em]. destruct (new_message_any upper ofs ofs' _ _ _ Em) as [m' ->]. destruct (IH _ _ ofs' _ _ H HO') as [ms' ->]. eexists. reflexivity.
        * sb H. sb H. destruct a0 as [ms0 es0]. injection H as <- <-. destruct (new_message_any upper ofs ofs' _ _ _ E) as [m' ->]. destruct (IH _ _ ofs' _ _ E0 HO') as [ms' ->]. eexists. reflexivity.
      + destruct (str_eqb n (T "int32")); [|exact (IH _ _ _ _ _ H HO')]. sb H. destruct a as [ms0 es0]. injection H as <- <-. destruct (IH _ _ ofs' _ _ E HO') as [ms' ->]. eexists. reflexivity.
  Qed.
  Lemma option_loop_ok : forall ts otypes ofs ofs', option_loop upper ts otypes ofs = SOk ofs' ->
    forall t fs o, In t ts -> ts_type t = TStruct fs -> go_exported upper (ts_name t) = true -> mget otypes (ts_name t) = Some o -> exists ofs0 m, new_message upper ofs0 (ts_name t) fs = SOk m.
  Proof.
    induction ts as [|t ts IH]; intros otypes ofs ofs' H t0 fs0 o Hin Et0 Ex0 Eo0; [destruct Hin|]. cbn [option_loop] in H. destruct Hin as [->|Hin].
    - rewrite Et0, Ex0, Eo0 in H. cbn [negb] in H. sb H. exists ofs, a. exact E.
    - destruct (ts_type t) as [xs|fs|n|]; try exact (IH _ _ _ H _ _ _ Hin Et0 Ex0 Eo0). destruct (negb (go_exported upper (ts_name t))); [exact (IH _ _ _ H _ _ _ Hin Et0 Ex0 Eo0)|].
      destruct (mget otypes (ts_name t)); [|exact (IH _ _ _ H _ _ _ Hin Et0 Ex0 Eo0)]. sb H. destruct (ms_fields a); [discriminate|]. exact (IH _ _ _ H _ _ _ Hin Et0 Ex0 Eo0).
  Qed.

  Lemma is_option_iff : forall f s, is_option f s = true <-> exists i, option_of f s i.
  Proof.
    intros f s. unfold is_option, option_of. rewrite existsb_exists. split.
    - intros (d & H1 & H2). destruct d as [l|n recv]; [discriminate|]. apply andb_prop in H2. destruct H2 as [H2 H3]. exists n. split; [exact H2|]. eexists. split; [exact H1|exact H3].
    - intros (i & H1 & d & H2 & H3). exists d. split; [exact H2|]. destruct d as [l|n recv]; [discriminate|].
      assert (n = i) as ->. { cbn in H3. destruct recv as [[|[|[x| | | | |]| | | |] more]|]; try discriminate. apply andb_prop in H3. apply str_eqb_eq. apply H3. }
      rewrite H1, H3. reflexivity.
  Qed.
  Lemma is_option_spec : forall f s ones otypes,
    (forall n, In n ones <-> has_iface f n = true) -> oneof_types (go_decls f) ones [] = SOk otypes ->
    (mget otypes s = None <-> is_option f s = false) /\ (forall i, mget otypes s = Some i -> option_of f s i).
  Proof.
    intros f s ones otypes Ho H. destruct (oneof_types_spec _ _ _ _ H s) as [H1 H2].
    assert (HA : forall i, mget otypes s = Some i -> option_of f s i). { intros i K. destruct (H1 i K) as [K2|(K2 & d & K3 & K4)]; [discriminate|]. split; [apply Ho; exact K2|]. exists d. split; assumption. }
    split; [|exact HA]. split.
    - intro K. destruct (H2 K) as [_ K2]. destruct (is_option f s) eqn:E; [|reflexivity]. apply is_option_iff in E. destruct E as (i & E1 & d & E2 & E3). rewrite (K2 i (proj2 (Ho i) E1) d E2) in E3. discriminate.
    - intro K. destruct (mget otypes s) as [i|] eqn:E; [|reflexivity]. assert (is_option f s = true) by (apply is_option_iff; exists i; apply HA; reflexivity). congruence.
  Qed.

  (** ** One file *)
  Lemma new_file_spec : forall ofs sd f sd' ofs', new_file upper ofs sd f = SOk (sd', ofs') ->
    exists ms, sd_pkg sd' = go_pkg f /\ sd_messages sd' = sd_messages sd ++ ms /\ sd_enums sd' = sd_enums sd ++ enum_names f /\
      (forall s, service_is upper s (sd_service sd) -> service_is upper (last_of (server_specs f) s) (sd_service sd')) /\
      (fresh_opt (sd_service sd) -> fresh_opt (sd_service sd')) /\
      Forall2 (fun s m => new_message upper ofs' (fst s) (snd s) = SOk m) (match ofs with [] => non_options upper f | _ => struct_specs upper f end) ms /\
      match ofs with
      | [] => forall i, (options_of upper f i = [] -> mget ofs' i = None) /\
                (one_oneof_each f -> options_of upper f i <> [] -> exists os, mget ofs' i = Some os /\ Forall2 (option_field upper) (options_of upper f i) os) /\
                (has_options upper f = false -> ofs' = [])
      | _ => ofs' = ofs
      end /\ (ofs = [] -> has_options upper f = true -> ofs' <> []).
  Proof.
    intros ofs sd f sd' ofs' H. unfold new_file in H. sb H. destruct a as [svc ones]. sb H. destruct a as [otypes ofs1]. sb H. destruct a as [ms es]. injection H as <- <-. cbn [sd_pkg sd_messages sd_enums sd_service].
    destruct (iface_loop_spec _ _ _ _ _ _ E) as (O1 & O2 & O3). destruct (type_loop_spec _ _ _ _ _ E1) as [T1 ->].
    assert (Ho : forall n, In n ones <-> has_iface f n = true). { intro n. rewrite O1, has_iface_iff. split; [intros [[]|K]; exact K|auto]. }
    exists ms. split; [reflexivity|]. split; [reflexivity|]. split; [reflexivity|]. split; [exact O2|]. split; [exact O3|].
    destruct ofs as [|p ofs].
    - sb E0. sb E0. injection E0 as -> ->. pose proof (fun s => is_option_spec f s ones otypes Ho E2) as HS.
      split; [|split].
      + unfold non_options. rewrite (filter_ext_in' _ _ (fun s => match mget otypes (fst s) with None => true | Some _ => false end)); [exact T1|].
        intros s _. destruct (HS (fst s)) as [K _]. destruct (mget otypes (fst s)) as [i|]; [|rewrite (proj1 K eq_refl); reflexivity]. destruct (is_option f (fst s)); [reflexivity|]. discriminate (proj2 K eq_refl).
      + intro i. destruct (option_loop_spec _ _ _ _ E3 i) as [P1 (l & P2 & P3)].
        assert (Sub : forall s, otype_is otypes i s = true -> has_iface f i && existsb (is_marker (fst s) i) (go_decls f) = true).
        { intros s K. unfold otype_is in K. destruct (mget otypes (fst s)) as [j|] eqn:Ej; [|discriminate]. apply str_eqb_eq in K. subst j. destruct (proj2 (HS (fst s)) i Ej) as (K1 & d & K2 & K3). rewrite K1. cbn [andb]. apply existsb_exists. exists d. split; assumption. }
        split; [|split].
        * intro K. unfold options_of in K. rewrite P1; [reflexivity|]. rewrite filter_none in K |- *. intros s Hs. specialize (K s Hs). destruct (otype_is otypes i s) eqn:Eo; [|reflexivity]. rewrite (Sub s Eo) in K. discriminate.
        * intros Hone Hne. assert (Eq : options_of upper f i = filter (otype_is otypes i) (struct_specs upper f)).
          { unfold options_of. apply filter_ext_in'. intros s _. destruct (otype_is otypes i s) eqn:Eo; [exact (Sub s Eo)|]. destruct (has_iface f i && existsb (is_marker (fst s) i) (go_decls f)) eqn:K; [|reflexivity].
            apply andb_prop in K. destruct K as [K1 K2]. apply existsb_exists in K2. destruct K2 as (d & K2 & K3). assert (Op : option_of f (fst s) i) by (split; [exact K1|exists d; split; assumption]).
            assert (Io : is_option f (fst s) = true) by (apply is_option_iff; exists i; exact Op). destruct (HS (fst s)) as [S1 S2]. unfold otype_is in Eo. destruct (mget otypes (fst s)) as [j|] eqn:Ej; [|rewrite (proj1 S1 eq_refl) in Io; discriminate].
            rewrite (Hone _ _ _ (S2 j eq_refl) Op), str_eqb_refl in Eo. discriminate. }
          rewrite Eq in *. fold (struct_specs upper f) in P3. unfold getl in P2. cbn [mget app] in P2. destruct (mget ofs1 i) as [os|] eqn:Em; [exists os; subst; split; [reflexivity|exact P3]|].
          subst l. inversion P3 as [K|]. exfalso. apply Hne. symmetry. exact K.
        * intro K. unfold has_options in K. rewrite option_loop_empty in E3; [injection E3 as <-; reflexivity|]. intros s Hs. apply (HS (fst s)). destruct (is_option f (fst s)) eqn:Eo; [|reflexivity].
          exfalso. assert (existsb (fun s => is_option f (fst s)) (struct_specs upper f) = true) by (apply existsb_exists; exists s; split; [exact Hs|exact Eo]). congruence.
      + intros _ K -> . unfold has_options in K. apply existsb_exists in K. destruct K as (s & K1 & K2). destruct (HS (fst s)) as [S1 S2]. destruct (mget otypes (fst s)) as [i|] eqn:Ej; [|rewrite (proj1 S1 eq_refl) in K2; discriminate].
        destruct (option_loop_spec _ _ _ _ E3 i) as [P1 (l & P2 & P3)]. cbn in P2. subst l. inversion P3 as [K3|]. symmetry in K3. rewrite filter_none in K3. specialize (K3 s K1). unfold otype_is in K3. rewrite Ej, str_eqb_refl in K3. discriminate.
    - injection E0 as <- <-. split; [|split; [reflexivity|intro K; discriminate]].
      rewrite filter_true in T1 by reflexivity. exact T1.
  Qed.
End S.
