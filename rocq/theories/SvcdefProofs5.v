(** Proofs about definitions: when New succeeds. *)
From Coq Require Import Permutation.
From Verif Require Import GoStr GoStrProofs GoMap Unquote SplitJoin SvcTypes HttpTypes Svcdef SvcdefSpec SvcdefProofs SvcdefProofs2 SvcdefProofs3 SvcdefProofs4.

Section S.
  Variable upper : N -> bool.
  Lemma follow_ok : forall ofs e t, keys_ok e -> exists t', follow ofs e t = Some t'.
  Proof.
    induction e as [n|e IH|e IH|k Ik v Iv|e IH sel|]; intros t H; cbn [follow keys_ok] in *; try (eexists; reflexivity); try (apply IH; exact H).
    destruct k; try contradiction. cbn. eexists. reflexivity.
  Qed.
  Lemma tag_ok_some : forall t, tag_ok t -> exists pb, pb_field_name t = SOk pb.
  Proof.
    intros [tag|] H; [|eexists; reflexivity]. destruct H as [[name H]|(ps & -> & Hg & Hf)]; [exists name; apply pb_field_name_ok; exact H|].
    unfold pb_field_name. rewrite (struct_tag_get_spec ps _ Hg), Hf. eexists. reflexivity.
  Qed.
  Lemma new_fields_ok : forall ofs fs, Forall (protoc_field upper) fs -> exists l, new_fields upper ofs fs = SOk l.
  Proof.
    intros ofs fs H. induction H as [|g fs [H1 H2] _ [l IH]]; cbn [new_fields]; [eexists; reflexivity|]. unfold visible in H2. destruct (gf_names g) as [|n rest] eqn:En; [contradiction|].
    destruct (has_prefix n (T "XXX_")); cbn [orb negb andb] in *; [exists l; exact IH|]. destruct (go_exported upper n); cbn [negb] in *; [|exists l; exact IH].
    destruct (H2 eq_refl) as [H3 H4]. destruct (tag_ok_some _ H3) as [pb Hp]. destruct (follow_ok ofs _ empty_ft H4) as [t Ht]. unfold new_field. rewrite En, Hp. cbn [sbind]. rewrite Ht, IH. eexists. reflexivity.
  Qed.
  Lemma make_field_type_ok : forall e, pointer e -> exists t, make_field_type e = SOk t.
  Proof. intros e [[n ->]|(x & n & ->)]; eexists; reflexivity. Qed.
  Lemma new_methods_ok : forall ms, Forall (protoc_method upper) ms -> exists l, new_methods upper ms = SOk l.
  Proof.
    intros ms H. induction H as [|m ms [H1 H2] _ [l IH]]; cbn [new_methods]; [eexists; reflexivity|]. unfold exported_method in H2. destruct (gm_names m) as [|n rest] eqn:En; [contradiction|].
    destruct (go_exported upper n); cbn [negb]; [|exists l; exact IH]. destruct (H2 eq_refl) as (c & rq & ps & rs & qs & Et & Hq & Hr). destruct (make_field_type_ok _ Hq) as [q Eq]. destruct (make_field_type_ok _ Hr) as [r Er].
    unfold new_service_method. rewrite En, Et, Eq. cbn [sbind]. rewrite Er. cbn [sbind]. rewrite IH. eexists. reflexivity.
  Qed.
  Lemma iface_loop_ok : forall ts svc ones, (forall s, In s (servers ts) -> Forall (protoc_method upper) (snd s)) -> exists x, iface_loop upper ts svc ones = SOk x.
  Proof.
    induction ts as [|t ts IH]; intros svc ones H; cbn [iface_loop servers flat_map] in *; [eexists; reflexivity|]. fold (servers ts) in H.
    destruct (ts_type t) as [ms|fs|n|]; try (apply IH; exact H). unfold is_server in H. destruct (has_prefix (ts_name t) (T "Unsafe")); [rewrite andb_false_r in H; apply IH; exact H|].
    destruct (has_suffix (ts_name t) (T "Server")); cbn [negb andb] in *.
    - destruct (new_methods_ok ms (H _ (or_introl eq_refl))) as [l El]. unfold new_service. rewrite El. cbn [sbind]. apply IH. intros s Hs. apply H. right. exact Hs.
    - destruct (has_prefix (ts_name t) (T "is")); apply IH; exact H.
  Qed.
  Lemma oneof_types_ok : forall ds ones m, (forall n recv, In (GDFunc n recv) ds -> In n ones -> exists x rest, recv = Some (GStar (GIdent x) :: rest)) -> exists m', oneof_types ds ones m = SOk m'.
  Proof.
    induction ds as [|d ds IH]; intros ones m H; cbn [oneof_types]; [eexists; reflexivity|]. assert (H' : forall n recv, In (GDFunc n recv) ds -> In n ones -> exists x rest, recv = Some (GStar (GIdent x) :: rest)) by (intros n recv K; apply H; right; exact K).
    destruct d as [l|n recv]; [exact (IH _ _ H')|]. destruct (existsb (str_eqb n) ones) eqn:E; [|exact (IH _ _ H')]. apply existsb_exists in E. destruct E as (n' & Hn & En). apply str_eqb_eq in En. subst n'.
    destruct (H n recv (or_introl eq_refl) Hn) as (x & rest & ->). exact (IH _ _ H').
  Qed.
  Lemma option_loop_ok' : forall ts otypes ofs,
    (forall s, In s (structs upper ts) -> Forall (protoc_field upper) (snd s)) ->
    (forall s, In s (structs upper ts) -> mget otypes (fst s) <> None -> filter (visible upper) (snd s) <> []) -> exists ofs', option_loop upper ts otypes ofs = SOk ofs'.
  Proof.
    induction ts as [|t ts IH]; intros otypes ofs H1 H2; cbn [option_loop structs flat_map] in *; [eexists; reflexivity|]. fold (structs upper ts) in *.
    destruct (ts_type t) as [ms|fs|n|]; try (apply IH; assumption). destruct (go_exported upper (ts_name t)) eqn:Ex; cbn [negb app] in *; [|apply IH; assumption].
    assert (H1' : forall s, In s (structs upper ts) -> Forall (protoc_field upper) (snd s)) by (intros s Hs; apply H1; right; exact Hs).
    assert (H2' : forall s, In s (structs upper ts) -> mget otypes (fst s) <> None -> filter (visible upper) (snd s) <> []) by (intros s Hs; apply H2; right; exact Hs).
    destruct (mget otypes (ts_name t)) as [i|] eqn:Ei; [|exact (IH _ _ H1' H2')].
    destruct (new_fields_ok ofs fs (H1 _ (or_introl eq_refl))) as [l El]. unfold new_message. rewrite El. cbn [sbind ms_fields].
    pose proof (new_fields_spec _ _ _ _ El) as HF. pose proof (H2 (ts_name t, fs) (or_introl eq_refl)) as HN. cbn [fst snd] in HN. rewrite Ei in HN. specialize (HN ltac:(discriminate)).
    destruct l as [|f l]; [inversion HF as [K|]; exfalso; apply HN; symmetry; exact K|]. exact (IH _ _ H1' H2').
  Qed.
  Lemma type_loop_ok : forall ts otypes ofs, (forall s, In s (structs upper ts) -> Forall (protoc_field upper) (snd s)) -> exists x, type_loop upper ts otypes ofs = SOk x.
  Proof.
    induction ts as [|t ts IH]; intros otypes ofs H1; cbn [type_loop structs flat_map] in *; [eexists; reflexivity|]. fold (structs upper ts) in *.
    destruct (ts_type t) as [ms|fs|n|]; try (apply IH; assumption).
    - destruct (go_exported upper (ts_name t)) eqn:Ex; cbn [negb app] in *; [|apply IH; assumption].
      assert (H1' : forall s, In s (structs upper ts) -> Forall (protoc_field upper) (snd s)) by (intros s Hs; apply H1; right; exact Hs).
      destruct (mget otypes (ts_name t)) as [i|] eqn:Ei; [exact (IH _ _ H1')|]. destruct (new_fields_ok ofs fs (H1 _ (or_introl eq_refl))) as [l El]. unfold new_message. rewrite El. cbn [sbind].
      destruct (IH otypes ofs H1') as [[ms es] ->]. eexists. reflexivity.
    - destruct (str_eqb n (T "int32")); [|apply IH; assumption]. destruct (IH otypes ofs H1) as [[ms es] ->]. eexists. reflexivity.
  Qed.
  Lemma new_file_ok : forall ofs sd f, protoc_file upper f -> exists x, new_file upper ofs sd f = SOk x.
  Proof.
    intros ofs sd f [F1 F2 F3 F4]. unfold new_file. destruct (iface_loop_ok (type_specs f) (sd_service sd) [] F2) as [[svc ones] E]. rewrite E. cbn [sbind]. destruct (iface_loop_spec _ _ _ _ _ _ E) as (O1 & _).
    assert (Ho : forall n, In n ones <-> has_iface f n = true). { intro n. rewrite O1, has_iface_iff. split; [intros [[]|K]; exact K|auto]. }
    destruct ofs as [|p ofs].
    - destruct (oneof_types_ok (go_decls f) ones []) as [otypes E2]; [intros n recv K1 K2; apply (F3 n recv K1); apply Ho; exact K2|]. rewrite E2. cbn [sbind].
      destruct (option_loop_ok' (type_specs f) otypes []) as [o E3]; [exact F1| |].
      + intros s Hs Hne. apply F4; [exact Hs|]. destruct (is_option_spec f (fst s) ones otypes Ho E2) as [K _]. destruct (is_option f (fst s)); [reflexivity|]. exfalso. apply Hne. apply K. reflexivity.
      + rewrite E3. cbn [sbind]. destruct (type_loop_ok (type_specs f) otypes o F1) as [[ms es] ->]. eexists. reflexivity.
    - cbn [sbind]. destruct (type_loop_ok (type_specs f) [] (p :: ofs) F1) as [[ms es] ->]. eexists. reflexivity.
  Qed.
  Lemma new_files_ok : forall fs ofs sd, Forall (protoc_file upper) fs -> exists x, new_files upper ofs sd (map Some fs) = SOk x.
  Proof.
    induction fs as [|f fs IH]; intros ofs sd H; cbn [map new_files]; [eexists; reflexivity|]. inversion H as [|x y Hf Hfs]; subst. destruct (new_file_ok ofs sd f Hf) as [[sd1 ofs1] ->]. cbn [sbind]. apply IH. exact Hfs.
  Qed.

  (** ** All Server interfaces are read *)
  Lemma iface_loop_all : forall ts svc ones x, iface_loop upper ts svc ones = SOk x -> forall s, In s (servers ts) -> exists v, service_of upper s v.
  Proof.
    induction ts as [|t ts IH]; intros svc ones x H s Hs; cbn [iface_loop servers flat_map] in *; [destruct Hs|]. fold (servers ts) in Hs.
    destruct (ts_type t) as [ms|fs|n|]; try exact (IH _ _ _ H s Hs). unfold is_server in Hs. destruct (has_prefix (ts_name t) (T "Unsafe")); [rewrite andb_false_r in Hs; exact (IH _ _ _ H s Hs)|].
    destruct (has_suffix (ts_name t) (T "Server")) eqn:Es; cbn [negb andb app] in *.
    - sb H. destruct Hs as [<-|Hs]; [exists a; exact (proj1 (new_service_of _ _ _ _ Es E))|exact (IH _ _ _ H s Hs)].
    - destruct (has_prefix (ts_name t) (T "is")); exact (IH _ _ _ H s Hs).
  Qed.
  Lemma new_files_all : forall fs ofs sd x, new_files upper ofs sd (map Some fs) = SOk x -> forall f s, In f fs -> In s (server_specs f) -> exists v, service_of upper s v.
  Proof.
    induction fs as [|f0 fs IH]; intros ofs sd x H f s Hf Hs; [destruct Hf|]. cbn [map new_files] in H. sb H. destruct a as [sd1 ofs1]. destruct Hf as [->|Hf]; [|exact (IH _ _ _ H f s Hf Hs)].
    unfold new_file in E. sb E. exact (iface_loop_all _ _ _ _ E0 s Hs).
  Qed.
End S.
