(** Proofs about the contents of a definition. *)
From Coq Require Import Permutation.
From Verif Require Import GoStr GoStrProofs GoMap Unquote SplitJoin SvcTypes HttpTypes Svcdef SvcdefSpec SvcdefProofs.

Lemma sbind_ok : forall A B (x : sres A) (k : A -> sres B) b, sbind x k = SOk b -> exists a, x = SOk a /\ k a = SOk b.
Proof. intros A B [a| |] k b H; [exists a; split; [reflexivity|exact H]|discriminate|discriminate]. Qed.
Ltac sb H := apply sbind_ok in H; let a := fresh "a" in let E := fresh "E" in destruct H as (a & E & H).

Lemma has_prefix_app : forall p s, has_prefix s p = true -> exists r, s = p ++ r.
Proof.
  induction p as [|c p IH]; intros s H; [exists s; reflexivity|]. destruct s as [|d s]; [discriminate|]. cbn in H.
  apply andb_prop in H. destruct H as [H1 H2]. apply N.eqb_eq in H1. subst. destruct (IH s H2) as [r ->]. exists r. reflexivity.
Qed.
Lemma has_suffix_app : forall s p, has_suffix s p = true -> s = trim_suffix s p ++ p.
Proof.
  intros s p H. unfold trim_suffix. rewrite H. unfold has_suffix in H. apply has_prefix_app in H. destruct H as [r H].
  assert (E : s = rev r ++ p) by (rewrite <- (rev_involutive s), H, rev_app_distr, rev_involutive; reflexivity).
  subst s. f_equal. rewrite app_length. replace (length (rev r) + length p - length p) with (length (rev r)) by lia.
  rewrite firstn_app, Nat.sub_diag, firstn_all, app_nil_r. reflexivity.
Qed.

Lemma ft_star_ft : forall t, mkFT (ft_name t) (ft_enum t) (ft_oneof t) (ft_msg t) (ft_map t) (ft_star t) (ft_array t) = t.
Proof. intros []. reflexivity. Qed.

Section S.
  Variable upper : N -> bool.

  (** ** Fields *)
  Lemma pb_field_name_tag : forall tag name pb, tag_name tag name -> pb_field_name (Some tag) = SOk pb -> pb = name.
  Proof.
    intros tag name pb (ps & body & kind & num & card & packed & more & -> & Hg & Hf & Hu & H1 & H2 & H3 & H4 & H5) H.
    unfold pb_field_name in H. rewrite (struct_tag_get_spec ps _ Hg), Hf, Hu in H.
    pose proof (pb_entry_name kind num card packed name more H1 H2 H3 H4 H5) as P.
    destruct (split1 44 (pb_entry kind num card packed name more)) as [|s0 [|s1 [|s2 [|s3 rest]]]]; try contradiction.
    destruct (after_eq s3) as [n|].
    - injection H as <-. exact P.
    - destruct P as (s4 & rest' & -> & E). rewrite E in H. injection H as <-. reflexivity.
  Qed.
  Lemma pb_field_name_ok : forall tag name, tag_name tag name -> pb_field_name (Some tag) = SOk name.
  Proof.
    intros tag name (ps & body & kind & num & card & packed & more & -> & Hg & Hf & Hu & H1 & H2 & H3 & H4 & H5).
    unfold pb_field_name. rewrite (struct_tag_get_spec ps _ Hg), Hf, Hu.
    pose proof (pb_entry_name kind num card packed name more H1 H2 H3 H4 H5) as P.
    destruct (split1 44 (pb_entry kind num card packed name more)) as [|s0 [|s1 [|s2 [|s3 rest]]]]; try contradiction.
    destruct (after_eq s3) as [n|]; [rewrite P; reflexivity|]. destruct P as (s4 & rest' & -> & E). rewrite E. reflexivity.
  Qed.
  Lemma follow_map_none : forall ofs e t t', plain_type e -> ft_map t = None -> follow ofs e t = Some t' -> ft_map t' = None.
  Proof.
    intros ofs e t t' H E F. destruct H as [e H|e H|e H|e H]; destruct H as [n|p s]; cbn [follow] in F; injection F as <-; exact E.
  Qed.
  Lemma new_field_of : forall ofs g f, new_field ofs g = SOk f -> field_of g f /\ unlinked (fd_type f) /\ (forall kt vt, ft_map (fd_type f) = Some (kt, vt) -> unlinked vt).
  Proof.
    intros ofs g f H. unfold new_field in H. destruct (gf_names g) as [|n rest] eqn:En; [discriminate|]. sb H.
    destruct (follow ofs (gf_type g) empty_ft) as [t|] eqn:Ef; [|discriminate]. injection H as <-. split; [|split].
    - split; [|split; [|split; [|split; [|split]]]]; cbn [fd_name fd_pbname fd_type].
      + exists rest. exact En.
      + intros tag name Et Hn. rewrite Et in E. exact (pb_field_name_tag tag name a Hn E).
      + intro Et. rewrite Et in E. injection E as <-. reflexivity.
      + intro Hp. split; [|exact (follow_map_none ofs _ empty_ft _ Hp eq_refl Ef)]. destruct (follow_plain ofs _ Hp) as (t' & F & G). rewrite F in Ef. injection Ef as ->. symmetry. exact G.
      + intros k v Ev. rewrite Ev in Ef. cbn in Ef. injection Ef as <-. eexists _, _. split; [reflexivity|]. split; reflexivity.
      + intros k v Ev. rewrite Ev in Ef. cbn in Ef. injection Ef as <-. eexists _, _. split; [reflexivity|]. split; reflexivity.
    - cbn [fd_type]. clear E En. assert (G : forall e t0 t, follow ofs e t0 = Some t -> unlinked t0 -> unlinked t).
      { clear. induction e as [n|e IH|e IH|k Ik v Iv|e IH sel|]; intros t0 t F [H1 H2]; cbn [follow] in F.
        - injection F as <-. split; assumption.
        - apply (IH _ _ F). split; assumption.
        - apply (IH _ _ F). split; assumption.
        - destruct (new_map k v); [|discriminate]. injection F as <-. split; assumption.
        - injection F as <-. split; assumption.
        - injection F as <-. split; assumption. }
      apply (G _ _ _ Ef). split; reflexivity.
    - cbn [fd_type]. clear E En. assert (M : forall v t, unlinked t -> unlinked (map_value v t)).
      { clear. induction v; intros t [H1 H2]; cbn [map_value]; try (split; assumption). apply IHv. split; assumption. }
      assert (G : forall e t0 t, follow ofs e t0 = Some t -> (forall kt vt, ft_map t0 = Some (kt, vt) -> unlinked vt) -> (forall kt vt, ft_map t = Some (kt, vt) -> unlinked vt)).
      { clear - M. induction e as [n|e IH|e IH|k Ik v Iv|e IH sel|]; intros t0 t F H; cbn [follow] in F.
        - injection F as <-. exact H.
        - apply (IH _ _ F). exact H.
        - apply (IH _ _ F). exact H.
        - destruct (new_map k v) as [m|] eqn:Em; [|discriminate]. injection F as <-. cbn [ft_map]. intros kt vt [= ->].
          unfold new_map in Em. destruct k; try discriminate. injection Em as <- <-. apply M. split; reflexivity.
        - injection F as <-. exact H.
        - injection F as <-. exact H. }
      apply (G _ _ _ Ef). discriminate.
  Qed.
  (** The oneof of a field. *)
  Lemma new_field_oneof : forall ofs g f i, new_field ofs g = SOk f -> gf_type g = GIdent i -> ft_oneof (fd_type f) = mget ofs i.
  Proof.
    intros ofs g f i H E. unfold new_field in H. destruct (gf_names g) as [|n rest]; [discriminate|]. sb H. rewrite E in H. cbn in H. injection H as <-. cbn. destruct (mget ofs i); reflexivity.
  Qed.
  Lemma new_fields_spec : forall ofs fs l, new_fields upper ofs fs = SOk l -> Forall2 (fun g f => new_field ofs g = SOk f) (filter (visible upper) fs) l.
  Proof.
    induction fs as [|g fs IH]; intros l H; cbn [new_fields] in H; [injection H as <-; constructor|]. cbn [filter]. unfold visible at 1.
    destruct (gf_names g) as [|n rest] eqn:En; [discriminate|]. destruct (has_prefix n (T "XXX_")); cbn [orb negb andb] in *; [exact (IH l H)|].
    destruct (go_exported upper n); cbn [negb] in H; [|exact (IH l H)]. sb H. sb H. injection H as <-. constructor; [exact E|]. exact (IH _ E0).
  Qed.
  Lemma new_message_of : forall ofs n fs m, new_message upper ofs n fs = SOk m -> message_of upper (n, fs) m.
  Proof.
    intros ofs n fs m H. unfold new_message in H. sb H. injection H as <-. split; [reflexivity|]. cbn [snd ms_fields]. apply new_fields_spec in E.
    induction E as [|g f gs l H _ IH]; constructor; [exact (proj1 (new_field_of _ _ _ H))|exact IH].
  Qed.
  Definition fresh_message (m : message) : Prop := Forall (fun f => unlinked (fd_type f) /\ (forall kt vt, ft_map (fd_type f) = Some (kt, vt) -> unlinked vt)) (ms_fields m).
  Lemma new_message_fresh : forall ofs n fs m, new_message upper ofs n fs = SOk m -> fresh_message m.
  Proof.
    intros ofs n fs m H. unfold new_message in H. sb H. injection H as <-. unfold fresh_message. cbn [ms_fields]. apply new_fields_spec in E.
    induction E as [|g f gs l H _ IH]; constructor; [exact (proj2 (new_field_of _ _ _ H))|exact IH].
  Qed.
  (** Success does not depend on the oneofs seen so far. *)
  Lemma follow_some : forall ofs ofs' e t t1 t', (ft_name t = ft_name t' /\ ft_array t = ft_array t') -> follow ofs e t = Some t1 -> exists t2, follow ofs' e t' = Some t2.
  Proof.
    induction e as [n|e IH|e IH|k Ik v Iv|e IH sel|]; intros t t1 t' [H1 H2] F; cbn [follow] in *; try (eexists; reflexivity).
    - eapply IH; [|exact F]. split; assumption.
    - eapply IH; [|exact F]. cbn. rewrite H1, H2. split; reflexivity.
    - destruct (new_map k v); [eexists; reflexivity|discriminate].
  Qed.
  Lemma new_fields_any : forall ofs ofs' fs l, new_fields upper ofs fs = SOk l -> exists l', new_fields upper ofs' fs = SOk l'.
  Proof.
    induction fs as [|g fs IH]; intros l H; cbn [new_fields] in *; [eexists; reflexivity|]. destruct (gf_names g) as [|n rest] eqn:En; [discriminate|].
    destruct (has_prefix n (T "XXX_") || negb (go_exported upper n)); [exact (IH l H)|]. sb H. sb H. destruct (IH _ E0) as [l' El]. rewrite El.
    unfold new_field in *. rewrite En in *. sb E. rewrite E1. cbn [sbind]. destruct (follow ofs (gf_type g) empty_ft) as [t|] eqn:F; [|discriminate].
    destruct (follow_some ofs ofs' _ _ _ empty_ft (conj eq_refl eq_refl) F) as [t2 ->]. eexists. reflexivity.
  Qed.
  Lemma new_message_any : forall ofs ofs' n fs m, new_message upper ofs n fs = SOk m -> exists m', new_message upper ofs' n fs = SOk m'.
  Proof. intros ofs ofs' n fs m H. unfold new_message in *. sb H. destruct (new_fields_any ofs ofs' fs _ E) as [l ->]. eexists. reflexivity. Qed.

  (** ** Services *)
  Lemma make_field_type_of : forall e t, make_field_type e = SOk t -> points_to e t /\ unlinked t.
  Proof.
    intros e t H. destruct e as [| [] | | | |]; cbn in H; try discriminate; injection H as <-; split; try (split; reflexivity); eexists; (split; [|repeat split; reflexivity]); eauto.
  Qed.
  Lemma new_service_method_of : forall m x, new_service_method m = SOk x -> method_of m x /\ unlinked (sm_req x) /\ unlinked (sm_resp x).
  Proof.
    intros m x H. unfold new_service_method in H. destruct (gm_names m) as [|n rest] eqn:En; [discriminate|]. destruct (gm_type m) as [params results|] eqn:Et; [|discriminate].
    destruct results as [|rs qs]; [discriminate|]. destruct params as [|c [|rq ps]]; try discriminate. sb H. sb H. injection H as <-.
    apply make_field_type_of in E, E0. destruct E as [E1 E2], E0 as [E3 E4]. split; [|split; assumption].
    exists n, rest, c, rq, ps, rs, qs. repeat (split; [first [exact En|exact Et|reflexivity|assumption]|]). reflexivity.
  Qed.
  Definition fresh_service (v : service) : Prop := Forall (fun x => unlinked (sm_req x) /\ unlinked (sm_resp x)) (sv_methods v).
  Lemma new_methods_of : forall ms l, new_methods upper ms = SOk l -> Forall2 (fun m x => new_service_method m = SOk x) (filter (exported_method upper) ms) l.
  Proof.
    induction ms as [|m ms IH]; intros l H; cbn [new_methods] in H; [injection H as <-; constructor|]. cbn [filter]. unfold exported_method at 1.
    destruct (gm_names m) as [|n rest]; [discriminate|]. destruct (go_exported upper n); cbn [negb] in H; [|exact (IH l H)].
    sb H. sb H. injection H as <-. constructor; [exact E|exact (IH _ E0)].
  Qed.
  Lemma new_service_of : forall n ms v, has_suffix n (T "Server") = true -> new_service upper n ms = SOk v -> service_of upper (n, ms) v /\ fresh_service v.
  Proof.
    intros n ms v Hs H. unfold new_service in H. sb H. injection H as <-. apply new_methods_of in E. split.
    - split; [exact (has_suffix_app _ _ Hs)|]. cbn [snd sv_methods]. induction E as [|m x ms' l H _ IH]; constructor; [exact (proj1 (new_service_method_of _ _ H))|exact IH].
    - unfold fresh_service. cbn [sv_methods]. induction E as [|m x ms' l H _ IH]; constructor; [exact (proj2 (new_service_method_of _ _ H))|exact IH].
  Qed.
  Definition fresh_opt (v : option service) : Prop := match v with Some v => fresh_service v | None => True end.
  Lemma iface_loop_spec : forall ts svc ones svc' ones', iface_loop upper ts svc ones = SOk (svc', ones') ->
    (forall n, In n ones' <-> In n ones \/ (is_oneof_iface n = true /\ exists t ms, In t ts /\ ts_name t = n /\ ts_type t = TIface ms)) /\
    (forall s, service_is upper s svc -> service_is upper (last_of (servers ts) s) svc') /\
    (fresh_opt svc -> fresh_opt svc').
  Proof.
    induction ts as [|t ts IH]; intros svc ones svc' ones' H; cbn [iface_loop] in H.
    - injection H as <- <-. split; [|split; auto]. intro n. split; [auto|]. intros [K|(_ & t & ms & [] & _)]. exact K.
    - assert (SK : forall b, (forall n, is_oneof_iface n = true -> (exists ms, ts_name t = n /\ ts_type t = TIface ms) -> b = true) ->
        (b = true -> is_oneof_iface (ts_name t) = true /\ exists ms, ts_type t = TIface ms) -> forall ones2, (forall n, In n ones2 <-> In n ones \/ (b = true /\ ts_name t = n)) ->
        forall n, (In n ones2 \/ (is_oneof_iface n = true /\ exists t ms, In t ts /\ ts_name t = n /\ ts_type t = TIface ms)) <->
        (In n ones \/ (is_oneof_iface n = true /\ exists t0 ms, In t0 (t :: ts) /\ ts_name t0 = n /\ ts_type t0 = TIface ms))).
      { intros b H1 H2 ones2 H3 n. rewrite H3. split.
        - intros [[K|[K1 K2]]|(K1 & t0 & ms & K2 & K3)]; [auto| |].
          + right. destruct (H2 K1) as [K3 [ms K4]]. rewrite <- K2. split; [exact K3|]. exists t, ms. split; [left; reflexivity|]. split; [reflexivity|exact K4].
          + right. split; [exact K1|]. exists t0, ms. split; [right; exact K2|exact K3].
        - intros [K|(K1 & t0 & ms & [K2|K2] & K3 & K4)]; [auto| |].
          + subst t0. left. right. split; [|exact K3]. apply (H1 n K1). exists ms. split; assumption.
          + right. split; [exact K1|]. exists t0, ms. repeat split; assumption. }
      destruct (ts_type t) as [ms|fs|x|] eqn:Et.
      2-4: (destruct (IH _ _ _ _ H) as (I1 & I2 & I3); split; [|split; [|exact I3]];
        [intro n; rewrite I1; apply (SK false); [intros k _ (ms & _ & K); congruence|discriminate|intro k; split; [auto|intros [K|[K _]]; [exact K|discriminate]]]
        |cbn [servers flat_map]; rewrite Et; exact I2]).
      cbn [servers flat_map]. rewrite Et. fold (servers ts). unfold is_server.
      destruct (has_prefix (ts_name t) (T "Unsafe")) eqn:E1.
      { rewrite andb_false_r. destruct (IH _ _ _ _ H) as (I1 & I2 & I3). split; [|split; [exact I2|exact I3]].
        intro n. rewrite I1. apply (SK false); [|discriminate|intro k; split; [auto|intros [K|[K _]]; [exact K|discriminate]]].
        intros k Hk (ms' & <- & _). unfold is_oneof_iface in Hk. rewrite E1, andb_false_r in Hk. discriminate. }
      destruct (has_suffix (ts_name t) (T "Server")) eqn:E2; cbn [negb andb] in *.
      + sb H. destruct (IH _ _ _ _ H) as (I1 & I2 & I3). destruct (new_service_of _ _ _ E2 E) as [S1 S2]. split; [|split].
        * intro n. rewrite I1. apply (SK false); [|discriminate|intro k; split; [auto|intros [K|[K _]]; [exact K|discriminate]]].
          intros k Hk (ms' & <- & _). unfold is_oneof_iface in Hk. rewrite E2, andb_false_r in Hk. discriminate.
        * intros s _. cbn [app last_of fold_left]. apply I2. exact S1.
        * intros _. apply I3. exact S2.
      + destruct (has_prefix (ts_name t) (T "is")) eqn:E3.
        * destruct (IH _ _ _ _ H) as (I1 & I2 & I3). split; [|split; [exact I2|exact I3]]. intro n. rewrite I1. apply (SK true).
          -- reflexivity.
          -- intros _. split; [unfold is_oneof_iface; rewrite E1, E2, E3; reflexivity|exists ms; reflexivity].
          -- intro k. cbn [In]. split; [intros [K|K]; auto|intros [K|[_ K]]; auto].
        * destruct (IH _ _ _ _ H) as (I1 & I2 & I3). split; [|split; [exact I2|exact I3]]. intro n. rewrite I1.
          apply (SK false); [|discriminate|intro k; split; [auto|intros [K|[K _]]; [exact K|discriminate]]].
          intros k Hk (ms' & <- & _). unfold is_oneof_iface in Hk. rewrite E3 in Hk. discriminate.
  Qed.
  Lemma has_iface_iff : forall f i, has_iface f i = true <-> (is_oneof_iface i = true /\ exists t ms, In t (type_specs f) /\ ts_name t = i /\ ts_type t = TIface ms).
  Proof.
    intros f i. unfold has_iface. rewrite andb_true_iff, existsb_exists. split.
    - intros (H1 & t & H2 & H3). split; [exact H1|]. apply andb_prop in H3. destruct H3 as [H3 H4]. apply str_eqb_eq in H3. destruct (ts_type t) as [ms| | |] eqn:Et; try discriminate. exists t, ms. repeat split; assumption.
    - intros (H1 & t & ms & H2 & H3 & H4). split; [exact H1|]. exists t. split; [exact H2|]. rewrite H4, H3, str_eqb_refl. reflexivity.
  Qed.

  (** ** Oneofs *)
  Lemma oneof_types_spec : forall ds ones m m', oneof_types ds ones m = SOk m' -> forall s,
    (forall i, mget m' s = Some i -> mget m s = Some i \/ (In i ones /\ exists d, In d ds /\ is_marker s i d = true)) /\
    (mget m' s = None -> mget m s = None /\ forall i, In i ones -> forall d, In d ds -> is_marker s i d = false).
  Proof.
    induction ds as [|d ds IH]; intros ones m m' H s; cbn [oneof_types] in H.
    - injection H as <-. split; [auto|]. intro E. split; [exact E|]. intros i _ d [].
    - assert (SK : oneof_types ds ones m = SOk m' -> (forall i, In i ones -> is_marker s i d = false) ->
        (forall i, mget m' s = Some i -> mget m s = Some i \/ (In i ones /\ exists d0, In d0 (d :: ds) /\ is_marker s i d0 = true)) /\
        (mget m' s = None -> mget m s = None /\ forall i, In i ones -> forall d0, In d0 (d :: ds) -> is_marker s i d0 = false)).
      { intros H2 Hd. destruct (IH _ _ _ H2 s) as [I1 I2]. split.
        - intros i K. destruct (I1 i K) as [K2|(K2 & d0 & K3 & K4)]; [auto|]. right. split; [exact K2|]. exists d0. split; [right; exact K3|exact K4].
        - intro K. destruct (I2 K) as [K2 K3]. split; [exact K2|]. intros i Hi d0 [<-|Hin]; [exact (Hd i Hi)|exact (K3 i Hi d0 Hin)]. }
      destruct d as [l|n recv]; [apply SK; [exact H|reflexivity]|].
      destruct (existsb (str_eqb n) ones) eqn:Eo.
      + destruct recv as [[|[|[x| | | | |]| | | |] more]|]; try discriminate.
        destruct (IH _ _ _ H s) as [I1 I2]. apply existsb_exists in Eo. destruct Eo as (n' & Hn & En). apply str_eqb_eq in En. subst n'. split.
        * intros i K. destruct (I1 i K) as [K2|(K2 & d0 & K3 & K4)].
          -- rewrite mget_mset in K2. destruct (str_eqb_spec s x) as [->|Nx]; [|auto]. injection K2 as <-. right. split; [exact Hn|]. eexists. split; [left; reflexivity|]. cbn. rewrite !str_eqb_refl. reflexivity.
          -- right. split; [exact K2|]. exists d0. split; [right; exact K3|exact K4].
        * intro K. destruct (I2 K) as [K2 K3]. rewrite mget_mset in K2. destruct (str_eqb_spec s x) as [->|Nx]; [discriminate|]. split; [exact K2|].
          intros i Hi d0 [<-|Hin]; [|exact (K3 i Hi d0 Hin)]. cbn. apply not_eq_sym in Nx. apply str_eqb_neq in Nx. rewrite Nx, andb_false_r. reflexivity.
      + apply SK; [exact H|]. intros i Hi. unfold is_marker. destruct recv as [[|[|[x| | | | |]| | | |] more]|]; try reflexivity.
        destruct (str_eqb_spec n i) as [->|Nn]; [|reflexivity]. exfalso. assert (existsb (str_eqb i) ones = true) by (apply existsb_exists; exists i; split; [exact Hi|apply str_eqb_refl]). congruence.
  Qed.
End S.
