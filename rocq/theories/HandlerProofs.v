(** Proofs about regenerating a service file. *)
From Coq Require Import Permutation.
From Verif Require Import GoStr GoStrProofs GoMap Strs Handler HandlerSpec.

Section P.
  Variable upper : N -> bool.
  Notation own := (own upper).
  Notation exported := (exported upper).
  Notation prune_decls := (prune_decls upper).
  Notation edited := (edited upper).

  (** What the code calls the receiver. *)
  Definition recv_is (svc : str) (f : fundecl) : Prop := recv_type_to_string (fd_recv f) = Ret (T "*" ++ svc ++ T "Service").

  Lemma update_renamed : forall e n, renamed n e (update_type e n).
  Proof.
    intros e n. destruct e as [x|x s|[y|y t|y|y]|i]; cbn [update_type]; try (apply RenSame; intros; split; discriminate); [apply RenSel|apply RenStar].
  Qed.
  Lemma update_nth_0 : forall l n l', update_nth l 0 n = Some l' -> exists a r, l = a :: r /\ l' = mkAF (af_names a) (update_type (af_type a) n) :: r.
  Proof. intros [|a r] n l' H; [discriminate|]. injection H as <-. exists a, r. split; reflexivity. Qed.
  Lemma num_fields_acc : forall l k, fold_left (fun n f => n + match length (af_names f) with 0 => 1 | k => k end) l k = k + how_many l.
  Proof.
    induction l as [|a l IH]; intro k; cbn [fold_left]; [unfold how_many; cbn; lia|]. rewrite IH.
    change (how_many (a :: l)) with (Nat.max 1 (length (af_names a)) + how_many l). destruct (length (af_names a)); lia.
  Qed.
  Lemma num_fields_how : forall l, num_fields l = how_many l.
  Proof. intro l. unfold num_fields. rewrite num_fields_acc. reflexivity. Qed.
  Lemma declares_pos : forall a, 1 <= declares a.
  Proof. intro a. unfold declares. lia. Qed.
  Lemma how_cons : forall a l, how_many (a :: l) = declares a + how_many l.
  Proof. reflexivity. Qed.
  Lemma how_two : forall l, how_many l = 2 -> (exists a, l = [a] /\ declares a = 2) \/ exists a b, l = [a; b] /\ declares a = 1 /\ declares b = 1.
  Proof.
    intros [|a [|b [|c l]]] H; [discriminate| | |]; rewrite ?how_cons in H; pose proof (declares_pos a).
    - left. exists a. split; [reflexivity|]. change (how_many []) with 0 in H. lia.
    - right. pose proof (declares_pos b). exists a, b. split; [reflexivity|]. change (how_many []) with 0 in H. lia.
    - pose proof (declares_pos b). pose proof (declares_pos c). exfalso. lia.
  Qed.
  Lemma update_params_retyped : forall f r f1, update_params f r = Some f1 ->
    f1 = mkFun (fd_fname f) (fd_recv f) (fd_params f1) (fd_results f) (fd_body f) (fd_doc f) /\ param_retyped (rpc_req r) (fd_params f) (fd_params f1).
  Proof.
    intros f r f1 H. unfold update_params in H. rewrite num_fields_how in H. destruct (Nat.eqb_spec (how_many (fd_params f)) 2) as [E|N1].
    - destruct (how_two _ E) as [(a & Ea & Ha)|(a & b & Ea & Ha & Hb)]; rewrite Ea in *; cbn [update_nth] in H; [discriminate|]. injection H as <-. cbn [fd_params]. split; [reflexivity|].
      apply ParTwo; [exact Ha|exact Hb|apply update_renamed].
    - injection H as <-. destruct f; split; [reflexivity|apply ParOther; exact N1].
  Qed.
  Lemma update_results_retyped : forall f r f1, update_results f r = Some f1 ->
    f1 = mkFun (fd_fname f) (fd_recv f) (fd_params f) (fd_results f1) (fd_body f) (fd_doc f) /\ result_retyped (rpc_resp r) (fd_results f) (fd_results f1).
  Proof.
    intros f r f1 H. unfold update_results in H. rewrite num_fields_how in H. destruct (Nat.eqb_spec (how_many (fd_results f)) 2) as [E|N1].
    - destruct (how_two _ E) as [(a & Ea & Ha)|(a & b & Ea & Ha & Hb)]; rewrite Ea in *; cbn [update_nth] in H; injection H as <-; cbn [fd_results]; (split; [reflexivity|]).
      + apply ResShared; [exact Ha|apply update_renamed].
      + apply ResTwo; [exact Ha|exact Hb|apply update_renamed].
    - injection H as <-. destruct f; split; [reflexivity|apply ResOther; exact N1].
  Qed.
  Lemma updates_retyped : forall f r f1 f2, update_params f r = Some f1 -> update_results f1 r = Some f2 -> retyped r f f2.
  Proof.
    intros f r f1 f2 H1 H2. apply update_params_retyped in H1. apply update_results_retyped in H2. destruct H1 as [E1 P]. destruct H2 as [E2 R].
    rewrite E1 in E2, R. cbn [fd_fname fd_recv fd_params fd_results fd_body fd_doc] in E2, R. rewrite E2. destruct f. apply Retyped; [exact P|exact R].
  Qed.
  Lemma retyped_name : forall r f f', retyped r f f' -> fd_fname f' = fd_fname f /\ fd_recv f' = fd_recv f /\ fd_body f' = fd_body f /\ fd_doc f' = fd_doc f.
  Proof. intros r f f' []; repeat split. Qed.

  (** One step of the loop. *)
  Inductive step (svc : str) (m : gomap rpc) (d : decl) : option decl -> gomap rpc -> Prop :=
  | StOwn : own d = true -> step svc m d (Some d) m
  | StDrop : forall f, d = DFunc f -> own d = false ->
      mget m (fd_fname f) = None \/ (exists s, recv_type_to_string (fd_recv f) = Ret s /\ s <> T "*" ++ svc ++ T "Service") -> step svc m d None m
  | StHandler : forall f f1 f2 r, d = DFunc f -> own d = false -> mget m (fd_fname f) = Some r -> recv_is svc f ->
      update_params f r = Some f1 -> update_results f1 r = Some f2 -> step svc m d (Some (DFunc f2)) (mdel m (fd_fname f)).
  Lemma prune_step : forall d ds m svc res, prune_decls (d :: ds) m svc = Ret res ->
    exists o m1 kept' m', step svc m d o m1 /\ prune_decls ds m1 svc = Ret (kept', m') /\
      res = (match o with Some d' => d' :: kept' | None => kept' end, m').
  Proof.
    intros d ds m svc res H. cbn [Handler.prune_decls] in H.
    assert (Keep : forall d' m1, match prune_decls ds m1 svc with Ret (l, m') => Ret (d' :: l, m') | x => x end = Ret res ->
      exists kept' m', prune_decls ds m1 svc = Ret (kept', m') /\ res = (d' :: kept', m')).
    { intros d' m1 K. destruct (prune_decls ds m1 svc) as [[l m']| |]; try discriminate. injection K as <-. exists l, m'. split; reflexivity. }
    destruct d as [f|t].
    2: { destruct (Keep _ _ H) as (kept' & m' & K1 & ->). exists (Some (DOther t)), m, kept', m'. split; [apply StOwn; reflexivity|]. split; [exact K1|reflexivity]. }
    destruct (str_eqb (fd_fname f) ignored_func || negb (exported (fd_fname f))) eqn:Eo.
    { destruct (Keep _ _ H) as (kept' & m' & K1 & ->). exists (Some (DFunc f)), m, kept', m'. split; [apply StOwn; exact Eo|]. split; [exact K1|reflexivity]. }
    unfold is_valid_func in H. pose proof Eo as Eo'. apply orb_false_iff in Eo'. destruct Eo' as [_ Ee]. rewrite Ee in H.
    destruct (mget m (fd_fname f)) as [r|] eqn:Em.
    - destruct (recv_type_to_string (fd_recv f)) as [s| |] eqn:Er; try discriminate. destruct (str_eqb_spec s (T "*" ++ svc ++ T "Service")) as [->|N1].
      + destruct (update_params f r) as [f1|] eqn:E1; [|discriminate]. destruct (update_results f1 r) as [f2|] eqn:E2; [|discriminate].
        destruct (Keep _ _ H) as (kept' & m' & K1 & ->). eexists (Some (DFunc f2)), _, kept', m'. split; [eapply StHandler; eauto|]. split; [exact K1|reflexivity].
      + destruct res as [kept' m']. exists None, m, kept', m'. split; [eapply StDrop; [reflexivity|exact Eo|right; exists s; auto]|]. split; [exact H|reflexivity].
    - destruct res as [kept' m']. exists None, m, kept', m'. split; [eapply StDrop; [reflexivity|exact Eo|left; exact Em]|]. split; [exact H|reflexivity].
  Qed.

  Definition consistent (m : gomap rpc) : Prop := NoDup (keys m) /\ forall k r, mget m k = Some r -> rpc_name r = k.
  Lemma consistent_del : forall m k, consistent m -> consistent (mdel m k).
  Proof.
    intros m k [H1 H2]. split; [apply nodup_mdel; exact H1|]. intros j r. rewrite mget_mdel by exact H1. destruct (str_eqb j k); [discriminate|apply H2].
  Qed.
  (** The names of the handlers in a list of declarations. *)
  Definition handler_names (ds : list decl) : list str :=
    flat_map (fun d => match d with DFunc f => if own d then [] else [fd_fname f] | _ => [] end) ds.

  Lemma own_retyped : forall r f f', retyped r f f' -> own (DFunc f') = own (DFunc f).
  Proof. intros r f f' H. destruct (retyped_name r f f' H) as (E & _). unfold HandlerSpec.own. rewrite E. reflexivity. Qed.

  Lemma prune_facts : forall ds m svc kept m', consistent m -> prune_decls ds m svc = Ret (kept, m') ->
    consistent m' /\ (forall k r, mget m' k = Some r -> mget m k = Some r) /\
    filter own kept = filter own ds /\
    NoDup (handler_names kept) /\ (forall n, In n (keys m) <-> In n (handler_names kept) \/ In n (keys m')) /\
    (forall n, In n (handler_names kept) -> ~ In n (keys m')) /\
    (forall f, In (DFunc f) kept -> own (DFunc f) = false -> recv_is svc f) /\
    (forall ms, (forall k r, mget m k = Some r -> In r ms) -> edited ms ds kept).
  Proof.
    induction ds as [|d ds IH]; intros m svc kept m' Hm H.
    - cbn in H. injection H as <- <-. split; [exact Hm|]. split; [auto|]. split; [reflexivity|]. split; [constructor|]. split; [cbn; tauto|]. split; [cbn; tauto|]. split; [intros f []|]. intros ms _. apply EdNil.
    - apply prune_step in H. destruct H as (o & m1 & kept' & m2 & Hs & Hp & E). injection E as -> <-.
      inversion Hs as [Ho|f Ed Ho Hd|f f1 f2 r Ed Ho Hg Hr Hu1 Hu2]; subst.
      + destruct (IH _ _ _ _ Hm Hp) as (I1 & I2 & I3 & I4 & I5 & I6 & I7 & I8). split; [exact I1|]. split; [exact I2|].
        split; [cbn [filter]; rewrite Ho, I3; reflexivity|].
        assert (Hn : handler_names (d :: kept') = handler_names kept') by (unfold handler_names; cbn [flat_map]; destruct d as [f|]; [rewrite Ho|]; reflexivity).
        rewrite Hn. split; [exact I4|]. split; [exact I5|]. split; [exact I6|]. split.
        * intros f [->|Hf] K; [congruence|apply I7; assumption].
        * intros ms Hms. apply EdKeep; [exact Ho|apply I8; exact Hms].
      + destruct (IH _ _ _ _ Hm Hp) as (I1 & I2 & I3 & I4 & I5 & I6 & I7 & I8). split; [exact I1|]. split; [exact I2|].
        split; [cbn [filter]; rewrite Ho, I3; reflexivity|]. split; [exact I4|]. split; [exact I5|]. split; [exact I6|]. split; [exact I7|].
        intros ms Hms. apply EdDrop; [exact Ho|apply I8; exact Hms].
      + pose proof (updates_retyped _ _ _ _ Hu1 Hu2) as Hrt. destruct (retyped_name _ _ _ Hrt) as (En & Erecv & _).
        destruct (IH _ _ _ _ (consistent_del m (fd_fname f) Hm) Hp) as (I1 & I2 & I3 & I4 & I5 & I6 & I7 & I8).
        assert (Ho2 : own (DFunc f2) = false) by (rewrite (own_retyped _ _ _ Hrt); exact Ho).
        assert (Hn : handler_names (DFunc f2 :: kept') = fd_fname f :: handler_names kept') by (unfold handler_names; cbn [flat_map]; rewrite Ho2, En; reflexivity).
        destruct Hm as [Hnd Hcons].
        assert (Hdel : forall n, In n (keys (mdel m (fd_fname f))) <-> In n (keys m) /\ n <> fd_fname f) by (intro n; apply keys_mdel; exact Hnd).
        split; [exact I1|]. split. { intros k q K. specialize (I2 k q K). rewrite mget_mdel in I2 by exact Hnd. destruct (str_eqb k (fd_fname f)); [discriminate|exact I2]. }
        split; [cbn [filter]; rewrite Ho, Ho2, I3; reflexivity|]. rewrite Hn. split.
        { constructor; [|exact I4]. intro K. assert (K2 : In (fd_fname f) (keys (mdel m (fd_fname f)))) by (apply I5; left; exact K). apply Hdel in K2. tauto. }
        split. { intro n. cbn [In]. specialize (I5 n). rewrite Hdel in I5. destruct (str_eq_dec n (fd_fname f)) as [->|N1].
          - split; [auto|]. intros _. destruct (in_dec str_eq_dec (fd_fname f) (keys m)) as [Hi|Hi]; [exact Hi|]. apply mget_none in Hi. congruence.
          - split; [intro K; destruct (proj1 I5 (conj K N1)); auto|]. intros [[K|K]|K]; [congruence| |]; apply I5; auto. }
        split. { intros n [<-|K]; [|apply I6; exact K]. intro K. assert (K2 : In (fd_fname f) (keys (mdel m (fd_fname f)))) by (apply I5; right; exact K). apply Hdel in K2. tauto. }
        split. { intros g [[= <-]|Hg2] Hog; [|apply I7; assumption]. unfold recv_is. rewrite Erecv. exact Hr. }
        intros ms Hms. eapply EdRetype; [exact Ho|apply (Hms _ _ Hg)|apply Hcons; exact Hg|exact Hrt|].
        apply I8. intros k q K. rewrite mget_mdel in K by exact Hnd. destruct (str_eqb k (fd_fname f)); [discriminate|]. apply (Hms k q K).
  Qed.

  (** The first handler of an rpc is kept. *)
  Lemma prune_first : forall l1 f l2 m svc kept m' r, consistent m -> prune_decls (l1 ++ DFunc f :: l2) m svc = Ret (kept, m') ->
    own (DFunc f) = false -> mget m (fd_fname f) = Some r -> recv_is svc f ->
    (forall g, In (DFunc g) l1 -> fd_fname g = fd_fname f -> ~ recv_is svc g) ->
    exists k1 f' k2, kept = k1 ++ DFunc f' :: k2 /\ retyped r f f' /\ length k1 <= length l1.
  Proof.
    induction l1 as [|d l1 IH]; intros f l2 m svc kept m' r Hm H Ho Hg Hr Hno; cbn [app] in H; apply prune_step in H; destruct H as (o & m1 & kept' & m2 & Hs & Hp & E); injection E as -> <-.
    - inversion Hs as [Ho'|g Ed Ho' Hd|g f1 f2 r' Ed Ho' Hg' Hr' Hu1 Hu2]; subst; [congruence| |].
      + injection Ed as <-. destruct Hd as [Hd|(s & Hs' & Hd)]; [congruence|]. unfold recv_is in Hr. congruence.
      + injection Ed as <-. assert (r' = r) by congruence. subst r'. exists [], f2, kept'. split; [reflexivity|]. split; [apply (updates_retyped _ _ _ _ Hu1 Hu2)|auto].
    - assert (Hno' : forall g, In (DFunc g) l1 -> fd_fname g = fd_fname f -> ~ recv_is svc g) by (intros g Hi; apply Hno; right; exact Hi).
      assert (Hm1 : consistent m1 /\ mget m1 (fd_fname f) = Some r).
      { inversion Hs as [Ho'|g Ed Ho' Hd|g f1 f2 r' Ed Ho' Hg' Hr' Hu1 Hu2]; subst; auto. split; [apply consistent_del; exact Hm|].
        rewrite mget_mdel by apply Hm. destruct (str_eqb_spec (fd_fname f) (fd_fname g)) as [E|]; [|exact Hg]. exfalso. apply (Hno g); auto. left. reflexivity. }
      destruct Hm1 as [Hm1 Hg1]. destruct (IH f l2 m1 svc kept' m' r Hm1 Hp Ho Hg1 Hr Hno') as (k1 & f' & k2 & -> & Hrt & Hl).
      destruct o as [d'|]; [exists (d' :: k1)|exists k1]; exists f', k2; (split; [reflexivity|]); split; auto; cbn [length]; lia.
  Qed.

  (** A file that needs no change. *)
  Lemma prune_stable : forall ds m svc, NoDup (keys m) -> NoDup (handler_names ds) ->
    (forall f, In (DFunc f) ds -> own (DFunc f) = false -> recv_is svc f /\ exists r, mget m (fd_fname f) = Some r /\ update_params f r = Some f /\ update_results f r = Some f) ->
    exists m', prune_decls ds m svc = Ret (ds, m') /\ NoDup (keys m') /\ forall n, In n (keys m') <-> In n (keys m) /\ ~ In n (handler_names ds).
  Proof.
    induction ds as [|d ds IH]; intros m svc Hm Hn Hf; [exists m; split; [reflexivity|]; split; [exact Hm|]; cbn; tauto|].
    assert (Hf' : forall f, In (DFunc f) ds -> own (DFunc f) = false -> recv_is svc f /\ exists r, mget m (fd_fname f) = Some r /\ update_params f r = Some f /\ update_results f r = Some f) by (intros f Hi; apply Hf; right; exact Hi).
    destruct (own d) eqn:Ho.
    - assert (En : handler_names (d :: ds) = handler_names ds) by (unfold handler_names; cbn [flat_map]; destruct d as [f|]; [rewrite Ho|]; reflexivity).
      rewrite En in *. destruct (IH m svc Hm Hn Hf') as (m' & E & Hm' & Hk). exists m'. split; [|auto]. cbn [Handler.prune_decls]. destruct d as [f|t].
      + unfold HandlerSpec.own in Ho. change (T "NewService") with ignored_func in Ho. rewrite Ho, E. reflexivity.
      + rewrite E. reflexivity.
    - destruct d as [f|t]; [|discriminate]. assert (En : handler_names (DFunc f :: ds) = fd_fname f :: handler_names ds) by (unfold handler_names; cbn [flat_map]; rewrite Ho; reflexivity).
      rewrite En in *. inversion Hn as [|x y Hx Hy]; subst. destruct (Hf f (or_introl eq_refl) Ho) as (Hr & r & Hg & Hu1 & Hu2).
      destruct (IH (mdel m (fd_fname f)) svc (nodup_mdel m _ Hm) Hy) as (m' & E & Hm' & Hk).
      { intros g Hi Hog. destruct (Hf' g Hi Hog) as (Hr' & r' & Hg' & Hu'). split; [exact Hr'|]. exists r'. split; [|exact Hu'].
        rewrite mget_mdel by exact Hm. destruct (str_eqb_spec (fd_fname g) (fd_fname f)) as [Eg|]; [|exact Hg']. exfalso. apply Hx. rewrite <- Eg.
        unfold handler_names. apply in_flat_map. exists (DFunc g). split; [exact Hi|]. rewrite Hog. left. reflexivity. }
      exists m'. split.
      + cbn [Handler.prune_decls]. pose proof Ho as Ho'. unfold HandlerSpec.own in Ho'. change (T "NewService") with ignored_func in Ho'. rewrite Ho'.
        apply orb_false_iff in Ho'. destruct Ho' as [_ Ee]. unfold is_valid_func. rewrite Ee, Hg. unfold recv_is in Hr. rewrite Hr, str_eqb_refl, Hu1, Hu2, E. reflexivity.
      + split; [exact Hm'|]. intro n. rewrite Hk, keys_mdel by exact Hm. cbn [In]. split; [intros [[K1 K2] K3]; split; [exact K1|]; intros [K|K]; auto|]. intros [K1 K2]. split; [split; [exact K1|intro; apply K2; auto]|intro; apply K2; auto].
  Qed.

  (** The receiver, in words. *)
  Lemma recv_right : forall svc f, ~ In c_dot svc -> (forall a rest n, fd_recv f = Some (a :: rest) -> af_type a = EIdent n -> ~ In c_star n) ->
    (recv_is (to_lower svc) f <-> right_receiver svc f).
  Proof.
    intros svc f Hd Hs. assert (Hd' : ~ In c_dot (to_lower svc ++ T "Service")).
    { intro K. apply in_app_or in K. destruct K as [K|K].
      - unfold to_lower in K. apply in_map_iff in K. destruct K as (c & Ec & Hc). apply Hd. assert (c = c_dot); [|subst; exact Hc].
        unfold lower1, c_dot in *. destruct (is_upper c) eqn:Eu; [|exact Ec]. unfold is_upper in Eu. apply in_range_spec in Eu. lia.
      - vm_compute in K. repeat destruct K as [K|K]; discriminate || contradiction. }
    unfold recv_is, right_receiver. split.
    - intro H. destruct (fd_recv f) as [[|[names ty] rest]|] eqn:Er; [discriminate| |cbn in H; discriminate].
      cbn [recv_type_to_string af_type] in H. exists names, rest. f_equal. f_equal. f_equal.
      specialize (Hs (mkAF names ty) rest). cbn [af_type] in Hs. unfold expr_string in H.
      destruct ty as [x|x s|[x|x s|x|i]|i]; cbn in H; try discriminate.
      + injection H as H. exfalso. apply (Hs x eq_refl eq_refl). rewrite H. left. reflexivity.
      + destruct x as [y| | |]; try discriminate. injection H as H. exfalso. destruct y as [|c y].
        * cbn in H. injection H as H1 H2. discriminate H1.
        * cbn in H. injection H as H1 H2. apply Hd'. change (T "Service") with [83; 101; 114; 118; 105; 99; 101]%N. rewrite <- H2. apply in_app_iff. right. left. reflexivity.
      + injection H as H. rewrite H. reflexivity.
      + destruct x as [y| | |]; try discriminate. injection H as H. exfalso. apply Hd'. change (T "Service") with [83; 101; 114; 118; 105; 99; 101]%N. rewrite <- H. apply in_app_iff. right. left. reflexivity.
    - intros (names & rest & ->). reflexivity.
  Qed.
End P.
