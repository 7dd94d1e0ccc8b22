(** C35-C38: regenerating the service file. *)
From Coq Require Import Permutation.
From Verif Require Import GoStr GoStrProofs GoMap Strs Handler HandlerSpec HandlerProofs.

Section P.
  Variable upper : N -> bool.
  Notation own := (own upper).
  Notation exported := (exported upper).
  Notation prune_decls := (prune_decls upper).
  Notation edited := (edited upper).
  Notation handlers := (handlers upper).
  Notation render := (render upper).
  Notation good_rpcs := (good_rpcs upper).
  Notation handler_names := (handler_names upper).

  (** ** The method map *)
  Lemma method_map_gen : forall ms m, NoDup (map rpc_name ms) -> consistent m -> (forall r, In r ms -> ~ In (rpc_name r) (keys m)) ->
    let m' := fold_left (fun m r => mset m (rpc_name r) r) ms m in
    consistent m' /\ forall k r, mget m' k = Some r <-> mget m k = Some r \/ In r ms /\ rpc_name r = k.
  Proof.
    induction ms as [|r0 ms IH]; intros m Hn Hc Hf; cbn [fold_left].
    - split; [exact Hc|]. intros k r. cbn. tauto.
    - inversion Hn as [|x y Hx Hy]; subst. destruct (IH (mset m (rpc_name r0) r0) Hy) as [H1 H2].
      + destruct Hc as [C1 C2]. split; [apply nodup_mset; exact C1|]. intros k r. rewrite mget_mset. destruct (str_eqb_spec k (rpc_name r0)) as [->|N1]; [congruence|apply C2].
      + intros r Hr K. apply keys_mset in K. destruct K as [K|K]; [apply (Hf r); [right; exact Hr|exact K]|]. apply Hx. rewrite <- K. apply in_map. exact Hr.
      + split; [exact H1|]. intros k r. rewrite H2, mget_mset. specialize (Hf r0 (or_introl eq_refl)). destruct (str_eqb_spec k (rpc_name r0)) as [->|N1].
        * apply mget_none in Hf. rewrite Hf. cbn [In]. split; [intros [[= <-]|[K1 K2]]; auto|]. intros [K|[[K1|K1] K2]]; [discriminate|subst; auto|auto].
        * cbn [In]. split; [intros [K|[K1 K2]]; auto|]. intros [K|[[K1|K1] K2]]; [auto|subst; congruence|auto].
  Qed.
  Lemma method_map : forall ms, NoDup (map rpc_name ms) -> consistent (new_method_map ms) /\ forall k r, mget (new_method_map ms) k = Some r <-> In r ms /\ rpc_name r = k.
  Proof.
    intros ms H. destruct (method_map_gen ms [] H) as [H1 H2].
    - split; [constructor|intros k r K; discriminate].
    - intros r _ [].
    - split; [exact H1|]. intros k r. unfold new_method_map. rewrite H2. cbn. split; [intros [K|K]; [discriminate|exact K]|auto].
  Qed.
  Lemma map_snd : forall (m : gomap rpc) r, consistent m -> (In r (map snd m) <-> mget m (rpc_name r) = Some r).
  Proof.
    intros m r [H1 H2]. rewrite in_map_iff. split.
    - intros ([k v] & <- & Hi). cbn [snd]. apply (mget_in m k v H1) in Hi. rewrite (H2 _ _ Hi). exact Hi.
    - intro K. exists (rpc_name r, r). split; [reflexivity|]. apply mget_in; assumption.
  Qed.
  Lemma names_snd : forall m : gomap rpc, consistent m -> map rpc_name (map snd m) = keys m.
  Proof.
    intros m [H1 H2]. unfold keys. rewrite map_map. apply map_ext_in. intros [k v] Hi. cbn. apply H2. apply mget_in; assumption.
  Qed.
  Lemma handlers_names : forall ds, map fd_fname (handlers ds) = handler_names ds.
  Proof.
    induction ds as [|d ds IH]; [reflexivity|]. unfold HandlerSpec.handlers, HandlerProofs.handler_names in *. cbn [flat_map]. rewrite map_app, IH. f_equal.
    destruct d as [f|]; [destruct (own (DFunc f))|]; reflexivity.
  Qed.
  Lemma handlers_app : forall a b, handlers (a ++ b) = handlers a ++ handlers b.
  Proof. intros. unfold HandlerSpec.handlers. apply flat_map_app. Qed.
  Lemma in_handlers : forall f ds, In f (handlers ds) <-> In (DFunc f) ds /\ own (DFunc f) = false.
  Proof.
    intros f ds. unfold HandlerSpec.handlers. rewrite in_flat_map. split.
    - intros (d & Hd & Hf). destruct d as [g|]; [|destruct Hf]. destruct (own (DFunc g)) eqn:E; [destruct Hf|]. destruct Hf as [<-|[]]. auto.
    - intros [H1 H2]. exists (DFunc f). split; [exact H1|]. rewrite H2. left. reflexivity.
  Qed.
  Lemma template_not_own : forall svc r, exported (rpc_name r) = true -> rpc_name r <> T "NewService" -> own (template_handler svc r) = false.
  Proof.
    intros svc r H1 H2. unfold template_handler, HandlerSpec.own. cbn [fd_fname]. rewrite H1. apply str_eqb_neq in H2. rewrite H2. reflexivity.
  Qed.
  Lemma handlers_template : forall svc l, (forall r, In r l -> exported (rpc_name r) = true /\ rpc_name r <> T "NewService") ->
    map DFunc (handlers (map (template_handler svc) l)) = map (template_handler svc) l /\ map fd_fname (handlers (map (template_handler svc) l)) = map rpc_name l /\
    filter own (map (template_handler svc) l) = [].
  Proof.
    induction l as [|r l IH]; intro H; [repeat split|]. destruct IH as (I1 & I2 & I3); [intros q Hq; apply H; right; exact Hq|].
    destruct (H r (or_introl eq_refl)) as [E1 E2]. pose proof (template_not_own svc r E1 E2) as E. cbn [map filter]. rewrite E, I3. unfold HandlerSpec.handlers. cbn [flat_map].
    destruct (template_handler svc r) as [g|t] eqn:Eg; [|discriminate]. rewrite E. cbn [app map]. fold (handlers (map (template_handler svc) l)). rewrite I1, I2.
    unfold template_handler in Eg. injection Eg as <-. repeat split.
  Qed.

  (** ** C35 *)
  Lemma render_inv : forall svc ms ds out, render svc ms (Some ds) (Ret out) ->
    exists kept m order, prune_decls ds (new_method_map ms) (to_lower svc) = Ret (kept, m) /\ Permutation order (map snd m) /\ out = kept ++ map (template_handler svc) order.
  Proof. intros svc ms ds out H. inversion H as [|ds' Hp|ds' kept m order Hp Ho]; subst. exists kept, m, order. auto. Qed.

  (** What a successful regeneration is made of. *)
  Lemma render_facts : forall svc ms ds out, good_rpcs ms -> render svc ms (Some ds) (Ret out) ->
    exists kept order, out = kept ++ map (template_handler svc) order /\ edited ms ds kept /\ filter own kept = filter own ds /\
      NoDup (handler_names kept) /\ NoDup (map rpc_name order) /\
      (forall f, In (DFunc f) kept -> own (DFunc f) = false -> recv_is (to_lower svc) f) /\
      (forall r, In r order <-> In r ms /\ ~ In (rpc_name r) (handler_names kept)) /\ incl (handler_names kept) (map rpc_name ms) /\
      exists m, prune_decls ds (new_method_map ms) (to_lower svc) = Ret (kept, m).
  Proof.
    intros svc ms ds out [Hn Hg] H. destruct (render_inv _ _ _ _ H) as (kept & m & order & Hp & Ho & ->). destruct (method_map ms Hn) as [Hc Hmm].
    destruct (prune_facts upper _ _ _ _ _ Hc Hp) as (F1 & F2 & F3 & F4 & F5 & F6 & F7 & F8). exists kept, order.
    split; [reflexivity|]. split; [apply F8; intros k r K; apply Hmm in K; apply K|]. split; [exact F3|]. split; [exact F4|]. split.
    { eapply Permutation_NoDup; [apply Permutation_sym, Permutation_map, Ho|]. rewrite (names_snd _ F1). apply F1. }
    split; [exact F7|]. assert (Hk : forall n, In n (keys (new_method_map ms)) <-> In n (map rpc_name ms)).
    { intro n. rewrite in_map_iff. split.
      - intro K. destruct (mget (new_method_map ms) n) as [r|] eqn:E; [|apply mget_none in E; contradiction]. apply Hmm in E. exists r. tauto.
      - intros (r & <- & Hr). destruct (in_dec str_eq_dec (rpc_name r) (keys (new_method_map ms))) as [Hi|Hi]; [exact Hi|]. apply mget_none in Hi.
        assert (K : mget (new_method_map ms) (rpc_name r) = Some r) by (apply Hmm; auto). congruence. }
    split.
    - intro r. assert (E1 : In r order <-> In r (map snd m)) by (split; apply Permutation_in; [exact Ho|apply Permutation_sym; exact Ho]). rewrite E1, (map_snd m r F1). split.
      + intro K. split; [apply F2 in K; apply Hmm in K; apply K|]. intro K2. apply (F6 _ K2). destruct (in_dec str_eq_dec (rpc_name r) (keys m)) as [Hi|Hi]; [exact Hi|]. apply mget_none in Hi. congruence.
      + intros [K1 K2]. assert (K3 : In (rpc_name r) (keys m)). { destruct (proj1 (F5 (rpc_name r))) as [K|K]; [|contradiction|exact K]. apply Hk, in_map, K1. }
        destruct (mget m (rpc_name r)) as [q|] eqn:E; [|apply mget_none in E; contradiction]. pose proof (F2 _ _ E) as Eq. apply Hmm in Eq. destruct Eq as [Q1 Q2].
        assert (K4 : mget (new_method_map ms) (rpc_name r) = Some r) by (apply Hmm; auto). pose proof (F2 _ _ E) as Eq. congruence.
    - split; [intros n K; apply Hk, F5; auto|]. exists m. exact Hp.
  Qed.

  Theorem regeneration_keeps_own_code : forall svc ms ds out, good_rpcs ms -> render svc ms (Some ds) (Ret out) -> filter own out = filter own ds.
  Proof.
    intros svc ms ds out Hg H. destruct (render_facts _ _ _ _ Hg H) as (kept & order & -> & _ & F3 & _ & _ & _ & F7 & _). rewrite filter_app, F3.
    destruct (handlers_template svc order) as (_ & _ & E); [intros r Hr; apply Hg; apply F7; exact Hr|]. rewrite E, app_nil_r. reflexivity.
  Qed.
  (** The first file, and every other: NewService and the type come first. *)
  Theorem first_file_own_code : forall svc ms, good_rpcs ms -> exists imp new ty, filter own (first_file svc ms) = [imp; DFunc new; ty] /\ fd_fname new = T "NewService".
  Proof.
    intros svc ms Hg. unfold first_file. cbn [filter]. destruct (handlers_template svc ms) as (_ & _ & E); [apply Hg|]. unfold HandlerSpec.own at 1 2 3. cbn [fd_fname]. unfold ignored_func. rewrite str_eqb_refl. cbn [orb].
    rewrite E. eexists _, _, _. split; reflexivity.
  Qed.

  (** ** C36 *)
  Lemma nodup_app_intro : forall (A : Type) (a b : list A), NoDup a -> NoDup b -> (forall x, In x a -> ~ In x b) -> NoDup (a ++ b).
  Proof.
    induction a as [|x a IH]; intros b Ha Hb Hd; [exact Hb|]. inversion Ha; subst. cbn [app]. constructor.
    - intro K. apply in_app_or in K. destruct K as [K|K]; [contradiction|]. apply (Hd x); [left; reflexivity|exact K].
    - apply IH; auto. intros y Hy. apply Hd. right. exact Hy.
  Qed.
  (** Receivers are never made. *)
  Lemma edited_recv : forall ms ds kept, edited ms ds kept -> go_receivers ds -> go_receivers kept.
  Proof.
    intros ms ds kept H. induction H as [|d l l' Ho H IH|f l l' Ho H IH|f f' r l l' Ho Hr Hn Ht H IH]; intro Hg; [exact Hg| | |].
    - assert (Hg' : go_receivers l') by (apply IH; intros f a rest Hi; apply Hg; right; exact Hi). intros f a rest [->|Hi]; [apply Hg; left; reflexivity|apply Hg'; exact Hi].
    - apply IH. intros g a rest Hi. apply Hg. right. exact Hi.
    - assert (Hg' : go_receivers l') by (apply IH; intros g a rest Hi; apply Hg; right; exact Hi). intros g a rest [[= <-]|Hi]; [|apply Hg'; exact Hi].
      destruct (retyped_name _ _ _ Ht) as (_ & -> & _). apply Hg. left. reflexivity.
  Qed.
  Theorem one_handler_per_rpc : forall svc ms prev out, good_rpcs ms -> ~ In c_dot svc -> match prev with Some ds => go_receivers ds | None => True end ->
    render svc ms prev (Ret out) -> Permutation (map fd_fname (handlers out)) (map rpc_name ms) /\ forall f, In f (handlers out) -> right_receiver svc f.
  Proof.
    intros svc ms prev out Hg Hd Hr H. assert (Ht : forall l f, In (DFunc f) (map (template_handler svc) l) -> right_receiver svc f).
    { intros l f K. apply in_map_iff in K. destruct K as (r & E & _). unfold template_handler in E. injection E as <-. unfold right_receiver. cbn [fd_recv]. eexists _, _. reflexivity. }
    destruct prev as [ds|].
    - destruct (render_facts _ _ _ _ Hg H) as (kept & order & -> & F2 & F3 & F4 & F5 & F6 & F7 & F8 & _).
      destruct (handlers_template svc order) as (E1 & E2 & E3); [intros r K; apply Hg; apply F7; exact K|]. rewrite handlers_app, map_app, E2, handlers_names. split.
      + apply NoDup_Permutation; [|apply Hg|].
        * apply nodup_app_intro; [exact F4|exact F5|]. intros n K1 K2. apply in_map_iff in K2. destruct K2 as (r & <- & K2). apply F7 in K2. apply K2. exact K1.
        * intro n. rewrite in_app_iff. split.
          { intros [K|K]; [apply F8; exact K|]. apply in_map_iff in K. destruct K as (r & <- & K). apply in_map, F7, K. }
          { intro K. destruct (in_dec str_eq_dec n (handler_names kept)) as [Hi|Hi]; [auto|]. right. apply in_map_iff in K. destruct K as (r & <- & K). apply in_map, F7. auto. }
      + intros f K. apply in_app_or in K. destruct K as [K|K].
        * apply in_handlers in K. destruct K as [K1 K2]. apply recv_right; [exact Hd| |apply F6; assumption].
          intros a rest n Er Et. apply (edited_recv _ _ _ F2 Hr f a rest K1 Er n Et).
        * apply (Ht order). apply (proj1 (proj1 (in_handlers _ _) K)).
    - inversion H as [E| |]; subst. destruct (handlers_template svc ms) as (E1 & E2 & E3); [apply Hg|]. unfold first_file, HandlerSpec.handlers. cbn [flat_map]. unfold HandlerSpec.own at 1 3. cbn [fd_fname].
      unfold ignored_func. rewrite str_eqb_refl. cbn [orb app]. fold (handlers (map (template_handler svc) ms)). split; [rewrite E2; apply Permutation_refl|].
      intros f K. apply (Ht ms). apply (proj1 (proj1 (in_handlers _ _) K)).
  Qed.

  (** ** C37 *)
  Lemma right_dec : forall svc f, recv_is svc f \/ ~ recv_is svc f.
  Proof.
    intros svc f. unfold recv_is. destruct (recv_type_to_string (fd_recv f)) as [s| |]; [|right; discriminate|right; discriminate].
    destruct (str_eq_dec s (T "*" ++ svc ++ T "Service")) as [->|N1]; [auto|right; congruence].
  Qed.
  (** The first handler of an rpc keeps its name, receiver, body and comment; its types are those of the rpc. *)
  Theorem first_handler_kept : forall svc ms ds out r l1 f l2, good_rpcs ms -> ~ In c_dot svc -> go_receivers ds -> render svc ms (Some ds) (Ret out) ->
    In r ms -> ds = l1 ++ DFunc f :: l2 -> fd_fname f = rpc_name r -> right_receiver svc f ->
    (forall g, In (DFunc g) l1 -> fd_fname g = rpc_name r -> ~ right_receiver svc g) ->
    exists o1 f' o2, out = o1 ++ DFunc f' :: o2 /\ retyped r f f'.
  Proof.
    intros svc ms ds out r l1 f l2 Hg Hd Hr H Hi -> En Hf Hno. destruct (render_inv _ _ _ _ H) as (kept & m & order & Hp & Ho & ->). destruct (method_map ms (proj1 Hg)) as [Hc Hmm].
    assert (HR : forall g, In (DFunc g) (l1 ++ DFunc f :: l2) -> (recv_is (to_lower svc) g <-> right_receiver svc g)).
    { intros g K. apply recv_right; [exact Hd|]. intros a rest n Er Et. exact (Hr g a rest K Er n Et). }
    destruct (prune_first upper l1 f l2 _ _ _ _ r Hc Hp) as (k1 & f' & k2 & -> & Ht & _).
    - unfold HandlerSpec.own. rewrite En. destruct (proj2 Hg r Hi) as [E1 E2]. rewrite E1. apply str_eqb_neq in E2. rewrite E2. reflexivity.
    - apply Hmm. auto.
    - apply HR; [apply in_or_app; right; left; reflexivity|exact Hf].
    - intros g K1 K2 K3. apply (Hno g K1); [congruence|]. apply HR; [apply in_or_app; left; exact K1|exact K3].
    - exists k1, f', (k2 ++ map (template_handler svc) order). split; [rewrite <- app_assoc; reflexivity|exact Ht].
  Qed.
  Lemma edited_from : forall ms ds kept, edited ms ds kept -> forall f', In (DFunc f') kept -> own (DFunc f') = false ->
    exists f r, In (DFunc f) ds /\ In r ms /\ rpc_name r = fd_fname f /\ retyped r f f'.
  Proof.
    intros ms ds kept H. induction H as [|d l l' Ho H IH|f l l' Ho H IH|f g r l l' Ho Hr Hn Ht H IH]; intros f' Hi Hf; [destruct Hi| | |].
    - destruct Hi as [->|Hi]; [congruence|]. destruct (IH f' Hi Hf) as (f & r & K & K2). exists f, r. split; [right; exact K|exact K2].
    - destruct (IH f' Hi Hf) as (g & r & K & K2). exists g, r. split; [right; exact K|exact K2].
    - destruct Hi as [[= <-]|Hi]; [exists f, r; split; [left; reflexivity|auto]|]. destruct (IH f' Hi Hf) as (h & q & K & K2). exists h, q. split; [right; exact K|exact K2].
  Qed.
  Lemma first_split : forall svc n ds f, In (DFunc f) ds -> fd_fname f = n -> recv_is svc f ->
    exists l1 g l2, ds = l1 ++ DFunc g :: l2 /\ fd_fname g = n /\ recv_is svc g /\ forall h, In (DFunc h) l1 -> fd_fname h = n -> ~ recv_is svc h.
  Proof.
    intros svc n. induction ds as [|d ds IH]; intros f Hi Hn Hr; [destruct Hi|].
    assert (D : (exists g, d = DFunc g /\ fd_fname g = n /\ recv_is svc g) \/ ~ exists g, d = DFunc g /\ fd_fname g = n /\ recv_is svc g).
    { destruct d as [g|t]; [|right; intros (g & K & _); discriminate]. destruct (str_eq_dec (fd_fname g) n) as [E|N1]; [|right; intros (h & [= <-] & K & _); auto].
      destruct (right_dec svc g) as [K|K]; [left; exists g; auto|right; intros (h & [= <-] & _ & K2); auto]. }
    destruct D as [(g & -> & K1 & K2)|D]; [exists [], g, ds; split; [reflexivity|]; split; [exact K1|]; split; [exact K2|intros h []]|].
    destruct Hi as [->|Hi]; [exfalso; apply D; exists f; auto|]. destruct (IH f Hi Hn Hr) as (l1 & g & l2 & -> & K1 & K2 & K3). exists (d :: l1), g, l2.
    split; [reflexivity|]. split; [exact K1|]. split; [exact K2|]. intros h [->|Hh] En Hh2; [apply D; exists h; auto|apply (K3 h Hh En Hh2)].
  Qed.
  (** The file is its old declarations, some functions dropped or retyped, and after them a new handler for
      each rpc that had none. *)
  Theorem regenerated_file : forall svc ms ds out, good_rpcs ms -> ~ In c_dot svc -> go_receivers ds -> render svc ms (Some ds) (Ret out) ->
    exists kept order, out = kept ++ map (template_handler svc) order /\ edited ms ds kept /\ NoDup order /\
      forall r, In r order <-> In r ms /\ ~ exists d, In d ds /\ handles svc (rpc_name r) d.
  Proof.
    intros svc ms ds out Hg Hd Hr H. destruct (render_facts _ _ _ _ Hg H) as (kept & order & E & F2 & F3 & F4 & F5 & F6 & F7 & F8 & m & Hp). exists kept, order.
    split; [exact E|]. split; [exact F2|]. split; [apply (NoDup_map_inv _ _ F5)|].
    assert (HR : forall g, In (DFunc g) ds -> (recv_is (to_lower svc) g <-> right_receiver svc g)).
    { intros g K. apply recv_right; [exact Hd|]. intros a rest n Er Et. exact (Hr g a rest K Er n Et). }
    intro r. rewrite F7. split; intros [K1 K2]; (split; [exact K1|]); intro K3; apply K2; clear K2.
    - destruct K3 as (d & Hi & f & -> & En & Hf). apply HR in Hf; [|exact Hi]. destruct (first_split _ (rpc_name r) ds f Hi En Hf) as (l1 & g & l2 & El & Eg & Rg & Hno).
      destruct (method_map ms (proj1 Hg)) as [Hc Hmm].
      assert (Og : own (DFunc g) = false). { unfold HandlerSpec.own. rewrite Eg. destruct (proj2 Hg r K1) as [E1 E2]. rewrite E1. apply str_eqb_neq in E2. rewrite E2. reflexivity. }
      rewrite El in Hp. destruct (prune_first upper l1 g l2 _ _ _ _ r Hc Hp Og) as (k1 & f' & k2 & Ek & Ht & _).
      + apply Hmm. auto.
      + exact Rg.
      + intros h K4 K5. apply Hno; [exact K4|congruence].
      + destruct (retyped_name _ _ _ Ht) as (En' & Er' & _). rewrite <- handlers_names, <- Eg, <- En'. apply in_map, in_handlers.
        split; [rewrite Ek; apply in_or_app; right; left; reflexivity|rewrite (own_retyped upper _ _ _ Ht); exact Og].
    - rewrite <- handlers_names in K3. apply in_map_iff in K3. destruct K3 as (f' & En & K3). apply in_handlers in K3. destruct K3 as [K3 K4].
      destruct (edited_from _ _ _ F2 f' K3 K4) as (f & q & Q1 & Q2 & Q3 & Q4). destruct (retyped_name _ _ _ Q4) as (En' & Er' & _).
      exists (DFunc f). split; [exact Q1|]. exists f. split; [reflexivity|]. split; [congruence|]. apply HR; [exact Q1|]. pose proof (F6 f' K3 K4) as K5. unfold recv_is in *. rewrite <- Er'. exact K5.
  Qed.

  (** ** C38 *)
  Lemma update_type_fix : forall n e t, renamed n e t -> update_type t n = t.
  Proof.
    intros n e t H. destruct H as [x s0|x s0|e H]; [reflexivity|reflexivity|]. destruct e as [x|x s0|[x|x s0|x|x]|i]; try reflexivity; exfalso.
    - apply (proj1 (H x s0)). reflexivity.
    - apply (proj2 (H x s0)). reflexivity.
  Qed.
  Lemma with_type_declares : forall a t, declares (with_type a t) = declares a.
  Proof. reflexivity. Qed.
  Lemma retyped_fix : forall r f f', retyped r f f' -> update_params f' r = Some f' /\ update_results f' r = Some f'.
  Proof.
    intros r f f' []. unfold update_params, update_results. cbn [fd_params fd_results]. rewrite !num_fields_how. split.
    - destruct H as [a b t Ha Hb Ht|l Hl].
      + rewrite !how_cons, with_type_declares, Ha, Hb. change (1 + (1 + how_many [])) with 2. cbn [Nat.eqb update_nth]. cbn [with_type af_names af_type]. rewrite (update_type_fix _ _ _ Ht). reflexivity.
      + destruct (Nat.eqb_spec (how_many l) 2); [contradiction|reflexivity].
    - destruct H0 as [a b t Ha Hb Ht|a t Ha Ht|l Hl].
      + rewrite !how_cons, with_type_declares, Ha, Hb. change (1 + (1 + how_many [])) with 2. cbn [Nat.eqb update_nth]. cbn [with_type af_names af_type]. rewrite (update_type_fix _ _ _ Ht). reflexivity.
      + rewrite !how_cons, with_type_declares, Ha. change (2 + how_many []) with 2. cbn [Nat.eqb update_nth]. cbn [with_type af_names af_type]. rewrite (update_type_fix _ _ _ Ht). reflexivity.
      + destruct (Nat.eqb_spec (how_many l) 2); [contradiction|reflexivity].
  Qed.
  Lemma template_fix : forall svc r f, go_camel_case (rpc_req r) = rpc_req r -> go_camel_case (rpc_resp r) = rpc_resp r -> template_handler svc r = DFunc f ->
    update_params f r = Some f /\ update_results f r = Some f /\ recv_is (to_lower svc) f /\ fd_fname f = rpc_name r.
  Proof. intros svc r f H1 H2 H. unfold template_handler in H. rewrite H1, H2 in H. injection H as <-. split; [reflexivity|]. split; [reflexivity|]. split; reflexivity. Qed.

  (** A file in which every rpc has its handler, with its types. *)
  Lemma render_stable : forall svc ms ds res, good_rpcs ms -> NoDup (handler_names ds) ->
    (forall n, In n (handler_names ds) <-> In n (map rpc_name ms)) ->
    (forall f, In (DFunc f) ds -> own (DFunc f) = false -> recv_is (to_lower svc) f /\ exists r, In r ms /\ rpc_name r = fd_fname f /\ update_params f r = Some f /\ update_results f r = Some f) ->
    render svc ms (Some ds) res -> res = Ret ds.
  Proof.
    intros svc ms ds res Hg Hn Hk Hf H. destruct (method_map ms (proj1 Hg)) as [Hc Hmm].
    destruct (prune_stable upper ds (new_method_map ms) (to_lower svc) (proj1 Hc) Hn) as (m' & E & Hm' & Hkm).
    { intros f K1 K2. destruct (Hf f K1 K2) as (R & r & Q1 & Q2 & Q3). split; [exact R|]. exists r. split; [apply Hmm; auto|exact Q3]. }
    assert (m' = []).
    { destruct m' as [|[k v] m']; [reflexivity|exfalso]. assert (K : In k (keys ((k, v) :: m'))) by (left; reflexivity). apply Hkm in K. destruct K as [K1 K2]. apply K2, Hk.
      destruct (mget (new_method_map ms) k) as [r|] eqn:Er; [|apply mget_none in Er; contradiction]. apply Hmm in Er. destruct Er as [Er <-]. apply in_map, Er. }
    subst m'. inversion H as [|ds' Hp|ds' kept m order Hp Ho]; subst; [congruence|]. rewrite E in Hp. injection Hp as <- <-. cbn [map] in Ho. apply Permutation_sym, Permutation_nil in Ho. subst order. cbn [map]. rewrite app_nil_r. reflexivity.
  Qed.

  (** Rendering again changes nothing (and does not panic). *)
  Theorem regeneration_idempotent : forall svc ms prev out res, good_rpcs ms ->
    (forall r, In r ms -> go_camel_case (rpc_req r) = rpc_req r /\ go_camel_case (rpc_resp r) = rpc_resp r) ->
    render svc ms prev (Ret out) -> render svc ms (Some out) res -> res = Ret out.
  Proof.
    intros svc ms prev out res Hg Hcc H H2.
    assert (Hperm : forall l f, In (DFunc f) (map (template_handler svc) l) -> (forall r, In r l -> In r ms) -> recv_is (to_lower svc) f /\ exists r, In r ms /\ rpc_name r = fd_fname f /\ update_params f r = Some f /\ update_results f r = Some f).
    { intros l f K Hl. apply in_map_iff in K. destruct K as (r & E & K). destruct (Hcc r (Hl r K)) as [C1 C2]. destruct (template_fix svc r f C1 C2 E) as (U1 & U2 & U3 & U4). split; [exact U3|]. exists r. auto. }
    destruct prev as [ds|].
    - destruct (render_facts _ _ _ _ Hg H) as (kept & order & -> & F2 & F3 & F4 & F5 & F6 & F7 & F8 & _).
      destruct (handlers_template svc order) as (E1 & E2 & E3); [intros r K; apply Hg; apply F7; exact K|].
      assert (En : handler_names (kept ++ map (template_handler svc) order) = handler_names kept ++ map rpc_name order) by (rewrite <- !handlers_names, handlers_app, map_app, E2; reflexivity).
      eapply render_stable; [exact Hg| | | |exact H2]; rewrite ?En.
      + apply nodup_app_intro; [exact F4|exact F5|]. intros n K1 K2. apply in_map_iff in K2. destruct K2 as (r & <- & K2). apply F7 in K2. apply K2. exact K1.
      + intro n. rewrite in_app_iff. split.
        * intros [K|K]; [apply F8; exact K|]. apply in_map_iff in K. destruct K as (r & <- & K). apply in_map, F7, K.
        * intro K. destruct (in_dec str_eq_dec n (handler_names kept)) as [Hi|Hi]; [auto|]. right. apply in_map_iff in K. destruct K as (r & <- & K). apply in_map, F7. auto.
      + intros f K Ho. apply in_app_or in K. destruct K as [K|K].
        * split; [apply F6; assumption|]. destruct (edited_from _ _ _ F2 f K Ho) as (g & r & Q1 & Q2 & Q3 & Q4). exists r. split; [exact Q2|]. destruct (retyped_name _ _ _ Q4) as (Q5 & _). split; [congruence|]. apply (retyped_fix _ _ _ Q4).
        * apply (Hperm order); [exact K|]. intros r Hr. apply F7, Hr.
    - inversion H as [E| |]; subst. destruct (handlers_template svc ms) as (E1 & E2 & E3); [apply Hg|].
      assert (En : handler_names (first_file svc ms) = map rpc_name ms).
      { rewrite <- E2. rewrite <- handlers_names. unfold first_file, HandlerSpec.handlers. cbn [flat_map]. unfold HandlerSpec.own at 1. cbn [fd_fname].
        unfold ignored_func. rewrite str_eqb_refl. cbn [orb app]. reflexivity. }
      eapply render_stable; [exact Hg| | | |exact H2]; rewrite ?En.
      + apply Hg.
      + tauto.
      + intros f K Ho. unfold first_file in K. destruct K as [K|[K|[K|K]]]; try discriminate.
        * injection K as <-. unfold HandlerSpec.own in Ho. cbn [fd_fname] in Ho. unfold ignored_func in Ho. rewrite str_eqb_refl in Ho. discriminate.
        * apply (Hperm ms); [exact K|auto].
  Qed.

  (** ** When it works at all *)
  Theorem regeneration_does_not_panic : forall svc ms ds, 
    (forall f, In (DFunc f) ds -> own (DFunc f) = false -> fd_recv f <> Some [] /\ forall a, fd_params f = [a] -> declares a <> 2) ->
    ~ render svc ms (Some ds) Panic /\ exists out, render svc ms (Some ds) (Ret out).
  Proof.
    intros svc ms ds Hf. assert (K : forall m, exists kept m', prune_decls ds m (to_lower svc) = Ret (kept, m')).
    { induction ds as [|d ds IH]; intro m; [exists [], m; reflexivity|]. assert (IH' : forall m, exists kept m', prune_decls ds m (to_lower svc) = Ret (kept, m')) by (apply IH; intros f Hi; apply Hf; right; exact Hi).
      cbn [Handler.prune_decls]. destruct d as [f|t]; [|destruct (IH' m) as (k & m' & ->); eexists _, _; reflexivity].
      destruct (str_eqb (fd_fname f) ignored_func || negb (exported (fd_fname f))) eqn:Eo; [destruct (IH' m) as (k & m' & ->); eexists _, _; reflexivity|].
      destruct (Hf f (or_introl eq_refl) Eo) as [H1 H2]. unfold is_valid_func. apply orb_false_iff in Eo. destruct Eo as [_ Ee]. rewrite Ee.
      destruct (mget m (fd_fname f)) as [r|] eqn:Em; [|apply IH']. destruct (fd_recv f) as [[|a rest]|] eqn:Er; [congruence| |]; cbn [recv_type_to_string].
      2: { change (str_eqb [] (T "*" ++ to_lower svc ++ T "Service")) with false. apply IH'. }
      destruct (str_eqb (expr_string (af_type a)) (T "*" ++ to_lower svc ++ T "Service")); [|apply IH'].
      assert (exists f1, update_params f r = Some f1) as [f1 ->].
      { unfold update_params. rewrite num_fields_how. destruct (Nat.eqb_spec (how_many (fd_params f)) 2) as [E|]; [|eexists; reflexivity].
        destruct (how_two _ E) as [(b & Eb & Hb)|(b & c & Eb & _ & _)]; [exfalso; exact (H2 b Eb Hb)|]. rewrite Eb. cbn [update_nth]. eexists. reflexivity. }
      assert (exists f2, update_results f1 r = Some f2) as [f2 ->].
      { unfold update_results. rewrite num_fields_how. destruct (Nat.eqb_spec (how_many (fd_results f1)) 2) as [E|]; [|eexists; reflexivity].
        destruct (how_two _ E) as [(b & Eb & Hb)|(b & c & Eb & _ & _)]; rewrite Eb; cbn [update_nth]; eexists; reflexivity. }
      destruct (IH' (mdel m (fd_fname f))) as (k & m' & ->). eexists _, _. reflexivity. }
    destruct (K (new_method_map ms)) as (kept & m' & E). split.
    - intro H. inversion H; subst. congruence.
    - exists (kept ++ map (template_handler svc) (map snd m')). eapply RenderAgain; [exact E|apply Permutation_refl].
  Qed.
  (** Two regenerations of one file differ at most in the order of the new handlers. *)
  Theorem regeneration_deterministic : forall svc ms ds o1 o2, render svc ms (Some ds) (Ret o1) -> render svc ms (Some ds) (Ret o2) ->
    exists kept n1 n2, o1 = kept ++ n1 /\ o2 = kept ++ n2 /\ Permutation n1 n2.
  Proof.
    intros svc ms ds o1 o2 H1 H2. destruct (render_inv _ _ _ _ H1) as (k1 & m1 & r1 & P1 & R1 & ->). destruct (render_inv _ _ _ _ H2) as (k2 & m2 & r2 & P2 & R2 & ->).
    rewrite P1 in P2. injection P2 as <- <-. eexists _, _, _. split; [reflexivity|]. split; [reflexivity|]. apply Permutation_map. rewrite R1, R2. apply Permutation_refl.
  Qed.
End P.

(** ** What does not hold *)
Definition ascii_upper (c : N) : bool := in_range 65 90 c.
Definition svc_t : expr := EStar (EIdent (T "fooService")).
Definition hello : rpc := mkRpc (T "Hello") (T "HelloReq") (T "HelloResp").
(** A user who writes the two parameters of a handler as one group makes baron panic. *)
Theorem grouped_parameters_panic_refuted :
  ~ forall upper svc ms ds, good_rpcs upper ms -> ~ render upper svc ms (Some ds) Panic.
Proof.
  intro H. apply (H ascii_upper (T "foo") [hello] [DFunc (mkFun (T "Hello") (Some [mkAF [T "s"] svc_t]) [mkAF [T "a"; T "b"] (EIdent (T "int"))] [] [] [])]).
  - split; [constructor; [intros []|constructor]|]. intros r [<-|[]]. split; [reflexivity|discriminate].
  - apply RenderPanic. reflexivity.
Qed.
(** An rpc called NewService gets one more handler with every regeneration. *)
Theorem newservice_rpc_refuted :
  ~ forall upper svc ms ds out res, NoDup (map rpc_name ms) -> (forall r, In r ms -> exported upper (rpc_name r) = true) ->
    render upper svc ms (Some ds) (Ret out) -> render upper svc ms (Some out) res -> res = Ret out.
Proof.
  intro H. set (ns := mkRpc (T "NewService") (T "Req") (T "Resp")).
  assert (R : forall ds, prune_decls ascii_upper ds (new_method_map [ns]) (to_lower (T "foo")) = Ret (ds, new_method_map [ns]) ->
    render ascii_upper (T "foo") [ns] (Some ds) (Ret (ds ++ [template_handler (T "foo") ns]))).
  { intros ds E. apply (RenderAgain ascii_upper (T "foo") [ns] ds ds (new_method_map [ns]) [ns]); [exact E|apply Permutation_refl]. }
  assert (E : Ret (([template_handler (T "foo") ns]) ++ [template_handler (T "foo") ns]) = Ret [template_handler (T "foo") ns]); [|discriminate].
  apply (H ascii_upper (T "foo") [ns] [] [template_handler (T "foo") ns]).
  - constructor; [intros []|constructor].
  - intros r [<-|[]]. reflexivity.
  - apply (R []). reflexivity.
  - apply (R [template_handler (T "foo") ns]). reflexivity.
Qed.
(** An exported helper of the user in the service file is removed. *)
Theorem exported_helpers_removed_refuted :
  ~ forall upper svc ms ds out d, good_rpcs upper ms -> render upper svc ms (Some ds) (Ret out) -> In d ds -> In d out.
Proof.
  intro H. set (h := DFunc (mkFun (T "Helper") None [] [] (T "work") [])).
  assert (K : In h []); [|exact K]. apply (H ascii_upper (T "foo") [] [h]).
  - split; [constructor|intros r []].
  - apply (RenderAgain ascii_upper (T "foo") [] [h] [] [] []); [reflexivity|apply Permutation_refl].
  - left. reflexivity.
Qed.

(** ** The hypotheses are met: a file with the user's own code, an old handler, one to be retyped and a new rpc. *)
Definition bye : rpc := mkRpc (T "Bye") (T "ByeReq") (T "ByeResp").
Definition pbt (n : string) : expr := EStar (ESel (EIdent (T "pb")) (T n)).
Definition old_file : list decl :=
  [ DOther (T "import"); DFunc (mkFun (T "NewService") None [] [mkAF [] svc_t] (T "return") []); DFunc (mkFun (T "helper") None [] [] (T "mine") []);
    DFunc (mkFun (T "Hello") (Some [mkAF [T "s"] svc_t]) [mkAF [T "ctx"] (ESel (EIdent (T "context")) (T "Context")); mkAF [T "in"] (pbt "OldReq")]
      [mkAF [] (pbt "OldResp"); mkAF [] (EIdent (T "error"))] (T "my body") (T "my comment"));
    DFunc (mkFun (T "Gone") (Some [mkAF [T "s"] svc_t]) [] [] (T "gone") []) ].
Definition new_file : list decl :=
  [ DOther (T "import"); DFunc (mkFun (T "NewService") None [] [mkAF [] svc_t] (T "return") []); DFunc (mkFun (T "helper") None [] [] (T "mine") []);
    DFunc (mkFun (T "Hello") (Some [mkAF [T "s"] svc_t]) [mkAF [T "ctx"] (ESel (EIdent (T "context")) (T "Context")); mkAF [T "in"] (pbt "HelloReq")]
      [mkAF [] (pbt "HelloResp"); mkAF [] (EIdent (T "error"))] (T "my body") (T "my comment"));
    template_handler (T "Foo") bye ].
Example regeneration_nonvacuous :
  good_rpcs ascii_upper [hello; bye] /\ ~ In c_dot (T "Foo") /\ go_receivers old_file /\ render ascii_upper (T "Foo") [hello; bye] (Some old_file) (Ret new_file) /\
  (forall r, In r [hello; bye] -> go_camel_case (rpc_req r) = rpc_req r /\ go_camel_case (rpc_resp r) = rpc_resp r).
Proof.
  split. { split; [constructor; [intros [K|[]]; discriminate|constructor; [intros []|constructor]]|]. intros r [<-|[<-|[]]]; (split; [reflexivity|discriminate]). }
  split. { intro K. vm_compute in K. repeat destruct K as [K|K]; discriminate || contradiction. }
  split. { intros f a rest Hi Er n Et. unfold old_file in Hi. repeat destruct Hi as [Hi|Hi]; try discriminate; try contradiction; injection Hi as <-; cbn [fd_recv] in Er; try discriminate; injection Er as <- <-; discriminate. }
  split.
  - apply (RenderAgain ascii_upper (T "Foo") [hello; bye] old_file (firstn 4 new_file) [(T "Bye", bye)] [bye]); [reflexivity|apply Permutation_refl].
  - intros r [<-|[<-|[]]]; split; reflexivity.
Qed.

Print Assumptions regeneration_keeps_own_code.
Print Assumptions one_handler_per_rpc.
Print Assumptions first_handler_kept.
Print Assumptions regenerated_file.
Print Assumptions regeneration_idempotent.
Print Assumptions regeneration_does_not_panic.
