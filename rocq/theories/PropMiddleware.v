(** C32, C53: middleware and endpoints. *)
From Coq Require Import Permutation.
From Verif Require Import GoStr GoStrProofs GoMap Middleware.

Lemma included_keys : forall methods m, NoDup (keys m) ->
  NoDup (keys (fold_left (fun m n => mset m n tt) methods m)) /\
  forall n, mget (fold_left (fun m n => mset m n tt) methods m) n <> None <-> In n methods \/ mget m n <> None.
Proof.
  induction methods as [|x xs IH]; intros m H; cbn [fold_left]; [split; [exact H|]; intro n; cbn; tauto|].
  destruct (IH (mset m x tt) (nodup_mset m x tt H)) as [H1 H2]. split; [exact H1|]. intro n. rewrite H2. rewrite mget_mset. cbn [In].
  destruct (str_eqb_spec n x) as [->|N1]; split; intro K; [tauto|right; discriminate|destruct K as [K|K]; auto|].
  destruct K as [[K|K]|K]; [congruence|auto|auto].
Qed.
Lemma exclude_char : forall xs m, NoDup (keys m) ->
  match exclude m xs with
  | Some m' => NoDup xs /\ (forall x, In x xs -> mget m x <> None) /\ NoDup (keys m') /\ (forall n, mget m' n <> None <-> mget m n <> None /\ ~ In n xs)
  | None => ~ NoDup xs \/ exists x, In x xs /\ mget m x = None
  end.
Proof.
  induction xs as [|x xs IH]; intros m H; cbn [exclude].
  - split; [constructor|]. split; [intros x []|]. split; [exact H|]. intro n. cbn. tauto.
  - destruct (mget m x) as [u|] eqn:Ex; [|right; exists x; split; [left; reflexivity|exact Ex]].
    specialize (IH (mdel m x) (nodup_mdel m x H)).
    assert (Hd : forall n, mget (mdel m x) n = if str_eqb n x then None else mget m n) by (intro n; apply mget_mdel; exact H).
    destruct (exclude (mdel m x) xs) as [m'|].
    + destruct IH as (H1 & H2 & H3 & H4). split.
      { constructor; [|exact H1]. intro Hx. specialize (H2 x Hx). rewrite Hd, str_eqb_refl in H2. congruence. }
      split. { intros y [<-|Hy]; [congruence|]. specialize (H2 y Hy). rewrite Hd in H2. destruct (str_eqb y x); congruence. }
      split; [exact H3|]. intro n. rewrite H4, Hd. cbn [In]. destruct (str_eqb_spec n x) as [->|N1]; [split; [intros [K _]; congruence|intros [_ K]; exfalso; apply K; auto]|].
      split; intros [K1 K2]; (split; [exact K1|]); [intros [K|K]; [congruence|auto]|auto].
    + destruct IH as [IH|(y & Hy & E)].
      * left. intro K. inversion K; subst. contradiction.
      * rewrite Hd in E. destruct (str_eqb_spec y x) as [->|N1]; [left; intro K; inversion K; subst; contradiction|right; exists y; split; [right; exact Hy|exact E]].
Qed.
Section E.
  Variable E : Type.
  Variable methods : list str.
  Variable mw : str -> E -> E.
  Hypothesis Hm : NoDup methods.
  Lemma wrap_key_get : forall e inc n, wrap_key E methods mw e inc n = if str_eqb n inc && existsb (str_eqb n) methods then mw n (e n) else e n.
  Proof.
    intros e inc n. unfold wrap_key. revert e. clear -Hm. revert Hm. intro H0. induction H0 as [|x xs Hx Hxs IH]; intro e; cbn [fold_left existsb]; [rewrite andb_false_r; reflexivity|].
    rewrite IH. assert (Hnx : existsb (str_eqb n) xs = true -> n <> x).
    { intros K ->. apply existsb_exists in K. destruct K as (y & Hy & K). apply str_eqb_eq in K. subst y. contradiction. }
    destruct (str_eqb_spec inc x) as [->|N1].
    - unfold set_endpoint. destruct (str_eqb_spec n x) as [->|N2]; cbn [andb orb].
      + destruct (existsb (str_eqb x) xs) eqn:Ee; [destruct (Hnx eq_refl eq_refl)|reflexivity].
      + reflexivity.
    - destruct (str_eqb_spec n inc) as [->|N2]; cbn [andb]; [|reflexivity].
      apply str_eqb_neq in N1. rewrite N1. reflexivity.
  Qed.
  Lemma wrap_keys_get : forall order e n, NoDup order -> (forall k, In k order -> In k methods) ->
    (In n order -> fold_left (wrap_key E methods mw) order e n = mw n (e n)) /\ (~ In n order -> fold_left (wrap_key E methods mw) order e n = e n).
  Proof.
    induction order as [|k ks IH]; intros e n Hnd Hin; cbn [fold_left]; [split; [intros []|reflexivity]|].
    inversion Hnd as [|x y Hk Hks]; subst. destruct (IH (wrap_key E methods mw e k) n Hks (fun j Hj => Hin j (or_intror Hj))) as [H1 H2].
    assert (Hkm : existsb (str_eqb k) methods = true) by (apply existsb_exists; exists k; split; [apply Hin; left; reflexivity|apply str_eqb_refl]).
    split.
    - intros [->|Hn].
      + rewrite H2 by exact Hk. rewrite wrap_key_get, str_eqb_refl, Hkm. reflexivity.
      + rewrite H1 by exact Hn. rewrite wrap_key_get. destruct (str_eqb_spec n k) as [->|]; [contradiction|reflexivity].
    - intro Hn. rewrite H2 by (intro K; apply Hn; right; exact K). rewrite wrap_key_get. destruct (str_eqb_spec n k) as [->|]; [destruct Hn; left; reflexivity|reflexivity].
  Qed.
End E.

(** C32: for every order of iteration, wrapping applies the middleware exactly once to each endpoint
    that is not excluded, with its own name, and leaves the others; it panics, having changed nothing,
    iff an excluded name is unknown or given twice. *)
Theorem c32_labeled : forall E methods (mw : str -> E -> E) excluded e e' panicked, NoDup methods ->
  wrap_all_labeled E methods mw excluded e e' panicked ->
  (panicked = true -> e' = e) /\
  (panicked = true <-> ~ NoDup excluded \/ exists x, In x excluded /\ ~ In x methods) /\
  (panicked = false -> forall n, (In n methods -> ~ In n excluded -> e' n = mw n (e n)) /\ (In n excluded \/ ~ In n methods -> e' n = e n)).
Proof.
  intros E methods mw excluded e e' panicked Hm H. destruct (included_keys methods [] (NoDup_nil _)) as [Hk Hg].
  pose proof (exclude_char excluded (included methods) Hk) as Hx. fold (included methods) in *.
  assert (Hmem : forall x, mget (included methods) x <> None <-> In x methods).
  { intro x. unfold included. rewrite Hg. cbn. tauto. }
  destruct H as [Hn|m order Hs Hp].
  - rewrite Hn in Hx. split; [reflexivity|]. split; [|discriminate]. split; [|reflexivity]. intros _. destruct Hx as [Hx|(x & Hi & Ex)]; [left; exact Hx|].
    right. exists x. split; [exact Hi|]. intro K. apply Hmem in K. contradiction.
  - rewrite Hs in Hx. destruct Hx as (H1 & H2 & H3 & H4). split; [discriminate|]. split.
    + split; [discriminate|]. intros [K|(x & Hi & K)]; [contradiction|]. exfalso. apply K. apply Hmem. apply H2. exact Hi.
    + intros _ n. assert (Ho : forall k, In k order <-> In k methods /\ ~ In k excluded).
      { intro k. rewrite <- Hmem, <- H4. split; intro K.
        - apply (Permutation_in _ Hp) in K. intro K2. apply mget_none in K2. contradiction.
        - apply (Permutation_in _ (Permutation_sym Hp)). destruct (in_dec str_eq_dec k (keys m)) as [K2|K2]; [exact K2|]. apply mget_none in K2. contradiction. }
      assert (Hnd : NoDup order) by (eapply Permutation_NoDup; [apply Permutation_sym; exact Hp|exact H3]).
      destruct (wrap_keys_get E methods mw Hm order e n Hnd (fun k Hk2 => proj1 (proj1 (Ho k) Hk2))) as [W1 W2]. split.
      * intros Hi Hx. apply W1. apply Ho. auto.
      * intro Hx. apply W2. intro K. apply Ho in K. tauto.
Qed.
Print Assumptions c32_labeled.
(** Some outcome is always possible (so the statement is about every call). *)
Theorem c32_total : forall E methods (mw : str -> E -> E) excluded e, exists e' p, wrap_all_labeled E methods mw excluded e e' p.
Proof.
  intros E methods mw excluded e. destruct (exclude (included methods) excluded) as [m|] eqn:Ex.
  - eexists. eexists. eapply WrapDone; [exact Ex|apply Permutation_refl].
  - eexists. eexists. apply WrapPanic. exact Ex.
Qed.
Theorem c32_except : forall E methods (mw : E -> E) excluded e e' panicked, NoDup methods ->
  wrap_all_except E methods mw excluded e e' panicked ->
  (panicked = true -> e' = e) /\
  (panicked = true <-> ~ NoDup excluded \/ exists x, In x excluded /\ ~ In x methods) /\
  (panicked = false -> forall n, (In n methods -> ~ In n excluded -> e' n = mw (e n)) /\ (In n excluded \/ ~ In n methods -> e' n = e n)).
Proof. intros E methods mw excluded e e' panicked Hm H. exact (c32_labeled E methods (fun _ => mw) excluded e e' panicked Hm H). Qed.
Print Assumptions c32_except.
(** Two middlewares: the one applied last is outermost, whatever the orders. *)
Theorem c32_compose : forall E methods (f g : E -> E) e e1 e2, NoDup methods ->
  wrap_all_except E methods f [] e e1 false -> wrap_all_except E methods g [] e1 e2 false ->
  forall n, In n methods -> e2 n = g (f (e n)).
Proof.
  intros E methods f g e e1 e2 Hm H1 H2 n Hn. destruct (c32_except _ _ _ _ _ _ _ Hm H1) as (_ & _ & A1). destruct (c32_except _ _ _ _ _ _ _ Hm H2) as (_ & _ & A2).
  destruct (A1 eq_refl n) as [B1 _]. destruct (A2 eq_refl n) as [B2 _]. rewrite B2, B1; auto.
Qed.
Example c32_ex : exists e', wrap_all_except nat [T "A"; T "B"; T "C"] S [T "B"] (fun _ => 0) e' false /\ e' (T "A") = 1 /\ e' (T "B") = 0 /\ e' (T "C") = 1.
Proof.
  eexists. split; [eapply (WrapDone nat _ _ _ _ _ [T "C"; T "A"]); [reflexivity|]; cbn; constructor|]. split; [reflexivity|]. split; reflexivity.
Qed.

(** ** C53: a service called through its endpoint answers as the service does. *)
Theorem c53_transparent : forall Req Resp Err (s : Req -> Resp * option Err) req,
  call_endpoint Req Resp Err (make_endpoint Req Resp Err s) req = match s req with (_, Some e) => Failure e | (r, None) => Response r end.
Proof. intros. unfold call_endpoint, make_endpoint. destruct (s req) as [r [e|]]; reflexivity. Qed.
Print Assumptions c53_transparent.
(** It panics only when a middleware makes an endpoint that returns neither a response nor an error. *)
Theorem c53_panic : forall Req Resp Err (ep : endpoint Req Resp Err) req,
  call_endpoint Req Resp Err ep req = Panicked <-> ep req = (None, None).
Proof. intros. unfold call_endpoint. destruct (ep req) as [[r|] [e|]]; split; intro H; try discriminate; reflexivity. Qed.
(** Whatever a middleware makes of the endpoint: an error beats the response. *)
Theorem c53_call : forall Req Resp Err (ep : endpoint Req Resp Err) req,
  (forall e, call_endpoint Req Resp Err ep req = Failure e <-> exists r, ep req = (r, Some e)) /\
  (forall r, call_endpoint Req Resp Err ep req = Response r <-> ep req = (Some r, None)).
Proof.
  intros. unfold call_endpoint. destruct (ep req) as [[r|] [e|]]; split; intro x; split; intro H; try discriminate; try (destruct H as (r' & H); discriminate).
  all: try (destruct H as (r' & H)); try (injection H as <-); try (eexists; reflexivity); try congruence; reflexivity.
Qed.
Print Assumptions c53_call.
