(** Proofs about the settings of Server.v. *)
From Verif Require Import GoStr GoStrProofs Server ServerSpec.

Fixpoint set_all (c : config) (l : list (str * str)) : option config :=
  match l with [] => Some c | (n, v) :: l' => match set_flag c n v with Some c' => set_all c' l' | None => None end end.

Lemma cut_none : forall s, ~ In 61%N s -> cut_eq s = (s, None).
Proof.
  induction s as [|x s IH]; intro H; [reflexivity|]. cbn [cut_eq]. destruct (N.eqb_spec x 61) as [->|_]; [exfalso; apply H; left; reflexivity|].
  rewrite IH by (intro K; apply H; right; exact K). reflexivity.
Qed.
Lemma cut_some : forall s v, ~ In 61%N s -> cut_eq (s ++ 61%N :: v) = (s, Some v).
Proof.
  induction s as [|x s IH]; intros v H; [reflexivity|]. cbn [cut_eq app]. destruct (N.eqb_spec x 61) as [->|_]; [exfalso; apply H; left; reflexivity|].
  rewrite IH by (intro K; apply H; right; exact K). reflexivity.
Qed.
Lemma cut_shape : forall s n v, cut_eq s = (n, v) -> match v with Some w => s = n ++ 61%N :: w | None => s = n end.
Proof.
  induction s as [|x s IH]; intros n v H; cbn [cut_eq] in H; [injection H as <- <-; reflexivity|].
  destruct (N.eqb_spec x 61) as [->|_]; [injection H as <- <-; reflexivity|]. destruct (cut_eq s) as [n1 v1] eqn:E. injection H as <- <-.
  specialize (IH n1 v1 eq_refl). destruct v1; cbn [app]; rewrite IH; reflexivity.
Qed.

Definition after (c : config) (x : N) (name' : str) (args' : list str) : option config :=
  let '(n, v) := (let '(n, v) := cut_eq name' in (x :: n, v)) in
  if negb (is_flag n) then None
  else if str_eqb n (T "debug") then
    match set_flag c n (match v with Some w => w | None => T "true" end) with
    | Some c' => flag_parse c' args'
    | None => None
    end
  else
    match v with
    | Some w => match set_flag c n w with Some c' => flag_parse c' args' | None => None end
    | None => match args' with
              | w :: args'' => match set_flag c n w with Some c' => flag_parse c' args'' | None => None end
              | [] => None
              end
    end.

Lemma flag_parse_name : forall d x name' c args', dash_or_two d -> x <> c_dash -> x <> 61%N ->
  flag_parse c ((d ++ x :: name') :: args') = after c x name' args'.
Proof.
  intros d x name' c args' Hd H1 H2. assert (E1 : N.eqb x c_dash = false) by (apply N.eqb_neq; exact H1).
  assert (E2 : N.eqb x 61 = false) by (apply N.eqb_neq; exact H2).
  destruct Hd as [-> | ->].
  - change (T "-") with [45%N]. cbn [app flag_parse]. rewrite E1. cbn iota. rewrite E1, E2. reflexivity.
  - change (T "--") with [45%N; 45%N]. cbn [app flag_parse]. change (N.eqb 45 c_dash) with true. cbn iota. rewrite E1, E2. reflexivity.
Qed.

Lemma flag_parse_ends : forall c rest, ends_flags rest -> flag_parse c rest = Some c.
Proof.
  intros c [|s rest] H; [reflexivity|]. cbn [ends_flags] in H. destruct H as [-> |[-> |H]]; [reflexivity..|].
  destruct s as [|a s]; [reflexivity|]. cbn [flag_parse]. destruct s as [|b s]; [destruct (N.eq_dec a 45) as [->|]; [exfalso; apply H; reflexivity|]|].
  - destruct a as [|p]; [reflexivity|]. repeat (destruct p as [p|p|]; try reflexivity).
  - destruct (N.eq_dec a 45) as [->|]; [exfalso; apply H; reflexivity|]. destruct a as [|p]; [reflexivity|].
    repeat (destruct p as [p|p|]; try reflexivity). congruence.
Qed.

Lemma names : forall n, In n (T "debug" :: address_flags) -> exists x m, n = x :: m /\ x <> c_dash /\ x <> 61%N /\ ~ In 61%N m /\ is_flag n = true.
Proof.
  intros n H. cbn [In address_flags] in H.
  repeat (destruct H as [<-|H]; [eexists; eexists; split; [reflexivity|]; repeat (split; [discriminate|]);
    split; [intro K; vm_compute in K; repeat destruct K as [K|K]; discriminate || contradiction|reflexivity]|]). destruct H.
Qed.
Lemma not_debug : forall n, In n address_flags -> str_eqb n (T "debug") = false.
Proof. intros n H. cbn [In address_flags] in H. repeat (destruct H as [<-|H]; [reflexivity|]). destruct H. Qed.

Lemma flag_parse_of : forall l args, written l args -> forall c, flag_parse c args = set_all c l.
Proof.
  intros l args H. induction H as [rest H|d n v l args Hd Hn H IH|d n v l args Hd Hn H IH|d l args Hd H IH]; intro c.
  - apply flag_parse_ends. exact H.
  - destruct (names n Hn) as (x & m & E & H1 & H2 & H3 & H4).
    assert (E1 : d ++ n ++ T "=" ++ v = d ++ x :: (m ++ 61%N :: v)) by (rewrite E; reflexivity). rewrite E1, flag_parse_name by assumption.
    unfold after. rewrite (cut_some m v H3). cbn iota beta. rewrite <- E, H4. cbn [negb set_all].
    destruct (str_eqb n (T "debug")); destruct (set_flag c n v); auto.
  - destruct (names n (or_intror Hn)) as (x & m & E & H1 & H2 & H3 & H4).
    assert (E1 : d ++ n = d ++ x :: m) by (rewrite E; reflexivity). rewrite E1, flag_parse_name by assumption.
    unfold after. rewrite (cut_none m H3). cbn iota beta. rewrite <- E, H4. cbn [negb set_all]. rewrite (not_debug n Hn).
    destruct (set_flag c n v); auto.
  - destruct (names (T "debug") (or_introl eq_refl)) as (x & m & E & H1 & H2 & H3 & H4).
    assert (E1 : d ++ T "debug" = d ++ x :: m) by (rewrite E; reflexivity). rewrite E1, flag_parse_name by assumption.
    unfold after. rewrite (cut_none m H3). cbn iota beta. rewrite <- E, H4. cbn [negb set_all]. rewrite str_eqb_refl.
    destruct (set_flag c (T "debug") (T "true")); auto.
Qed.

Lemma is_flag_in : forall n, is_flag n = true -> In n (T "debug" :: address_flags).
Proof.
  intros n H. apply existsb_exists in H. destruct H as (m & Hm & E). apply str_eqb_eq in E. subst m. cbn [In address_flags] in *. tauto.
Qed.

Lemma written_of : forall k args c c', (length args <= k)%nat -> flag_parse c args = Some c' -> exists l, written l args.
Proof.
  induction k as [|k IH]; intros args c c' Hk H.
  - destruct args; [|cbn [length] in Hk; lia]. exists []. apply w_end. exact I.
  - destruct args as [|s args]; [exists []; apply w_end; exact I|]. cbn [length] in Hk.
    assert (D : ends_flags (s :: args) \/ exists d x m, s = d ++ x :: m /\ dash_or_two d /\ x <> c_dash).
    { destruct s as [|a s]; [left; right; right; exact I|]. destruct (N.eq_dec a c_dash) as [->|Ha]; [|left; right; right; exact Ha].
      destruct s as [|b s]; [left; left; reflexivity|]. destruct (N.eq_dec b c_dash) as [->|Hb].
      - destruct s as [|x s]; [left; right; left; reflexivity|]. destruct (N.eq_dec x c_dash) as [->|Hx].
        + exfalso. cbn in H. discriminate.
        + right. exists (T "--"), x, s. split; [reflexivity|]. split; [right; reflexivity|exact Hx].
      - right. exists (T "-"), b, s. split; [reflexivity|]. split; [left; reflexivity|exact Hb]. }
    destruct D as [D|(d & x & m & -> & Hd & Hx)]; [exists []; apply w_end; exact D|].
    destruct (N.eq_dec x 61) as [->|H6].
    { exfalso. destruct Hd as [-> | ->]; cbn in H; discriminate. }
    rewrite flag_parse_name in H by assumption. unfold after in H. destruct (cut_eq m) as [n1 v] eqn:Ec. apply cut_shape in Ec.
    destruct (is_flag (x :: n1)) eqn:Hf; cbn [negb] in H; [|discriminate]. pose proof (is_flag_in _ Hf) as Hin.
    destruct (str_eqb (x :: n1) (T "debug")) eqn:Hdb.
    + apply str_eqb_eq in Hdb. destruct (set_flag c (x :: n1) (match v with Some w => w | None => T "true" end)) as [c1|]; [|discriminate].
      destruct (IH args c1 c') as [l Hl]; [lia|exact H|]. destruct v as [w|].
      * exists ((x :: n1, w) :: l). subst m. change (d ++ x :: n1 ++ 61%N :: w) with (d ++ (x :: n1) ++ T "=" ++ w). apply w_equal; assumption.
      * exists ((T "debug", T "true") :: l). subst m. rewrite Hdb. apply w_switch; assumption.
    + assert (Hin2 : In (x :: n1) address_flags).
      { destruct Hin as [K|K]; [|exact K]. rewrite <- K in Hdb. discriminate. }
      destruct v as [w|].
      * destruct (set_flag c (x :: n1) w) as [c1|]; [|discriminate]. destruct (IH args c1 c') as [l Hl]; [lia|exact H|].
        exists ((x :: n1, w) :: l). subst m. change (d ++ x :: n1 ++ 61%N :: w) with (d ++ (x :: n1) ++ T "=" ++ w). apply w_equal; assumption.
      * destruct args as [|w args]; [discriminate|]. destruct (set_flag c (x :: n1) w) as [c1|]; [|discriminate].
        destruct (IH args c1 c') as [l Hl]; [cbn [length] in Hk; lia|exact H|]. exists ((x :: n1, w) :: l). subst m. apply w_space; assumption.
Qed.

Lemma written_names : forall l args, written l args -> forall n v, In (n, v) l -> In n (T "debug" :: address_flags).
Proof.
  intros l args H. induction H as [| | |]; intros n0 v0 K; [destruct K|..]; (destruct K as [K|K]; [|eauto]); injection K as <- <-; auto.
  - right. assumption.
  - left. reflexivity.
Qed.

(** ** What assignments do. *)
Lemma set_debug_addr : forall c v, set_flag c (T "debug.addr") v = Some (mkConfig (c_http c) v (c_grpc c) (c_nats c) (c_debug c)).
Proof. reflexivity. Qed.
Lemma set_http_addr : forall c v, set_flag c (T "http.addr") v = Some (mkConfig v (c_debug_addr c) (c_grpc c) (c_nats c) (c_debug c)).
Proof. reflexivity. Qed.
Lemma set_grpc_addr : forall c v, set_flag c (T "grpc.addr") v = Some (mkConfig (c_http c) (c_debug_addr c) v (c_nats c) (c_debug c)).
Proof. reflexivity. Qed.
Lemma set_nats_addr : forall c v, set_flag c (T "nats.addr") v = Some (mkConfig (c_http c) (c_debug_addr c) (c_grpc c) v (c_debug c)).
Proof. reflexivity. Qed.
Definition or_ (o : option str) (d : str) : str := match o with Some v => v | None => d end.
Lemma set_all_spec : forall l c, (forall n v, In (n, v) l -> In n (T "debug" :: address_flags)) ->
  forall c', set_all c l = Some c' <->
  (forall v, In (T "debug", v) l -> parse_bool v <> None)
  /\ c_http c' = or_ (last_set (T "http.addr") l) (c_http c) /\ c_debug_addr c' = or_ (last_set (T "debug.addr") l) (c_debug_addr c)
  /\ c_grpc c' = or_ (last_set (T "grpc.addr") l) (c_grpc c) /\ c_nats c' = or_ (last_set (T "nats.addr") l) (c_nats c)
  /\ match last_set (T "debug") l with Some v => parse_bool v = Some (c_debug c') | None => c_debug c' = c_debug c end.
Proof.
  induction l as [|[n v] l IH]; intros c Hn c'.
  - cbn [set_all last_set or_]. split.
    + intro H. injection H as <-. repeat (split; [first [intros v []|reflexivity]|]). reflexivity.
    + intros (_ & H1 & H2 & H3 & H4 & H5). destruct c as [a1 a2 a3 a4 a5], c' as [b1 b2 b3 b4 b5]. cbn [c_http c_debug_addr c_grpc c_nats c_debug] in *. congruence.
  - assert (Hn' : forall n v, In (n, v) l -> In n (T "debug" :: address_flags)) by (intros n1 v1 K; apply (Hn n1 v1); right; exact K).
    pose proof (Hn n v (or_introl eq_refl)) as K. cbn [In address_flags] in K.
    assert (P : forall c1, set_flag c n v = Some c1 -> n <> T "debug" ->
      ((forall w, In (T "debug", w) ((n, v) :: l) -> parse_bool w <> None) <-> (forall w, In (T "debug", w) l -> parse_bool w <> None))).
    { intros c1 _ Hd. split; intros Q w Kw; [apply Q; right; exact Kw|]. destruct Kw as [Kw|Kw]; [congruence|apply Q; exact Kw]. }
    assert (L : forall k, last_set k ((n, v) :: l) = match last_set k l with Some w => Some w | None => if str_eqb n k then Some v else None end) by reflexivity.
    rewrite !L. cbn [set_all].
    destruct K as [<-|K].
    + change (set_flag c (T "debug") v) with (match parse_bool v with Some b => Some (mkConfig (c_http c) (c_debug_addr c) (c_grpc c) (c_nats c) b) | None => None end).
      change (str_eqb (T "debug") (T "http.addr")) with false. change (str_eqb (T "debug") (T "debug.addr")) with false.
      change (str_eqb (T "debug") (T "grpc.addr")) with false. change (str_eqb (T "debug") (T "nats.addr")) with false.
      change (str_eqb (T "debug") (T "debug")) with true. cbn iota.
      assert (N : forall o : option str, match o with Some w => Some w | None => None end = o) by (intros []; reflexivity). rewrite !N.
      destruct (parse_bool v) as [b|] eqn:Eb.
      * rewrite (IH _ Hn'). cbn [c_http c_debug_addr c_grpc c_nats c_debug].
        assert (Q : (forall w, In (T "debug", w) ((T "debug", v) :: l) -> parse_bool w <> None) <-> (forall w, In (T "debug", w) l -> parse_bool w <> None)).
        { split; intros Q w Kw; [apply Q; right; exact Kw|]. destruct Kw as [Kw|Kw]; [injection Kw as <-; congruence|exact (Q w Kw)]. }
        rewrite Q. destruct (last_set (T "debug") l); [reflexivity|]. split; intros (Q0 & Q1 & Q2 & Q3 & Q4 & Q5); (split; [exact Q0|]); intuition congruence.
      * split; [discriminate|intros (Q & _); exfalso; exact (Q v (or_introl eq_refl) Eb)].
    + assert (Hd : n <> T "debug") by (intros ->; repeat (destruct K as [K|K]; [discriminate|]); destruct K).
      destruct K as [<-|[<-|[<-|[<-|[]]]]]; rewrite (P _ eq_refl Hd);
      rewrite ?set_debug_addr, ?set_http_addr, ?set_grpc_addr, ?set_nats_addr; cbn iota; rewrite (IH _ Hn'); cbn [c_http c_debug_addr c_grpc c_nats c_debug];
      repeat match goal with |- context [str_eqb (T ?a) (T ?b)] => let x := eval vm_compute in (str_eqb (T a) (T b)) in change (str_eqb (T a) (T b)) with x end;
      cbn iota;
      assert (N : forall o : option str, match o with Some w => Some w | None => None end = o) by (intros []; reflexivity);
      assert (N2 : forall (o : option str) d, or_ match o with Some w => Some w | None => Some v end d = or_ o v) by (intros []; reflexivity);
      rewrite !N, N2; reflexivity.
Qed.
