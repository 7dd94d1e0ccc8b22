(** The generated server's Run under every schedule (C45) and the settings of its main program (C64). *)
From Verif Require Import GoStr GoStrProofs Server ServerSpec ServerProofs ServerProofs2.

(** ** C45 *)
Lemma wanted_iff : forall r c g, In g (to_start r c) <-> wanted r c g.
Proof.
  intros r c g. unfold to_start. rewrite !in_app_iff. unfold r_grpc, r_nats.
  assert (E : forall s, empty s = false <-> s <> []) by (intros [|x s]; split; intros H; try reflexivity; try discriminate; congruence).
  assert (B : forall (b : bool) (x : gid), In g (if b then [x] else []) <-> b = true /\ x = g).
  { intros [] x; cbn [In]; split; [intros [H|[]]; auto|intros [_ H]; auto|intros []|intros [H _]; discriminate]. }
  rewrite !B, !andb_true_iff, !negb_true_iff, !E, !orb_true_iff, !str_eqb_eq. cbn [In].
  destruct g; cbn [wanted]; intuition (try discriminate; try congruence).
Qed.

(** Once main has executed its go statements, the goroutines there are are the wanted ones. *)
Theorem c45_starts_the_wanted : forall r c tr s, run (initial r c) tr s ->
  (forall g, gos s g <> None -> wanted r c g) /\ (todo s = [] -> forall g, wanted r c g -> gos s g <> None).
Proof.
  intros r c tr s H. destruct (i_list _ _ _ _ (inv_run r c _ _ H)) as (before & El & Hb). split.
  - intros g Hg. apply wanted_iff. rewrite El. apply in_or_app. left. apply Hb. exact Hg.
  - intros Et g Hg. apply wanted_iff in Hg. rewrite El, Et, app_nil_r in Hg. apply Hb. exact Hg.
Qed.

(** Run returns only with a value that a wanted goroutine reported before, and it returns it because it received it. *)
Theorem c45_returns_reported : forall r c tr s v, run (initial r c) tr s -> ret s = Some v ->
  exists g t1 t2 t3, wanted r c g /\ tr = t1 ++ LReport g v :: t2 ++ LReceive g v :: t3.
Proof.
  intros r c tr s v H Hr. destruct (i_ret _ _ _ _ (inv_run r c _ _ H) v Hr) as [g Hg].
  destruct (receive_after r c _ _ H g v Hg) as (a & b & d & E). exists g, a, b, d. split; [|exact E].
  apply wanted_iff. apply (reporters_started r c tr s g v H). rewrite E. apply in_or_app. right. left. reflexivity.
Qed.

(** As soon as some goroutine has reported, main's own steps alone lead to a return, with that value. *)
Theorem c45_can_return : forall r c tr s g v, run (initial r c) tr s -> reported tr g v -> ret s = None ->
  exists tr' s', Forall by_main tr' /\ run s tr' s' /\ ret s' = Some v.
Proof.
  intros r c tr s g v H Hg Hr. destruct (can_return r c tr s g v H Hr Hg) as (s' & R1 & R2).
  eexists. exists s'. split; [|split; [exact R1|exact R2]]. apply Forall_app. split; [|repeat constructor].
  apply Forall_forall. intros l Hl. apply in_map_iff in Hl. destruct Hl as (x & <- & _). exact I.
Qed.

(** No report is lost before Run returns: whoever reported is still trying to send that value. *)
Theorem c45_report_kept : forall r c tr s g v, run (initial r c) tr s -> reported tr g v ->
  gos s g = Some (PSending v) \/ ret s = Some v.
Proof.
  intros r c tr s g v H Hg. destruct (i_report _ _ _ _ (inv_run r c _ _ H) g v Hg) as [K|K]; [left; exact K|].
  right. destruct (one_receive r c _ _ H g v g v K K) as (_ & _ & E). exact E.
Qed.

(** At most one value is received, and it is the one Run returns with. *)
Theorem c45_one_value : forall r c tr s g v g' v', run (initial r c) tr s -> In (LReceive g v) tr -> In (LReceive g' v') tr ->
  g = g' /\ v = v' /\ ret s = Some v.
Proof. intros r c tr s g v g' v' H. apply (one_receive r c tr s H). Qed.

(** In every state in which Run has not returned and no signal came yet, a signal makes it return, whatever the servers do. *)
Theorem c45_signal_always : forall r c tr s v, run (initial r c) tr s -> ret s = None -> (forall w, ~ reported tr GInterrupt w) ->
  exists t1 t2 s', Forall by_main (t1 ++ t2) /\ run s (t1 ++ LReport GInterrupt v :: t2) s' /\ ret s' = Some v.
Proof.
  intros r c tr s v H Hr Hn. destruct (signal_ends r c tr s v H Hr Hn) as (s' & R1 & R2).
  exists (map LStart (todo s)), [LReceive GInterrupt v], s'. split; [|split; [exact R1|exact R2]].
  apply Forall_app. split; [|repeat constructor]. apply Forall_forall. intros l Hl. apply in_map_iff in Hl. destruct Hl as (x & <- & _). exact I.
Qed.

(** Refuted: with no address at all Run does not come back after the message of main: only a signal ends it. *)
Theorem c45_nothing_to_serve_refuted : forall r c tr s, c_http c = [] -> c_grpc c = [] -> c_nats c = [] -> c_debug c = false ->
  run (initial r c) tr s -> (forall w, ~ reported tr GInterrupt w) -> ret s = None.
Proof.
  intros r c tr s H1 H2 H3 H4 H Hn. destruct (ret s) as [v|] eqn:E; [|reflexivity]. exfalso.
  destruct (c45_returns_reported r c tr s v H E) as (g & a & b & d & W & Et).
  assert (K : reported tr g v) by (rewrite Et; apply in_or_app; right; left; reflexivity).
  destruct g; cbn [wanted] in W; [exact (Hn _ K)|congruence|destruct W; congruence..].
Qed.

Lemma quiet_inv : forall r c tr s, run (initial r c) tr s -> forall g, In (LQuiet g) tr -> gos s g = Some PDone /\ forall v, ~ In (LReport g v) tr.
Proof.
  intros r c tr s H. induction H as [|tr s1 l s2 H IH Hs]; intros g K; [destruct K|]. apply in_snoc in K.
  pose proof (inv_run r c _ _ H) as I.
  destruct K as [K|K].
  - destruct (IH g K) as [E1 E2]. destruct (i_list _ _ _ _ I) as (before & El & Hb).
    destruct Hs as [s h gs Et|s h v Hg|s h Hg Ht|s h v Hg|s Hg|s h v Et Er Hg];
      (destruct (gid_eq_dec g h) as [<-|Hn] || destruct (gid_eq_dec g GNats) as [->|Hn]); try congruence.
    + exfalso. destruct (rest_fresh r c _ _ H) as [_ F]. rewrite (F g) in E1; [discriminate|]. rewrite Et. left. reflexivity.
    + cbn [gos]. destruct (gid_eq_dec g h); [congruence|]. split; [exact E1|]. intros v Kv. apply in_snoc in Kv. destruct Kv as [Kv|Kv]; [exact (E2 v Kv)|discriminate].
    + rewrite set_pc_other by exact Hn. split; [exact E1|]. intros w Kv. apply in_snoc in Kv. destruct Kv as [Kv|Kv]; [exact (E2 w Kv)|congruence].
    + rewrite set_pc_other by exact Hn. split; [exact E1|]. intros w Kv. apply in_snoc in Kv. destruct Kv as [Kv|Kv]; [exact (E2 w Kv)|congruence].
    + rewrite set_pc_other by exact Hn. split; [exact E1|]. intros w Kv. apply in_snoc in Kv. destruct Kv as [Kv|Kv]; [exact (E2 w Kv)|congruence].
    + rewrite set_pc_other by exact Hn. split; [exact E1|]. intros w Kv. apply in_snoc in Kv. destruct Kv as [Kv|Kv]; [exact (E2 w Kv)|congruence].
    + cbn [gos]. destruct (gid_eq_dec g h); [congruence|]. split; [exact E1|]. intros w Kv. apply in_snoc in Kv. destruct Kv as [Kv|Kv]; [exact (E2 w Kv)|congruence].
  - subst l. inversion Hs as [| | | |s Hg|]; subst. split; [apply set_pc_same|]. intros v Kv. apply in_snoc in Kv. destruct Kv as [Kv|Kv]; [|discriminate].
    exact (i_first _ _ _ _ I GNats (or_intror Hg) v Kv).
Qed.

(** Refuted: Run does not notice that its only transport ended, if that is NATS (ServeNATS returns nil and nothing is sent). *)
Theorem c45_nats_ends_quietly_refuted : forall r c tr s, c_http c = [] -> c_grpc c = [] -> c_debug c = false ->
  run (initial r c) tr s -> In (LQuiet GNats) tr -> (forall w, ~ reported tr GInterrupt w) -> ret s = None.
Proof.
  intros r c tr s H1 H2 H4 H Hq Hn. destruct (ret s) as [v|] eqn:E; [|reflexivity]. exfalso.
  destruct (c45_returns_reported r c tr s v H E) as (g & a & b & d & W & Et).
  assert (K : reported tr g v) by (rewrite Et; apply in_or_app; right; left; reflexivity).
  destruct g; cbn [wanted] in W; [exact (Hn _ K)|congruence|destruct W; congruence|destruct W; congruence|].
  exact (proj2 (quiet_inv r c _ _ H GNats Hq) v K).
Qed.
(** Every other wanted goroutine ends only by reporting: one that is done was received from. *)
Theorem c45_others_never_quiet : forall r c tr s g, run (initial r c) tr s -> gos s g = Some PDone -> g <> GNats ->
  exists v, In (LReceive g v) tr /\ ret s = Some v.
Proof.
  intros r c tr s g H. induction H as [|tr s1 l s2 H IH Hs]; intros Hd Hn; [discriminate|].
  assert (R : run (initial r c) (tr ++ [l]) s2) by (eapply RSnoc; eassumption).
  assert (P : (gos s1 g = Some PDone \/ exists v, l = LReceive g v)).
  { destruct Hs as [s h gs Et|s h v Hg|s h Hg Ht|s h v Hg|s Hg|s h v Et Er Hg].
    - cbn [gos] in Hd. destruct (gid_eq_dec g h); [discriminate|left; exact Hd].
    - destruct (gid_eq_dec g h) as [<-|Hx]; [rewrite set_pc_same in Hd; discriminate|rewrite set_pc_other in Hd by exact Hx; left; exact Hd].
    - destruct (gid_eq_dec g h) as [<-|Hx]; [rewrite set_pc_same in Hd; discriminate|rewrite set_pc_other in Hd by exact Hx; left; exact Hd].
    - destruct (gid_eq_dec g h) as [<-|Hx]; [rewrite set_pc_same in Hd; discriminate|rewrite set_pc_other in Hd by exact Hx; left; exact Hd].
    - rewrite set_pc_other in Hd by exact Hn. left. exact Hd.
    - cbn [gos] in Hd. destruct (gid_eq_dec g h) as [<-|Hx]; [right; exists v; reflexivity|left; exact Hd]. }
  assert (Q : exists v, In (LReceive g v) (tr ++ [l])).
  { destruct P as [P|[v ->]]; [destruct (IH P Hn) as (v & K & _); exists v; apply in_snoc; left; exact K|exists v; apply in_snoc; right; reflexivity]. }
  destruct Q as [v Q]. exists v. split; [exact Q|]. exact (proj2 (proj2 (one_receive r c _ _ R g v g v Q Q))).
Qed.

(** ** C64 *)
Lemma parse_bool_true : forall v, parse_bool v = Some true <-> In v true_words.
Proof.
  intro v. unfold parse_bool. fold true_words. fold false_words. destruct (existsb (str_eqb v) true_words) eqn:E.
  - split; [intros _|reflexivity]. apply existsb_exists in E. destruct E as (w & Hw & E). apply str_eqb_eq in E. subst w. exact Hw.
  - split; [destruct (existsb (str_eqb v) false_words); discriminate|]. intro K. exfalso.
    assert (X : existsb (str_eqb v) true_words = true) by (apply existsb_exists; exists v; split; [exact K|apply str_eqb_refl]). congruence.
Qed.
Lemma parse_bool_some : forall v, parse_bool v <> None <-> In v true_words \/ In v false_words.
Proof.
  intro v. rewrite <- parse_bool_true. unfold parse_bool. fold true_words. fold false_words. destruct (existsb (str_eqb v) true_words) eqn:E.
  - split; [auto|discriminate].
  - destruct (existsb (str_eqb v) false_words) eqn:E2.
    + split; [intros _; right|discriminate]. apply existsb_exists in E2. destruct E2 as (w & Hw & E2). apply str_eqb_eq in E2. subst w. exact Hw.
    + split; [congruence|]. intros [K|K]; [discriminate|]. exfalso.
      assert (X : existsb (str_eqb v) false_words = true) by (apply existsb_exists; exists v; split; [exact K|apply str_eqb_refl]). congruence.
Qed.

(** The configuration Run gets: the last flag, else the environment, else the default; the program ends instead
    exactly if the command line is not made of known flags or a value of -debug is not a spelling of a boolean. *)
Theorem c64_settings : forall E args c, main_config E args = Some c <->
  exists l, written l args
  /\ (forall v, In (T "debug", v) l -> In v true_words \/ In v false_words)
  /\ c_http c = first_of [last_set (T "http.addr") l; set_var E (T "HTTP_ADDR"); option_map (app (T ":")) (set_var E (T "PORT"))] []
  /\ c_debug_addr c = first_of [last_set (T "debug.addr") l; set_var E (T "DEBUG_ADDR")] (T ":5060")
  /\ c_grpc c = first_of [last_set (T "grpc.addr") l; set_var E (T "GRPC_ADDR")] []
  /\ c_nats c = first_of [last_set (T "nats.addr") l; set_var E (T "NATS_ADDR")] []
  /\ (c_debug c = true <-> match last_set (T "debug") l with Some v => In v true_words | None => to_lower (E (T "DEBUG")) = T "true" end).
Proof.
  intros E args c.
  assert (P : forall l, written l args -> (main_config E args = Some c <->
    (forall v, In (T "debug", v) l -> In v true_words \/ In v false_words)
    /\ c_http c = first_of [last_set (T "http.addr") l; set_var E (T "HTTP_ADDR"); option_map (app (T ":")) (set_var E (T "PORT"))] []
    /\ c_debug_addr c = first_of [last_set (T "debug.addr") l; set_var E (T "DEBUG_ADDR")] (T ":5060")
    /\ c_grpc c = first_of [last_set (T "grpc.addr") l; set_var E (T "GRPC_ADDR")] []
    /\ c_nats c = first_of [last_set (T "nats.addr") l; set_var E (T "NATS_ADDR")] []
    /\ (c_debug c = true <-> match last_set (T "debug") l with Some v => In v true_words | None => to_lower (E (T "DEBUG")) = T "true" end))).
  { intros l Hl. unfold main_config. rewrite (flag_parse_of l args Hl). rewrite (set_all_spec l (from_env E) (written_names l args Hl)).
    assert (F1 : c_http (from_env E) = first_of [set_var E (T "HTTP_ADDR"); option_map (app (T ":")) (set_var E (T "PORT"))] []).
    { unfold from_env, set_var, or_env. cbn [c_http]. destruct (E (T "HTTP_ADDR")); [|reflexivity]. destruct (E (T "PORT")); reflexivity. }
    assert (F2 : c_debug_addr (from_env E) = first_of [set_var E (T "DEBUG_ADDR")] (T ":5060")).
    { unfold from_env, set_var, or_env. cbn [c_debug_addr]. destruct (E (T "DEBUG_ADDR")); reflexivity. }
    assert (F3 : c_grpc (from_env E) = first_of [set_var E (T "GRPC_ADDR")] []).
    { unfold from_env, set_var, or_env. cbn [c_grpc]. destruct (E (T "GRPC_ADDR")); reflexivity. }
    assert (F4 : c_nats (from_env E) = first_of [set_var E (T "NATS_ADDR")] []).
    { unfold from_env, set_var, or_env. cbn [c_nats]. destruct (E (T "NATS_ADDR")); reflexivity. }
    assert (F5 : c_debug (from_env E) = true <-> to_lower (E (T "DEBUG")) = T "true").
    { unfold from_env. cbn [c_debug]. destruct (E (T "DEBUG")) as [|x d]; [split; discriminate|]. rewrite str_eqb_eq. split; intro K; congruence. }
    rewrite F1, F2, F3, F4.
    assert (G : forall o l' d, or_ o (first_of l' d) = first_of (o :: l') d) by (intros [] l' d; reflexivity). rewrite !G.
    assert (B1 : (forall v, In (T "debug", v) l -> parse_bool v <> None) <-> (forall v, In (T "debug", v) l -> In v true_words \/ In v false_words)).
    { split; intros Q v K; apply parse_bool_some; exact (Q v K). }
    assert (B2 : (forall v, In (T "debug", v) l -> parse_bool v <> None) ->
      (match last_set (T "debug") l with Some v => parse_bool v = Some (c_debug c) | None => c_debug c = c_debug (from_env E) end
       <-> (c_debug c = true <-> match last_set (T "debug") l with Some v => In v true_words | None => to_lower (E (T "DEBUG")) = T "true" end))).
    { intro Q. destruct (last_set (T "debug") l) as [v|] eqn:El.
      - assert (Hv : parse_bool v <> None).
        { apply Q. clear - El. revert El. induction l as [|[m w] l IH]; cbn [last_set]; [discriminate|]. destruct (last_set (T "debug") l) as [u|].
          - intro K. right. apply IH. exact K.
          - destruct (str_eqb m (T "debug")) eqn:Em; [|discriminate]. intro K. apply str_eqb_eq in Em. left. congruence. }
        rewrite <- parse_bool_true. destruct (parse_bool v) as [b|]; [|congruence]. destruct b, (c_debug c); split; intuition congruence.
      - rewrite <- F5. destruct (c_debug c), (c_debug (from_env E)); split; intuition congruence. }
    split.
    - intros (Q0 & Q1 & Q2 & Q3 & Q4 & Q5). split; [apply B1; exact Q0|]. split; [exact Q1|]. split; [exact Q2|]. split; [exact Q3|]. split; [exact Q4|]. apply B2; assumption.
    - intros (Q0 & Q1 & Q2 & Q3 & Q4 & Q5). pose proof (proj2 B1 Q0) as Q9. clear Q0. rename Q9 into Q0. split; [exact Q0|]. split; [exact Q1|]. split; [exact Q2|]. split; [exact Q3|]. split; [exact Q4|]. apply B2; assumption. }
  split.
  - intro H. destruct (written_of (length args) args (from_env E) c (le_n _) H) as [l Hl]. exists l. split; [exact Hl|]. apply (P l Hl). exact H.
  - intros (l & Hl & H). apply (P l Hl). exact H.
Qed.

(** Refuted: the environment and the flag take the same words for true. *)
Theorem c64_debug_words_refuted :
  exists E args c1 c2, E (T "DEBUG") = T "1" /\ main_config E [] = Some c1 /\ c_debug c1 = false
    /\ main_config (fun _ => []) args = Some c2 /\ args = [T "-debug=1"] /\ c_debug c2 = true.
Proof.
  exists (fun n => if str_eqb n (T "DEBUG") then T "1" else []), [T "-debug=1"]. eexists. eexists.
  split; [reflexivity|]. split; [reflexivity|]. split; [reflexivity|]. split; [reflexivity|]. split; reflexivity.
Qed.
(** Refuted: -debug takes its value from the next argument; it is on, and the flags after it are ignored. *)
Theorem c64_debug_false_refuted : forall E rest, exists c, main_config E (T "-debug" :: T "false" :: rest) = Some c /\ c_debug c = true.
Proof. intros E rest. eexists. split; reflexivity. Qed.
(** An empty flag value switches a transport off although the environment names an address. *)
Theorem c64_switch_off : forall E d, dash_or_two d -> exists c, main_config E [d ++ T "http.addr="] = Some c /\ c_http c = [].
Proof. intros E d [-> | ->]; eexists; (split; [reflexivity|reflexivity]). Qed.

Print Assumptions c45_returns_reported. Print Assumptions c45_can_return. Print Assumptions c45_signal_always.
Print Assumptions c45_nats_ends_quietly_refuted. Print Assumptions c45_others_never_quiet. Print Assumptions c64_settings.

(** ** Cases that meet the hypotheses *)
Definition ex_r := mkRendering true (T "all").
Definition ex_c := mkConfig (T ":80") (T ":5060") (T ":81") (T "nats://h") false.
(** Two goroutines report; Run may return with either. *)
Definition two (first second : gid) (v w : value) : list label :=
  map LStart (to_start ex_r ex_c) ++ [LReport first v] ++ [LReport second w] ++ [LReceive second w].
Example ex_either : forall v w, exists s s',
  run (initial ex_r ex_c) (two GHttp GGrpc v w) s /\ ret s = Some w /\ run (initial ex_r ex_c) (two GGrpc GHttp w v) s' /\ ret s' = Some v.
Proof.
  intros v w. destruct (start_all (to_start ex_r ex_c) (initial ex_r ex_c) eq_refl (no_dup_start _ _) (fun _ _ => eq_refl)) as (s & R & E1 & E2 & _ & E4).
  assert (Hh : gos s GHttp = Some PFirst) by (apply E4; vm_compute; tauto).
  assert (Hg : gos s GGrpc = Some PFirst) by (apply E4; vm_compute; tauto).
  eexists. eexists. split; [|split; [|split]].
  - apply (run_trans _ _ _ R). apply (RSnoc _ ([LReport GHttp v] ++ [LReport GGrpc w]) (set_pc (set_pc s GHttp (PSending v)) GGrpc (PSending w))).
    + apply (RSnoc _ [LReport GHttp v] (set_pc s GHttp (PSending v))).
      * apply (RSnoc _ [] s); [apply RNil|]. apply SReport1. exact Hh.
      * apply SReport1. rewrite set_pc_other by discriminate. exact Hg.
    + apply SReceive; [exact E1|exact E2|apply set_pc_same].
  - reflexivity.
  - apply (run_trans _ _ _ R). apply (RSnoc _ ([LReport GGrpc w] ++ [LReport GHttp v]) (set_pc (set_pc s GGrpc (PSending w)) GHttp (PSending v))).
    + apply (RSnoc _ [LReport GGrpc w] (set_pc s GGrpc (PSending w))).
      * apply (RSnoc _ [] s); [apply RNil|]. apply SReport1. exact Hg.
      * apply SReport1. rewrite set_pc_other by discriminate. exact Hh.
    + apply SReceive; [exact E1|exact E2|apply set_pc_same].
  - reflexivity.
Qed.
Definition ex_env : environ := fun n => if str_eqb n (T "PORT") then T "8080" else if str_eqb n (T "GRPC_ADDR") then T ":1" else if str_eqb n (T "DEBUG") then T "TRUE" else [].
Example ex_written : written [(T "grpc.addr", T ":2"); (T "debug", T "f"); (T "grpc.addr", T ":3")]
  [T "-grpc.addr"; T ":2"; T "--debug=f"; T "-grpc.addr=:3"; T "x"; T "-http.addr=:9"].
Proof.
  apply (w_space (T "-") (T "grpc.addr") (T ":2")); [left; reflexivity|right; right; left; reflexivity|].
  apply (w_equal (T "--") (T "debug") (T "f")); [right; reflexivity|left; reflexivity|].
  apply (w_equal (T "-") (T "grpc.addr") (T ":3")); [left; reflexivity|right; right; right; left; reflexivity|].
  apply w_end. right. right. discriminate.
Qed.
Example ex_main : main_config ex_env [T "-grpc.addr"; T ":2"; T "--debug=f"; T "-grpc.addr=:3"; T "x"; T "-http.addr=:9"]
  = Some (mkConfig (T ":8080") (T ":5060") (T ":3") [] false).
Proof. reflexivity. Qed.
