(** C86: the texts of the generated server (server/server.go, server/interrupt.go, cmd/NAME/main.go) do what Server.v says about it (C45, C64): read as Go (GoLex.v, GoDecls.v) they are
    programs of GoServer.v, and these have the settings and the executions of Server.v. *)
From Coq Require Import String Lia.
From Verif Require Import GoStr GoStrProofs Strs StrsSpec SvcTypes Generator HttpTransport Render TextSpec GoLex GoDecls GoServer ServerProg Server DecoderProto.
From Verif Require TextFile GoLexProofs WiringProofs WiringSpec TextOthers TextOthersProofs FileService FileOthers FileOthers2 ServerSpec ServerProofs PropServer PropGoFile.

(** ** Settings *)
(** server.Config as Server.v has it, and as fields *)
Definition of_config (c : config) : store := fun f =>
  if str_eqb f (T "HTTPAddr") then GStr (c_http c) else if str_eqb f (T "DebugAddr") then GStr (c_debug_addr c) else if str_eqb f (T "GRPCAddr") then GStr (c_grpc c)
  else if str_eqb f (T "NATSAddr") then GStr (c_nats c) else if str_eqb f (T "Debug") then GBool (c_debug c) else GStr [].
Definition config_fields : list str := [T "HTTPAddr"; T "DebugAddr"; T "GRPCAddr"; T "NATSAddr"; T "Debug"].
Definition agree (st : store) (c : config) : Prop := forall f, In f config_fields -> st f = of_config c f.
(** A variable of type server.Config before it is set *)
Definition zero_config : config := mkConfig [] [] [] [] false.

Lemma agree_split st c : agree st c <-> st (T "HTTPAddr") = GStr (c_http c) /\ st (T "DebugAddr") = GStr (c_debug_addr c) /\ st (T "GRPCAddr") = GStr (c_grpc c) /\ st (T "NATSAddr") = GStr (c_nats c) /\ st (T "Debug") = GBool (c_debug c).
Proof.
  split.
  - intro H. repeat split; (etransitivity; [apply H; cbn [In config_fields]; auto 8|reflexivity]).
  - intros (A & B & C & D & E) f Hf. cbn [In config_fields] in Hf. destruct Hf as [<-|[<-|[<-|[<-|[<-|[]]]]]]; assumption.
Qed.
Lemma initial_agree E : agree (exec_settings E (of_config zero_config) settings) (from_env E).
Proof.
  apply agree_split. unfold exec_settings, settings. cbn [fold_left]. unfold from_env, exec_setting, or_env.
  destruct (E (T "DEBUG")), (E (T "DEBUG_ADDR")), (E (T "PORT")), (E (T "HTTP_ADDR")), (E (T "GRPC_ADDR")), (E (T "NATS_ADDR")); repeat split.
Qed.
Lemma equals_is s : at_equals s = cut_eq s. Proof. induction s as [|c s IH]; [reflexivity|]. cbn [at_equals cut_eq]. rewrite IH. reflexivity. Qed.
Lemma flag_cases n : match flag_named n (flags_of settings) with
  | None => is_flag n = false
  | Some (f, b) => is_flag n = true /\ b = str_eqb n (T "debug") /\ forall st c v, agree st c ->
      if b then match bool_value v with Some x => exists c', set_flag c n v = Some c' /\ agree (set st f (GBool x)) c' | None => set_flag c n v = None end
      else exists c', set_flag c n v = Some c' /\ agree (set st f (GStr v)) c'
  end.
Proof.
  unfold flags_of, settings. cbn [flat_map app flag_named]. unfold is_flag. cbn [existsb].
  destruct (str_eqb n (T "debug.addr")) eqn:E1; [apply str_eqb_eq in E1; subst n; split; [reflexivity|]; split; [reflexivity|]; intros st c v A; eexists; split; [reflexivity|]; rewrite agree_split in A; apply agree_split; repeat split; apply A|].
  destruct (str_eqb n (T "http.addr")) eqn:E2; [apply str_eqb_eq in E2; subst n; split; [reflexivity|]; split; [reflexivity|]; intros st c v A; eexists; split; [reflexivity|]; rewrite agree_split in A; apply agree_split; repeat split; apply A|].
  destruct (str_eqb n (T "grpc.addr")) eqn:E3; [apply str_eqb_eq in E3; subst n; split; [reflexivity|]; split; [reflexivity|]; intros st c v A; eexists; split; [reflexivity|]; rewrite agree_split in A; apply agree_split; repeat split; apply A|].
  destruct (str_eqb n (T "nats.addr")) eqn:E4; [apply str_eqb_eq in E4; subst n; split; [reflexivity|]; split; [reflexivity|]; intros st c v A; eexists; split; [reflexivity|]; rewrite agree_split in A; apply agree_split; repeat split; apply A|].
  destruct (str_eqb n (T "debug")) eqn:E5; [|reflexivity]. apply str_eqb_eq in E5. subst n. split; [reflexivity|]. split; [reflexivity|]. intros st c v A. change (bool_value v) with (parse_bool v).
  change (set_flag c (T "debug") v) with (match parse_bool v with Some b => Some (mkConfig (c_http c) (c_debug_addr c) (c_grpc c) (c_nats c) b) | None => None end). destruct (parse_bool v); [|reflexivity].
  eexists. split; [reflexivity|]. rewrite agree_split in A. apply agree_split. repeat split; apply A.
Qed.
Lemma parse_agree : forall n args st c, length args <= n -> agree st c ->
  match parse_flags (flags_of settings) st args, flag_parse c args with Some st', Some c' => agree st' c' | None, None => True | _, _ => False end.
Proof.
  induction n as [|n IH]; intros args st c L A; (destruct args as [|s args]; [exact A|]); [cbn in L; lia|]. cbn [length] in L. cbn [parse_flags flag_parse].
  destruct s as [|a s]; [exact A|]. destruct a as [|p]; [exact A|]. destruct (Pos.eq_dec p 45) as [->|Ne]; [|destruct p as [p|p|]; try exact A; repeat (destruct p as [p|p|]; try exact A); contradiction].
  destruct s as [|b s]; [exact A|]. change (N.eqb b c_dash) with (N.eqb b 45). destruct (if N.eqb b 45 then s else b :: s) as [|x t]; [exact A|].
  change (N.eqb x c_dash) with (N.eqb x 45). destruct (N.eqb x 45 || N.eqb x 61); [exact I|]. rewrite equals_is. destruct (cut_eq t) as [m v]. pose proof (flag_cases (x :: m)) as F.
  destruct (flag_named (x :: m) (flags_of settings)) as [[f k]|]; [|rewrite F; exact I]. destruct F as (-> & -> & F). cbn [negb]. destruct (str_eqb (x :: m) (T "debug")).
  - specialize (F st c (match v with Some y => y | None => T "true" end) A). destruct (bool_value _) as [z|]; [|rewrite F; exact I]. destruct F as (c' & -> & A'). apply IH; [lia|exact A'].
  - destruct v as [y|]; [|destruct args as [|y args]; [exact I|]]; destruct (F st c y A) as (c' & -> & A'); apply IH; [lia|exact A'|cbn [length] in L; lia|exact A'].
Qed.

(** ** Goroutines *)
(** The same events *)
Definition event_of (l : label) : event gid := match l with LStart g => Starts _ g | LReport g v => Fails _ g v | LPhase g => Passes _ g | LQuiet g => Ends _ g | LReceive g v => Receives _ g v end.
Section Threads.
  Variables (r : rendering) (svc : str) (c : config).
  Definition body_of (g : gid) : list gstmt := match g with GInterrupt => interrupt_body | GDebug => debug_body | GHttp => http_body | GGrpc => grpc_body svc | GNats => nats_body end.
  Lemma event_inj l l' : event_of l = event_of l' -> l = l'. Proof. destruct l, l'; intro H; try discriminate H; injection H; intros; subst; reflexivity. Qed.
  (** Where a goroutine is, in both *)
  Definition at_pc (g : gid) (x : option where_) (p : option pc) : Prop :=
    match x, p with
    | None, None => True
    | Some (At l), Some PFirst => next (body_of g) = At l
    | Some (At l), Some PSecond => two_calls g = true /\ exists a m, next (body_of g) = At (Try a :: m) /\ next m = At l
    | Some (Sending v m), Some (PSending v') => v = v' /\ next m = Over
    | Some Over, Some PDone => True
    | _, _ => False
    end.
  Record same (gs : gstate gid) (s : state) : Prop := {
    same_todo : map (st_thread _) (g_todo _ gs) = todo s;
    same_body : Forall (fun x => st_body _ x = body_of (st_thread _ x)) (g_todo _ gs);
    same_pc : forall g, at_pc g (g_threads _ gs g) (gos s g);
    same_ret : g_ret _ gs = ret s }.
  Lemma first_at g : exists l, next (body_of g) = At l. Proof. destruct g; eexists; reflexivity. Qed.
  Lemma put_same gs s g x p : same gs s -> at_pc g (Some x) (Some p) -> same (put _ gid_eq_dec gs g x) (set_pc s g p).
  Proof. intros [A B C D] H. split; cbn; try assumption. intro h. destruct (gid_eq_dec h g) as [->|_]; [exact H|apply C]. Qed.
  Lemma at_inv g l p : at_pc g (Some (At l)) p -> (p = Some PFirst /\ next (body_of g) = At l) \/ (p = Some PSecond /\ two_calls g = true /\ exists a m, next (body_of g) = At (Try a :: m) /\ next m = At l).
  Proof. destruct p as [[| | |]|]; cbn [at_pc]; intro H; try (destruct H; fail); [left|right]; auto. Qed.
  Lemma send_inv g v m p : at_pc g (Some (Sending v m)) p -> p = Some (PSending v) /\ next m = Over.
  Proof. destruct p as [[| | |]|]; cbn [at_pc]; intro H; try (destruct H; fail). destruct H as [-> H]. auto. Qed.
  Lemma first_inv g x : at_pc g x (Some PFirst) -> exists l, x = Some (At l) /\ next (body_of g) = At l.
  Proof. destruct x as [[l|v m|]|]; cbn [at_pc]; intro H; try (destruct H; fail). eauto. Qed.
  Lemma second_inv g x : at_pc g x (Some PSecond) -> exists l, x = Some (At l) /\ two_calls g = true /\ exists a m, next (body_of g) = At (Try a :: m) /\ next m = At l.
  Proof. destruct x as [[l|v m|]|]; cbn [at_pc]; intro H; try (destruct H; fail). eauto. Qed.
  Lemma sending_inv g x v : at_pc g x (Some (PSending v)) -> exists m, x = Some (Sending v m) /\ next m = Over.
  Proof. destruct x as [[l|v' m|]|]; cbn [at_pc]; intro H; try (destruct H; fail). destruct H as [-> H]. eauto. Qed.
  (** What the bodies come to: a report, or two calls of which the first is tried; the second call of GNats is tried, too, and the last. *)
  Lemma body_shape g : exists l, next (body_of g) = At l /\
    if two_calls g then exists a m l2, l = Try a :: m /\ next m = At l2 /\ (match g with GNats => exists b n, l2 = Try b :: n /\ next n = Over | _ => exists b n, l2 = Report b :: n /\ next n = Over end)
    else exists a m, l = Report a :: m /\ next m = Over.
  Proof. destruct g; eexists; (split; [reflexivity|]); cbn [two_calls]; [| | |eexists; eexists; eexists; split; [reflexivity|]; split; [reflexivity|]|eexists; eexists; eexists; split; [reflexivity|]; split; [reflexivity|]]; eexists; eexists; split; reflexivity. Qed.
  Lemma simulates gs s e gs' : same gs s -> gstep _ gid_eq_dec gs e gs' -> exists l s', e = event_of l /\ step s l s' /\ same gs' s'.
  Proof.
    intros S H. pose proof S as [A B C D]. destruct H as [gs x l Ht|gs t l m v Ht|gs t l m v Ht|gs t l m k Ht Hn|gs t l m Ht Hn|gs t v m H1 H2 Ht].
    - rewrite Ht in A, B. cbn [map] in A. exists (LStart (st_thread _ x)). eexists. split; [reflexivity|]. split; [apply SStart; symmetry; exact A|]. split; cbn.
      + reflexivity.
      + inversion B. assumption.
      + intro g. destruct (gid_eq_dec g (st_thread _ x)) as [->|_]; [|apply C]. inversion B as [|? ? Bx _]; subst. rewrite Bx. destruct (first_at (st_thread _ x)) as (k & K). rewrite K. exact K.
      + exact D.
    - pose proof (C t) as P. rewrite Ht in P. exists (LReport t v), (set_pc s t (PSending v)). split; [reflexivity|]. split; [|apply put_same; [exact S|split; reflexivity]].
      destruct (at_inv _ _ _ P) as [[E _]|[E _]]; [apply SReport1|apply SReport2]; exact E.
    - pose proof (C t) as P. rewrite Ht in P. exists (LReport t v), (set_pc s t (PSending v)). split; [reflexivity|]. destruct (body_shape t) as (l0 & N0 & Sh).
      destruct (at_inv _ _ _ P) as [[E K]|[E [W (a & n & K1 & K2)]]].
      + split; [apply SReport1; exact E|]. apply put_same; [exact S|]. split; [reflexivity|]. rewrite N0 in K. injection K as ->. destruct (two_calls t); [destruct Sh as (a & m' & l2 & X & _); discriminate X|]. destruct Sh as (a & m' & X & Y). injection X as _ <-. exact Y.
      + split; [apply SReport2; exact E|]. apply put_same; [exact S|]. split; [reflexivity|]. rewrite W in Sh. destruct Sh as (a' & m' & l2 & X & Y & Z). rewrite N0 in K1. injection K1 as ->. injection X as _ <-. rewrite K2 in Y. injection Y as <-.
        destruct t; destruct Z as (b & n' & Z1 & Z2); try discriminate Z1; injection Z1 as _ <-; exact Z2.
    - pose proof (C t) as P. rewrite Ht in P. exists (LPhase t), (set_pc s t PSecond). split; [reflexivity|]. destruct (body_shape t) as (l0 & N0 & Sh).
      destruct (at_inv _ _ _ P) as [[E K]|[E [W (a & n & K1 & K2)]]].
      + assert (W : two_calls t = true) by (destruct (two_calls t); [reflexivity|]; destruct Sh as (a & m' & X & _); rewrite N0 in K; injection K as ->; discriminate X).
        split; [apply SPhase; assumption|]. apply put_same; [exact S|]. split; [exact W|]. exists l, m. split; assumption.
      + exfalso. rewrite W in Sh. destruct Sh as (a' & m' & l2 & X & Y & Z). rewrite N0 in K1. injection K1 as ->. injection X as _ <-. rewrite K2 in Y. injection Y as <-.
        destruct t; destruct Z as (b & n' & Z1 & Z2); try discriminate Z1. injection Z1 as _ <-. rewrite Hn in Z2. discriminate Z2.
    - pose proof (C t) as P. rewrite Ht in P. exists (LQuiet t), (set_pc s t PDone). split; [reflexivity|]. destruct (body_shape t) as (l0 & N0 & Sh).
      destruct (at_inv _ _ _ P) as [[E K]|[E [W (a & n & K1 & K2)]]].
      + exfalso. rewrite N0 in K. injection K as ->. destruct (two_calls t); [destruct Sh as (a & m' & l2 & X & Y & _); injection X as _ <-; rewrite Hn in Y; discriminate Y|]. destruct Sh as (a & m' & X & _). discriminate X.
      + rewrite W in Sh. destruct Sh as (a' & m' & l2 & X & Y & Z). rewrite N0 in K1. injection K1 as ->. injection X as _ <-. rewrite K2 in Y. injection Y as <-.
        assert (Et : t = GNats) by (destruct t; destruct Z as (b & n' & Z1 & Z2); try discriminate Z1; reflexivity). subst t. split; [apply SQuiet; exact E|]. apply put_same; [exact S|exact I].
    - pose proof (C t) as P. rewrite Ht in P. rewrite H1 in A. destruct (send_inv _ _ _ _ P) as [E M]. exists (LReceive t v). eexists. split; [reflexivity|]. split; [apply SReceive; [symmetry; exact A|rewrite <- D; exact H2|exact E]|].
      split; cbn; [reflexivity|constructor| |reflexivity]. intro g. destruct (gid_eq_dec g t) as [->|_]; [rewrite M; exact I|apply C].
  Qed.
  Lemma simulated gs s l s' : same gs s -> step s l s' -> exists gs', gstep _ gid_eq_dec gs (event_of l) gs' /\ same gs' s'.
  Proof.
    intros S H. pose proof S as [A B C D]. destruct H as [s g gg Ht|s g v Ht|s g Ht W|s g v Ht|s Ht|s g v H1 H2 Ht].
    - rewrite Ht in A. destruct (g_todo _ gs) as [|x l] eqn:Eg; [discriminate A|]. cbn [map] in A. injection A as Ax A. eexists. split; [cbn [event_of]; rewrite <- Ax; apply GStart; exact Eg|]. split; cbn.
      + exact A.
      + inversion B. assumption.
      + intro h. rewrite Ax. destruct (gid_eq_dec h g) as [->|_]; [|apply C]. inversion B as [|? ? Bx _]; subst. rewrite Bx. destruct (first_at (st_thread _ x)) as (k & K). rewrite K. exact K.
      + exact D.
    - pose proof (C g) as P. rewrite Ht in P. destruct (first_inv _ _ P) as (l & E & K). destruct (body_shape g) as (l0 & N0 & Sh). rewrite N0 in K. injection K as ->. destruct (two_calls g).
      + destruct Sh as (a & m & l2 & -> & _). eexists. split; [cbn [event_of]; eapply GFail; exact E|]. apply put_same; [exact S|split; reflexivity].
      + destruct Sh as (a & m & -> & M). eexists. split; [cbn [event_of]; eapply GReport; exact E|]. apply put_same; [exact S|split; [reflexivity|exact M]].
    - pose proof (C g) as P. rewrite Ht in P. destruct (first_inv _ _ P) as (l & E & K). destruct (body_shape g) as (l0 & N0 & Sh). rewrite W in Sh. destruct Sh as (a & m & l2 & X & Y & Z). rewrite N0 in K. injection K as ->. subst l.
      eexists. split; [cbn [event_of]; eapply GPass; [exact E|exact Y]|]. apply put_same; [exact S|]. split; [exact W|]. exists a, m. split; assumption.
    - pose proof (C g) as P. rewrite Ht in P. destruct (second_inv _ _ P) as (l & E & W & a & m & K1 & K2). destruct (body_shape g) as (l0 & N0 & Sh). rewrite W in Sh. destruct Sh as (a' & m' & l2 & X & Y & Z). rewrite N0 in K1. injection K1 as ->.
      injection X as _ <-. rewrite K2 in Y. injection Y as <-.
      assert (Z' : exists b n, (l = Report b :: n \/ l = Try b :: n) /\ next n = Over) by (destruct g; destruct Z as (b & n & Z1 & Z2); exists b, n; auto). destruct Z' as (b & n & [->| ->] & M).
      + eexists. split; [cbn [event_of]; eapply GReport; exact E|]. apply put_same; [exact S|split; [reflexivity|exact M]].
      + eexists. split; [cbn [event_of]; eapply GFail; exact E|]. apply put_same; [exact S|split; reflexivity].
    - pose proof (C GNats) as P. rewrite Ht in P. destruct (second_inv _ _ P) as (l & E & W & a & m & K1 & K2). destruct (body_shape GNats) as (l0 & N0 & Sh). cbn [two_calls] in Sh. destruct Sh as (a' & m' & l2 & X & Y & (b & n & Z1 & Z2)). rewrite N0 in K1. injection K1 as ->.
      injection X as _ <-. rewrite K2 in Y. injection Y as <-. subst l. eexists. split; [cbn [event_of]; eapply GEnd; [exact E|exact Z2]|]. apply put_same; [exact S|exact I].
    - pose proof (C g) as P. rewrite Ht in P. destruct (sending_inv _ _ _ P) as (m & E & M). eexists. split; [cbn [event_of]; eapply GReceive; [destruct (g_todo _ gs); [reflexivity|rewrite H1 in A; discriminate A]|rewrite D; exact H2|exact E]|].
      split; cbn; [reflexivity|constructor| |reflexivity]. intro h. destruct (gid_eq_dec h g) as [->|_]; [rewrite M; exact I|apply C].
  Qed.
  Notation program := (starts (r_http r) (r_grpc r) (r_nats r) svc).
  Lemma initial_same st : agree st c -> same (g_initial _ st program) (initial r c).
  Proof.
    intro A. rewrite agree_split in A. destruct A as (A1 & A2 & A3 & A4 & A5). unfold g_initial, initial, starts, to_start. split; cbn [g_todo g_threads g_ret todo gos ret]; [| |intro g; exact I|reflexivity].
    - destruct (r_http r), (r_grpc r), (r_nats r); cbn [app filter st_cond wanted]; rewrite ?A1, ?A3, ?A4, ?A5; unfold empty; destruct (c_debug c), (c_http c), (c_grpc c), (c_nats c); reflexivity.
    - apply Forall_forall. intros x Hx. apply filter_In in Hx. destruct Hx as [Hx _]. rewrite !in_app_iff in Hx. destruct Hx as [[<-|[<-|[]]]|[Hx|[Hx|Hx]]]; try reflexivity; [destruct (r_http r)|destruct (r_grpc r)|destruct (r_nats r)]; (destruct Hx as [<-|[]]; reflexivity) || (destruct Hx).
  Qed.
  Lemma runs_same st evs gs : agree st c -> grun _ gid_eq_dec (g_initial _ st program) evs gs -> exists tr s, evs = map event_of tr /\ run (initial r c) tr s /\ same gs s.
  Proof.
    intros A H. induction H as [|evs gs1 e gs2 H IH St]; [exists [], (initial r c); split; [reflexivity|]; split; [constructor|apply initial_same; exact A]|].
    destruct IH as (tr & s1 & -> & R & Sm). destruct (simulates gs1 s1 e gs2 Sm St) as (l & s2 & -> & T3 & Sm2). exists (tr ++ [l]), s2. rewrite map_app. split; [reflexivity|]. split; [econstructor; eassumption|exact Sm2].
  Qed.
  Lemma same_runs st tr s : agree st c -> run (initial r c) tr s -> exists gs, grun _ gid_eq_dec (g_initial _ st program) (map event_of tr) gs /\ same gs s.
  Proof.
    intros A H. induction H as [|tr s1 l s2 H IH St]; [exists (g_initial _ st program); split; [constructor|apply initial_same; exact A]|].
    destruct IH as (gs & R & Sm). destruct (simulated gs s1 l s2 Sm St) as (gs2 & G & Sm2). exists gs2. split; [|exact Sm2]. rewrite map_app. econstructor; eassumption.
  Qed.
End Threads.

(** The main goroutine received the same; each goroutine is not started, over, or waiting with a value in both. *)
Definition looks (gs : gstate gid) (s : state) : Prop := g_ret _ gs = ret s /\ forall g,
  (g_threads _ gs g = None <-> gos s g = None) /\ (g_threads _ gs g = Some Over <-> gos s g = Some PDone) /\ forall v, (exists l, g_threads _ gs g = Some (Sending v l)) <-> gos s g = Some (PSending v).
Lemma same_seen svc gs s : same svc gs s -> looks gs s.
Proof.
  intros [_ _ C D]. split; [exact D|]. intro g. specialize (C g). destruct (g_threads _ gs g) as [[l|v m|]|], (gos s g) as [[| |v'|]|]; cbn [at_pc] in C; try (destruct C; fail);
  (split; [split; intro X; try discriminate X; reflexivity|]); (split; [split; intro X; try discriminate X; reflexivity|]); intro u; split; intro X; try discriminate X; try (destruct X as (k & X); discriminate X).
  - destruct X as (k & X). injection X as <- _. destruct C as [-> _]. reflexivity.
  - injection X as <-. destruct C as [-> _]. exists m. reflexivity.
Qed.
Ltac fine := let t := fresh "t" in let Ht := fresh "Ht" in let K := fresh "K" in intros t Ht K; cbn [In app call_of] in Ht; repeat (destruct Ht as [<-|Ht]; [cbn [In] in K; repeat (destruct K as [K|K]; [discriminate K|]); destruct K|]); destruct Ht.
Lemma body_fine svc g : Forall stmt_fine (body_of svc g).
Proof.
  destruct g; cbn [body_of]; unfold interrupt_body, debug_body, http_body, grpc_body, nats_body, log_of, handle_of, listen_of, make_of; repeat (apply Forall_cons; [cbn [stmt_fine]; first [fine|split; [fine|cbn [In app]; auto 8]]|]); apply Forall_nil.
Qed.
Lemma bodies_fine h g n svc : Forall (fun x => Forall stmt_fine (st_body gid x)) (starts h g n svc).
Proof.
  unfold starts. apply Forall_cons; [exact (body_fine svc GInterrupt)|]. apply Forall_cons; [exact (body_fine svc GDebug)|]. cbn [app]. apply Forall_app. split; [destruct h; constructor; [exact (body_fine svc GHttp)|constructor]|].
  apply Forall_app. split; [destruct g; constructor; [exact (body_fine svc GGrpc)|constructor]|destruct n; constructor; [exact (body_fine svc GNats)|constructor]].
Qed.
Lemma starts_nodup h g n svc : NoDup (map (st_thread gid) (starts h g n svc)).
Proof. destruct h, g, n; cbn; repeat constructor; cbn; intuition discriminate. Qed.

(** What the goroutines call, and whose results they report: each its own address, with the handler or server made from the endpoints *)
Definition can_report (s : gstmt) : bool := match s with Do _ => false | _ => true end.
Definition calls_made (g : gid) : list gstmt :=
  match g with
  | GInterrupt => [Report [w "terminateError"]]
  | GDebug => [Report (call_of "http" "ListenAndServe" [w "cfg"; o "."; w "DebugAddr"; o ","; w "m"])]
  | GHttp => [Report (call_of "http" "ListenAndServe" [w "cfg"; o "."; w "HTTPAddr"; o ","; w "h"])]
  | GGrpc => [Try ([w "ln"; o ","; w "err"; o ":="] ++ call_of "net" "Listen" [Str (T "tcp"); o ","; w "cfg"; o "."; w "GRPCAddr"]); Report (call_of "s" "Serve" [w "ln"])]
  | GNats => [Try ([w "conn"; o ","; w "err"; o ":="] ++ call_of "nats" "Connect" [w "cfg"; o "."; w "NATSAddr"]); Try ([w "err"; o "="] ++ call_of "pb" "ServeNATS" [w "conn"; o ","; w "srv"])]
  end.
Definition prepared (svc : str) (g : gid) : list gstmt :=
  let from_endpoints x f opts := Do ([w x; o ":="] ++ call_of "pb" f [w "endpoints"; o ","; w opts; o "("; o ")"; o "..."]) in
  match g with
  | GInterrupt => [Do (call_of "signal" "Notify" [w "c"; o ","; w "syscall"; o "."; w "SIGINT"; o ","; w "syscall"; o "."; w "SIGTERM"]); Do ([w "terminateError"; o ":="] ++ call_of "fmt" "Errorf" [Str (T "%s"); o ","; o "<-"; w "c"])]
  | GDebug => [Do ([w "m"; o ":="] ++ call_of "http" "NewServeMux" [])]
  | GHttp => [from_endpoints "h"%string "MakeHTTPHandler"%string "HTTPServerOptions"%string]
  | GGrpc => [from_endpoints "srv"%string "MakeGRPCServer"%string "GRPCServerOptions"%string; Do ([w "s"; o ":="] ++ call_of "grpc" "NewServer" []); Do [w "pb"; o "."; Word (T "Register" ++ svc ++ T "Server"); o "("; w "s"; o ","; w "srv"; o ")"]]
  | GNats => [from_endpoints "srv"%string "MakeNATSServer"%string "NATSSubscriberOptions"%string]
  end.
Lemma served svc h g n : Forall (fun x => filter can_report (st_body gid x) = calls_made (st_thread gid x) /\ incl (prepared svc (st_thread gid x)) (st_body gid x)) (starts h g n svc).
Proof.
  assert (K : forall g, filter can_report (body_of svc g) = calls_made g /\ incl (prepared svc g) (body_of svc g)).
  { intros []; (split; [reflexivity|]); intros a Ha; cbn [prepared In] in Ha; repeat (destruct Ha as [<-|Ha]; [|]); try destruct Ha; cbn [body_of]; unfold interrupt_body, debug_body, http_body, grpc_body, nats_body; repeat (first [left; reflexivity|right]). }
  unfold starts. apply Forall_cons; [exact (K GInterrupt)|]. apply Forall_cons; [exact (K GDebug)|]. cbn [app]. apply Forall_app. split; [destruct h; constructor; [exact (K GHttp)|constructor]|].
  apply Forall_app. split; [destruct g; constructor; [exact (K GGrpc)|constructor]|destruct n; constructor; [exact (K GNats)|constructor]].
Qed.

(** ** The theorems *)
(** The variable config, init and main of cmd/NAME/main.go; whatever the environment and the arguments, the settings are those of Server.v, about which C64 speaks. *)
Theorem c86_settings : forall format_source d s, render_asset format_source CmdServerPath d = Some s ->
  exported_ident (sv_name (td_service d)) -> GoLexProofs.safe (td_import d) -> GoLexProofs.safe (td_pb_import d) ->
  exists ds l, declarations s = Some ds /\
    In [w "var"; w "config"; w "server"; o "."; w "Config"] ds /\
    In (plain ([w "func"; w "init"; o "("; o ")"; o "{"] ++ flat_map setting_toks l ++ [o "}"])) ds /\
    In (plain main_fun) ds /\
    forall E args, match parse_flags (flags_of l) (exec_settings E (of_config zero_config) l) args, main_config E args with
      | Some st, Some c => agree st c
      | None, None => True
      | _, _ => False
      end.
Proof.
  intros fs d s R Hs H1 H2. rewrite TextOthersProofs.cmd_server_is in R. assert (E : concat (TextOthers.cmd_server_pieces d) = s) by congruence. rewrite <- E. clear R E.
  assert (I : Forall GoLexProofs.inner [td_pb_import d; td_import d]) by (apply Forall_cons; [apply GoLexProofs.safe_inner; exact H2|]; apply Forall_cons; [apply GoLexProofs.safe_inner; exact H1|apply Forall_nil]).
  assert (J : Forall WiringSpec.ident [sv_name (td_service d)]) by (apply Forall_cons; [apply WiringProofs.exported_is_ident; exact Hs|apply Forall_nil]).
  destruct (FileService.filed_reads _ _ (FileOthers2.cmd_server_funs d J I)) as (ds & D & A & B & C). exists ds, settings. split; [exact D|]. split; [exact C|]. split; [exact A|]. split; [exact B|].
  intros E args. exact (parse_agree (length args) args _ _ (le_n _) (initial_agree E)).
Qed.

(** Run of server/server.go, and Interrupt of server/interrupt.go. *)
Theorem c86_run : forall format_source d s_server s_interrupt,
  render_asset format_source ServerPath d = Some s_server -> render_asset format_source ServerInterruptPath d = Some s_interrupt ->
  exported_ident (sv_name (td_service d)) -> (forall m, In m (sv_methods (td_service d)) -> exported_ident (sm_name m)) ->
  Forall GoLexProofs.safe [td_version d; td_date d; td_pb_import d; td_import d] ->
  exists ds di l, declarations s_server = Some ds /\ declarations s_interrupt = Some di /\
    (* Run is these go statements ... *)
    In (plain (run_fun l)) ds /\
    (forall x f, In x l -> st_fun _ x = Some f -> In (plain (fun_decl f (st_body _ x))) di) /\
    (* ... of bodies in which nothing else touches errc, returns, or starts or ends a goroutine ... *)
    Forall (fun x => Forall stmt_fine (st_body _ x)) l /\
    Forall (fun x => filter can_report (st_body _ x) = calls_made (st_thread _ x) /\ incl (prepared (sv_name (td_service d)) (st_thread _ x)) (st_body _ x)) l /\ NoDup (map (st_thread _) l) /\
    (* ... and its executions are those of Server.v, about which C45 speaks. *)
    forall st c, agree st c ->
      (forall evs gs, grun _ gid_eq_dec (g_initial _ st l) evs gs ->
         exists tr s, evs = map event_of tr /\ run (initial (mkRendering (nonempty (td_helper d)) (td_transport d)) c) tr s /\ looks gs s) /\
      (forall tr s, run (initial (mkRendering (nonempty (td_helper d)) (td_transport d)) c) tr s ->
         exists gs, grun _ gid_eq_dec (g_initial _ st l) (map event_of tr) gs /\ looks gs s).
Proof.
  intros fs d sv si R1 R2 Hs Hm Hd. rewrite TextOthersProofs.server_is in R1. assert (E1 : concat (TextOthers.server_pieces d) = sv) by congruence. rewrite <- E1. clear R1 E1.
  rewrite TextOthersProofs.server_interrupt_is in R2. assert (E2 : concat (TextOthers.server_interrupt_pieces d) = si) by congruence. rewrite <- E2. clear R2 E2.
  assert (I4 : Forall GoLexProofs.inner [td_version d; td_date d; td_pb_import d; td_import d]) by (eapply Forall_impl; [|exact Hd]; intros a Ha; apply GoLexProofs.safe_inner; exact Ha).
  assert (I2 : Forall GoLexProofs.inner [td_pb_import d; td_import d]) by (inversion I4 as [|? ? _ K]; inversion K; assumption).
  assert (J : Forall WiringSpec.ident [sv_name (td_service d)]) by (apply Forall_cons; [apply WiringProofs.exported_is_ident; exact Hs|apply Forall_nil]).
  assert (K : forall m, In m (sv_methods (td_service d)) -> Forall WiringSpec.ident [sm_name m; FileOthers.endpoint_var m]).
  { intros m Im. apply Forall_cons; [apply WiringProofs.exported_is_ident, Hm, Im|]. apply Forall_cons; [|apply Forall_nil].
    unfold FileOthers.endpoint_var. apply FileService.suffixed; [exact (Hm m Im)|repeat constructor|]. apply Forall_forall. vm_compute. repeat constructor. }
  destruct (FileService.filed_reads _ _ (FileOthers.server_reads d K J I4)) as (ds & D & (_ & _ & _ & A)). destruct (FileService.filed_reads _ _ (FileOthers2.interrupt_fun d J I2)) as (di & Di & B).
  exists ds, di, (starts (nonempty (td_helper d)) (TextFile.with_grpc d) (TextFile.with_nats d) (sv_name (td_service d))).
  split; [exact D|]. split; [exact Di|]. split; [|split; [|split; [|split; [|split]]]].
  - rewrite <- A. apply nth_In. destruct (Nat.lt_ge_cases 4 (length ds)) as [L|L]; [exact L|]. exfalso. rewrite (nth_overflow _ _ L) in A.
    assert (F : forall l, exists r, run_fun l = w "func" :: r) by (intro l; eexists; unfold run_fun; cbn [app]; reflexivity). destruct (F (starts (nonempty (td_helper d)) (TextFile.with_grpc d) (TextFile.with_nats d) (sv_name (td_service d)))) as (r & F'). rewrite F' in A. cbn [plain] in A. discriminate A.
  - intros x f Ix Fx. unfold starts in Ix. rewrite !in_app_iff in Ix. destruct Ix as [[<-|[<-|[]]]|[Ix|[Ix|Ix]]]; cbn [st_fun st_body] in *; [injection Fx as <-; exact B|discriminate Fx| | |];
      (match type of Ix with In _ (if ?b then _ else _) => destruct b end; [destruct Ix as [<-|[]]; discriminate Fx|destruct Ix]).
  - apply bodies_fine.
  - apply served.
  - apply starts_nodup.
  - intros st c Ag. split.
    + intros evs gs G. destruct (runs_same (mkRendering (nonempty (td_helper d)) (td_transport d)) (sv_name (td_service d)) c st evs gs Ag G) as (tr & s & X & Y & Z). exists tr, s. split; [exact X|]. split; [exact Y|]. apply same_seen in Z. exact Z.
    + intros tr s G. destruct (same_runs (mkRendering (nonempty (td_helper d)) (td_transport d)) (sv_name (td_service d)) c st tr s Ag G) as (gs & X & Z). exists gs. split; [exact X|]. apply same_seen in Z. exact Z.
Qed.

(** The two together: what the process that runs these texts does, in the words of C45.  It returns only with a value that one of its goroutines reported, and then it has the wanted goroutines only;
    and as soon as one has reported, it can return by itself. *)
Theorem c86_process : forall format_source d s_server s_interrupt s_main,
  render_asset format_source ServerPath d = Some s_server -> render_asset format_source ServerInterruptPath d = Some s_interrupt -> render_asset format_source CmdServerPath d = Some s_main ->
  exported_ident (sv_name (td_service d)) -> (forall m, In m (sv_methods (td_service d)) -> exported_ident (sm_name m)) ->
  Forall GoLexProofs.safe [td_version d; td_date d; td_pb_import d; td_import d] ->
  exists ds dm l sets, declarations s_server = Some ds /\ declarations s_main = Some dm /\ In (plain (run_fun l)) ds /\
    In (plain ([w "func"; w "init"; o "("; o ")"; o "{"] ++ flat_map setting_toks sets ++ [o "}"])) dm /\
    forall E args st, parse_flags (flags_of sets) (exec_settings E (of_config zero_config) sets) args = Some st ->
      exists c, main_config E args = Some c /\
      forall evs gs, grun _ gid_eq_dec (g_initial _ st l) evs gs ->
        (forall g, g_threads _ gs g <> None -> ServerSpec.wanted (mkRendering (nonempty (td_helper d)) (td_transport d)) c g) /\
        (forall v, g_ret _ gs = Some v -> exists g t1 t2 t3, evs = t1 ++ Fails _ g v :: t2 ++ Receives _ g v :: t3) /\
        (forall g v, In (Fails _ g v) evs -> g_ret _ gs = None -> exists more gs', grun _ gid_eq_dec (g_initial _ st l) (evs ++ more) gs' /\ g_ret _ gs' = Some v).
Proof.
  intros fs d sv si sm R1 R2 R3 Hs Hm Hd. assert (P : GoLexProofs.safe (td_import d) /\ GoLexProofs.safe (td_pb_import d)) by (inversion Hd as [|? ? _ K1]; inversion K1 as [|? ? _ K2]; inversion K2 as [|? ? K3 K4]; inversion K4; split; assumption).
  destruct (c86_settings fs d sm R3 Hs (proj1 P) (proj2 P)) as (dm & sets & D1 & _ & In1 & _ & Par). destruct (c86_run fs d sv si R1 R2 Hs Hm Hd) as (ds & di & l & D2 & _ & In2 & _ & _ & _ & _ & Ex).
  exists ds, dm, l, sets. split; [exact D2|]. split; [exact D1|]. split; [exact In2|]. split; [exact In1|]. intros E args st Hst. specialize (Par E args). rewrite Hst in Par. destruct (main_config E args) as [c|]; [|destruct Par]. exists c. split; [reflexivity|].
  destruct (Ex st c Par) as [X Y]. intros evs gs G. destruct (X evs gs G) as (tr & s & -> & R & Er). split; [|split].
  - intros g Hg. apply (proj1 (PropServer.c45_starts_the_wanted _ _ _ _ R)). destruct Er as [_ Er]. intro N. apply Hg. apply (Er g). exact N.
  - intros v Hv. rewrite (proj1 Er) in Hv. destruct (PropServer.c45_returns_reported _ _ _ _ _ R Hv) as (g & t1 & t2 & t3 & _ & ->). exists g, (map event_of t1), (map event_of t2), (map event_of t3). rewrite map_app. cbn [map]. rewrite map_app. reflexivity.
  - intros g v Hg Hn. assert (Rep : ServerSpec.reported tr g v) by (apply in_map_iff in Hg; destruct Hg as (x & Ex' & Ix); destruct x; try discriminate Ex'; injection Ex' as -> ->; exact Ix). rewrite (proj1 Er) in Hn.
    destruct (PropServer.c45_can_return _ _ _ _ _ _ R Rep Hn) as (tr' & s' & _ & R' & Ret). destruct (Y (tr ++ tr') s' (ServerProofs.run_trans _ _ _ R _ _ R')) as (gs' & G' & Er' & _). exists (map event_of tr'), gs'. rewrite <- map_app. split; [exact G'|]. rewrite Er'. exact Ret.
Qed.

(** ** A case: PropGoFile.shop, for all transports; started with -grpc.addr=:1, it listens, serves, and returns when serving fails *)
Theorem c86_case : exists s_server s_interrupt s_main,
  (render_asset (fun _ => None) ServerPath PropGoFile.shop = Some s_server /\ render_asset (fun _ => None) ServerInterruptPath PropGoFile.shop = Some s_interrupt /\ render_asset (fun _ => None) CmdServerPath PropGoFile.shop = Some s_main) /\
  (exported_ident (sv_name (td_service PropGoFile.shop)) /\ (forall m, In m (sv_methods (td_service PropGoFile.shop)) -> exported_ident (sm_name m))) /\
  Forall GoLexProofs.safe [td_version PropGoFile.shop; td_date PropGoFile.shop; td_pb_import PropGoFile.shop; td_import PropGoFile.shop] /\
  exists st, parse_flags (flags_of settings) (exec_settings (fun _ => []) (of_config zero_config) settings) [T "-grpc.addr=:1"] = Some st /\
  exists gs, grun _ gid_eq_dec (g_initial _ st (starts true true true (sv_name (td_service PropGoFile.shop))))
    [Starts _ GInterrupt; Starts _ GGrpc; Passes _ GGrpc; Fails _ GGrpc (T "closed"); Receives _ GGrpc (T "closed")] gs /\ g_ret _ gs = Some (T "closed").
Proof.
  pose proof PropGoFile.shop_ok as Ok.
  eexists; eexists; eexists. split; [split; [apply TextOthersProofs.server_is|]; split; [apply TextOthersProofs.server_interrupt_is|apply TextOthersProofs.cmd_server_is]|].
  split; [split; [apply (PropGoFile.ok_service [] _ Ok)|intros m Hm; destruct (PropGoFile.ok_method [] _ Ok m Hm) as ([A _] & _); exact A]|].
  split; [repeat (apply Forall_cons; [intros c Hc; cbn in Hc; repeat destruct Hc as [<-|Hc]; try (repeat split; discriminate); destruct Hc|]); apply Forall_nil|].
  eexists. split; [reflexivity|]. eexists. split.
  {
  change [Starts _ GInterrupt; Starts _ GGrpc; Passes _ GGrpc; Fails _ GGrpc (T "closed"); Receives _ GGrpc (T "closed")] with (((((([] ++ [Starts _ GInterrupt]) ++ [Starts _ GGrpc]) ++ [Passes _ GGrpc]) ++ [Fails _ GGrpc (T "closed")]) ++ [Receives _ GGrpc (T "closed")]) : list (event gid)).
  eapply GSnoc; [eapply GSnoc; [eapply GSnoc; [eapply GSnoc; [eapply GSnoc; [apply GNil|]|]|]|]|].
  - refine (GStart gid gid_eq_dec _ (mkStart _ GInterrupt Always (Some (T "Interrupt")) interrupt_body) _ _). reflexivity.
  - refine (GStart gid gid_eq_dec _ (mkStart _ GGrpc (IfSet (T "GRPCAddr")) None (grpc_body _)) _ _). reflexivity.
  - eapply GPass; reflexivity.
  - eapply GReport; reflexivity.
  - eapply GReceive; reflexivity. }
  reflexivity.
Qed.
