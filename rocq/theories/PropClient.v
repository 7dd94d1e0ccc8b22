(** C72: where the calls of the generated HTTP client go. *)
From Verif Require Import GoStr GoStrProofs SplitJoin GoMap SvcTypes HttpTransport Url UrlProofs Client.

(** ** Specification *)
(** A host name and an optional port. *)
Definition host_name (s : str) : Prop := s <> [] /\ Forall (fun c => is_alnum c = true \/ c = c_dot \/ c = c_dash) s.
Definition host_port (s : str) : Prop := host_name s \/ exists h p, s = h ++ T ":" ++ p /\ host_name h /\ Forall (fun c => is_digit c = true) p.
(** The rest of an instance: nothing, or a path of unreserved characters. *)
Definition url_tail (s : str) : Prop := s = [] \/ exists p, s = c_slash :: p /\ Forall (fun c => unreserved c = true \/ c = c_slash) p.
Definition calls (c : client) (name : str) : option (str * url * hbind) := match c with Client e => e name | _ => None end.

(** ** Proofs *)
Lemma has_prefix_app : forall p s, has_prefix (p ++ s) p = true.
Proof. induction p as [|x p IH]; intro s; [destruct s; reflexivity|]. cbn [app has_prefix]. rewrite N.eqb_refl. apply IH. Qed.
Lemma host_chars : forall h c, host_name h -> is_alnum c = false -> c <> c_dot -> c <> c_dash -> ~ In c h.
Proof. intros h c [_ H] H1 H2 H3 K. rewrite Forall_forall in H. destruct (H c K) as [E|[E|E]]; congruence. Qed.
Lemma digit_alnum : forall c, is_digit c = true -> is_alnum c = true.
Proof. intros c H. unfold is_alnum. rewrite H. destruct (is_letter c); reflexivity. Qed.
Lemma hp_char : forall s c, host_port s -> In c s -> is_alnum c = true \/ c = c_dot \/ c = c_dash \/ c = c_colon.
Proof.
  intros s c [H|(h & p & -> & H & Hp)] Hc.
  - destruct H as [_ H]. rewrite Forall_forall in H. destruct (H c Hc) as [E|[E|E]]; auto.
  - apply in_app_or in Hc. destruct Hc as [Hc|[Hc|Hc]].
    + destruct H as [_ H]. rewrite Forall_forall in H. destruct (H c Hc) as [E|[E|E]]; auto.
    + right. right. right. symmetry. exact Hc.
    + rewrite Forall_forall in Hp. left. apply digit_alnum. apply Hp. exact Hc.
Qed.
Lemma hp_not : forall s c, host_port s -> is_alnum c = false -> c <> c_dot -> c <> c_dash -> c <> c_colon -> ~ In c s.
Proof. intros s c H H1 H2 H3 H4 K. destruct (hp_char s c H K) as [E|[E|[E|E]]]; congruence. Qed.
Lemma after_last_none : forall c s, ~ In c s -> after_last c s = None.
Proof.
  intros c. induction s as [|x s IH]; intro H; [reflexivity|]. cbn [after_last]. rewrite IH by (intro K; apply H; right; exact K).
  destruct (N.eqb_spec x c) as [->|_]; [exfalso; apply H; left; reflexivity|reflexivity].
Qed.
Lemma after_last_at : forall c a b, ~ In c b -> after_last c (a ++ c :: b) = Some b.
Proof.
  intros c a b H. induction a as [|x a IH]; [cbn [app after_last]; rewrite (after_last_none c b H), N.eqb_refl; reflexivity|]. cbn [app after_last]. rewrite IH. reflexivity.
Qed.
Lemma contains1_false : forall s c, ~ In c s -> contains1 s c = false.
Proof. intros s c H. unfold contains1. destruct (existsb (N.eqb c) s) eqn:E; [|reflexivity]. apply existsb_exists in E. destruct E as (x & Hx & E). apply N.eqb_eq in E. subst x. contradiction. Qed.
Lemma contains1_in : forall s c, In c s -> contains1 s c = true.
Proof. intros s c H. unfold contains1. apply existsb_exists. exists c. split; [exact H|apply N.eqb_refl]. Qed.
Lemma auth_hp : forall o s, host_port s -> parse_auth o s = Some s.
Proof.
  intros o s H. unfold parse_auth. rewrite !contains1_false by (apply (hp_not s _ H); [reflexivity|discriminate|discriminate|discriminate]). cbn [orb].
  assert (E1 : match after_last c_colon s with Some p => valid_port p | None => true end = true).
  { destruct H as [H|(h & p & -> & H & Hp)].
    - rewrite after_last_none; [reflexivity|]. apply (host_chars s); [exact H|reflexivity|discriminate|discriminate].
    - change (T ":" ++ p) with (c_colon :: p). rewrite after_last_at; [unfold valid_port; apply forallb_forall; rewrite Forall_forall in Hp; exact Hp|].
      intro K. rewrite Forall_forall in Hp. specialize (Hp _ K). discriminate. }
  rewrite E1. assert (E2 : forallb host_byte s = true); [|rewrite E2; reflexivity].
  apply forallb_forall. intros c Hc. unfold host_byte. destruct (hp_char s c H Hc) as [-> | [-> | [-> | ->]]]; reflexivity.
Qed.
Lemma unescape_plain : forall s, ~ In 37%N s -> unescape false s = Some s.
Proof.
  induction s as [|c s IH]; intro H; [reflexivity|]. cbn [unescape]. destruct (N.eqb_spec c 37) as [->|_]; [exfalso; apply H; left; reflexivity|].
  rewrite IH by (intro K; apply H; right; exact K). reflexivity.
Qed.
Lemma tail_not : forall s c, url_tail s -> unreserved c = false -> c <> c_slash -> ~ In c s.
Proof.
  intros s c [->|(p & -> & H)] H1 H2 K; [destruct K|]. destruct K as [K|K]; [congruence|]. rewrite Forall_forall in H. destruct (H c K); congruence.
Qed.
Lemma alnum_printing : forall c, is_alnum c = true -> (32 <= c < 127)%N.
Proof.
  intros c H. unfold is_alnum, is_letter, is_upper, is_lower, is_digit, in_range in H. rewrite ?orb_true_iff, ?andb_true_iff, ?N.leb_le in H. lia.
Qed.
Lemma unreserved_printing : forall c, unreserved c = true -> (32 <= c < 127)%N.
Proof.
  intros c H. unfold unreserved in H. rewrite !orb_true_iff in H. destruct H as [[[[H|H]|H]|H]|H]; [apply alnum_printing; exact H|apply N.eqb_eq in H; subst; vm_compute; split; congruence ..].
Qed.
Definition printing (s : str) : Prop := Forall (fun c => (32 <= c < 127)%N) s.
Lemma hp_printing : forall s, host_port s -> printing s.
Proof. intros s H. apply Forall_forall. intros c Hc. destruct (hp_char s c H Hc) as [E | [-> | [-> | ->]]]; [apply alnum_printing; exact E|vm_compute; split; congruence ..]. Qed.
Lemma tail_printing : forall s, url_tail s -> printing s.
Proof.
  intros s [->|(p & -> & H)]; [constructor|]. constructor; [vm_compute; split; congruence|]. eapply Forall_impl; [|exact H]. intros c [E| ->]; [apply unreserved_printing; exact E|vm_compute; split; congruence].
Qed.
Lemma no_ctl : forall s, printing s -> existsb (fun c => (c <? 32)%N || N.eqb c 127) s = false.
Proof.
  intros s H. destruct (existsb _ s) eqn:E; [|reflexivity]. apply existsb_exists in E. destruct E as (c & Hc & E). unfold printing in H. rewrite Forall_forall in H. specialize (H c Hc).
  apply orb_true_iff in E. destruct E as [E|E]; [apply N.ltb_lt in E|apply N.eqb_eq in E]; lia.
Qed.
Lemma not_in_app : forall (c : N) a b, ~ In c a -> ~ In c b -> ~ In c (a ++ b).
Proof. intros c a b Ha Hb K. apply in_app_or in K. tauto. Qed.
Lemma parse_full : forall o sch hp t, sch = T "http" \/ sch = T "https" -> host_port hp -> url_tail t ->
  url_parse o (sch ++ T "://" ++ hp ++ t) = Some (mkUrl sch [] hp t []).
Proof.
  intros o sch hp t Hs Hh Ht.
  assert (N0 : forall c, is_alnum c = false -> unreserved c = false -> c <> c_dot -> c <> c_dash -> c <> c_colon -> c <> c_slash -> ~ In c (hp ++ t)).
  { intros c H1 H2 H3 H4 H5 H6. apply not_in_app; [apply hp_not; assumption|apply tail_not; assumption]. }
  assert (N1 : forall c, is_alnum c = false -> unreserved c = false -> c <> c_dot -> c <> c_dash -> c <> c_colon -> c <> c_slash -> ~ In c (T "//" ++ hp ++ t)).
  { intros c H1 H2 H3 H4 H5 H6. apply not_in_app; [intros [K|[K|[]]]; apply H6; symmetry; exact K|apply N0; assumption]. }
  assert (N2 : forall c, is_alnum c = false -> unreserved c = false -> c <> c_dot -> c <> c_dash -> c <> c_colon -> c <> c_slash -> ~ In c (sch ++ T "://" ++ hp ++ t)).
  { intros c H1 H2 H3 H4 H5 H6. change (T "://" ++ hp ++ t) with (T ":" ++ T "//" ++ hp ++ t). apply not_in_app; [|apply not_in_app; [intros [K|[]]; apply H5; symmetry; exact K|apply N1; assumption]].
    destruct Hs as [-> | ->]; intro K; vm_compute in K; repeat destruct K as [K|K]; try contradiction; subst c; discriminate H1. }
  unfold url_parse. rewrite (cut_at_none 35) by (apply N2; (reflexivity || discriminate)).
  rewrite no_ctl.
  2:{ apply Forall_app. split; [destruct Hs as [-> | ->]; repeat constructor; vm_compute; congruence|]. change (T "://" ++ hp ++ t) with (T "://" ++ (hp ++ t)).
      apply Forall_app. split; [repeat constructor; vm_compute; congruence|]. apply Forall_app. split; [apply hp_printing; exact Hh|apply tail_printing; exact Ht]. }
  cbn [unescape].
  assert (Star : str_eqb (sch ++ T "://" ++ hp ++ t) (T "*") = false) by (destruct Hs as [-> | ->]; reflexivity). rewrite Star.
  assert (G : get_scheme true (sch ++ T "://" ++ hp ++ t) = Some (Some (sch, T "//" ++ hp ++ t))) by (destruct Hs as [-> | ->]; reflexivity). rewrite G.
  assert (L : to_lower sch = sch) by (destruct Hs as [-> | ->]; reflexivity). rewrite L.
  rewrite (cut_at_none 63) by (apply N1; (reflexivity || discriminate)).
  assert (Q1 : has_prefix (T "//" ++ hp ++ t) (T "/") = true) by (change (T "//" ++ hp ++ t) with (T "/" ++ (T "/" ++ hp ++ t)); apply has_prefix_app). rewrite Q1. cbn [negb andb].
  assert (Ne : str_eqb sch [] = false) by (destruct Hs as [-> | ->]; reflexivity). rewrite Ne. cbn [negb orb andb].
  assert (Q2 : has_prefix (T "//" ++ hp ++ t) (T "//") = true) by apply has_prefix_app. rewrite Q2. cbn iota. change (skipn 2 (T "//" ++ hp ++ t)) with (hp ++ t).
  assert (Sl : ~ In c_slash hp) by (apply (hp_not hp); [exact Hh|reflexivity|discriminate|discriminate|discriminate]).
  destruct Ht as [->|(p & -> & Hp)].
  - rewrite app_nil_r, (cut_at_none c_slash hp Sl), (auth_hp o hp Hh), (contains1_false hp c_slash Sl). reflexivity.
  - rewrite (cut_at_app c_slash hp p Sl), (auth_hp o hp Hh), contains1_in by (apply in_or_app; right; left; reflexivity).
    rewrite unescape_plain; [reflexivity|]. intros [K|K]; [discriminate|]. rewrite Forall_forall in Hp. destruct (Hp _ K) as [E|E]; discriminate.
Qed.

(** What follows the question mark in an instance. *)
Definition url_query (q : str) : Prop := Forall (fun c => (32 <= c < 127)%N /\ c <> 35%N) q.
Lemma parse_query : forall o sch hp t q, sch = T "http" \/ sch = T "https" -> host_port hp -> url_tail t -> url_query q ->
  url_parse o (sch ++ T "://" ++ hp ++ t ++ T "?" ++ q) = Some (mkUrl sch [] hp t q).
Proof.
  intros o sch hp t q Hs Hh Ht Hq.
  assert (N0 : forall c, is_alnum c = false -> unreserved c = false -> c <> c_dot -> c <> c_dash -> c <> c_colon -> c <> c_slash -> ~ In c (hp ++ t)).
  { intros c H1 H2 H3 H4 H5 H6. apply not_in_app; [apply hp_not; assumption|apply tail_not; assumption]. }
  assert (N1 : forall c, is_alnum c = false -> unreserved c = false -> c <> c_dot -> c <> c_dash -> c <> c_colon -> c <> c_slash -> ~ In c (T "//" ++ hp ++ t)).
  { intros c H1 H2 H3 H4 H5 H6. apply not_in_app; [intros [K|[K|[]]]; apply H6; symmetry; exact K|apply N0; assumption]. }
  assert (E : hp ++ t ++ T "?" ++ q = (hp ++ t) ++ 63%N :: q) by (rewrite <- app_assoc; reflexivity). rewrite E. clear E.
  unfold url_parse. rewrite (cut_at_none 35).
  2:{ change (T "://" ++ (hp ++ t) ++ 63%N :: q) with (T ":" ++ (T "//" ++ hp ++ t) ++ T "?" ++ q). repeat apply not_in_app.
      - destruct Hs as [-> | ->]; intro K; vm_compute in K; repeat destruct K as [K|K]; try contradiction; discriminate.
      - intros [K|[]]; discriminate.
      - intros [K|[K|[]]]; discriminate.
      - apply hp_not; try assumption; (reflexivity || discriminate).
      - apply tail_not; try assumption; (reflexivity || discriminate).
      - intros [K|[]]; discriminate.
      - intro K. unfold url_query in Hq. rewrite Forall_forall in Hq. destruct (Hq _ K) as [_ F]. congruence. }
  rewrite no_ctl.
  2:{ apply Forall_app. split; [destruct Hs as [-> | ->]; repeat constructor; vm_compute; congruence|].
      apply Forall_app. split; [repeat constructor; vm_compute; congruence|]. apply Forall_app. split; [apply Forall_app; split; [apply hp_printing; exact Hh|apply tail_printing; exact Ht]|].
      apply Forall_cons; [vm_compute; split; congruence|]. apply Forall_forall. intros c K. unfold url_query in Hq. rewrite Forall_forall in Hq. exact (proj1 (Hq _ K)). }
  cbn [unescape].
  assert (Star : str_eqb (sch ++ T "://" ++ (hp ++ t) ++ 63%N :: q) (T "*") = false) by (destruct Hs as [-> | ->]; reflexivity). rewrite Star.
  assert (G : get_scheme true (sch ++ T "://" ++ (hp ++ t) ++ 63%N :: q) = Some (Some (sch, (T "//" ++ hp ++ t) ++ 63%N :: q))) by (destruct Hs as [-> | ->]; reflexivity). rewrite G.
  assert (L : to_lower sch = sch) by (destruct Hs as [-> | ->]; reflexivity). rewrite L.
  rewrite (cut_at_app 63) by (apply N1; (reflexivity || discriminate)).
  assert (Q1 : has_prefix (T "//" ++ hp ++ t) (T "/") = true) by (change (T "//" ++ hp ++ t) with (T "/" ++ (T "/" ++ hp ++ t)); apply has_prefix_app). rewrite Q1. cbn [negb andb].
  assert (Ne : str_eqb sch [] = false) by (destruct Hs as [-> | ->]; reflexivity). rewrite Ne. cbn [negb orb andb].
  assert (Q2 : has_prefix (T "//" ++ hp ++ t) (T "//") = true) by apply has_prefix_app. rewrite Q2. cbn iota. change (skipn 2 (T "//" ++ hp ++ t)) with (hp ++ t).
  assert (Sl : ~ In c_slash hp) by (apply (hp_not hp); [exact Hh|reflexivity|discriminate|discriminate|discriminate]).
  destruct Ht as [->|(p & -> & Hp)].
  - rewrite app_nil_r, (cut_at_none c_slash hp Sl), (auth_hp o hp Hh), (contains1_false hp c_slash Sl). reflexivity.
  - rewrite (cut_at_app c_slash hp p Sl), (auth_hp o hp Hh), contains1_in by (apply in_or_app; right; left; reflexivity).
    rewrite unescape_plain; [reflexivity|]. intros [K|K]; [discriminate|]. rewrite Forall_forall in Hp. destruct (Hp _ K) as [E|E]; discriminate.
Qed.

Lemma endpoints_spec : forall u ms m b bs, NoDup (map hm_name ms) -> In m ms -> hm_binds m = b :: bs ->
  endpoints_of u ms (hm_name m) = Some (to_upper (hb_verb b), copy_url u (hb_base b), b).
Proof.
  intros u. induction ms as [|x ms IH]; intros m b bs Hn Hi Hb; [destruct Hi|]. inversion Hn; subst. cbn [endpoints_of]. destruct Hi as [->|Hi]; [rewrite str_eqb_refl, Hb; reflexivity|].
  destruct (str_eqb_spec (hm_name x) (hm_name m)) as [E|_]; [exfalso; apply H1; rewrite E; apply in_map; exact Hi|]. eapply IH; eassumption.
Qed.
Lemma endpoints_url : forall u ms name v w b, endpoints_of u ms name = Some (v, w, b) -> w = copy_url u (hb_base b).
Proof.
  intros u. induction ms as [|x ms IH]; intros name v w b H; [discriminate|]. cbn [endpoints_of] in H. destruct (str_eqb (hm_name x) name); [|exact (IH _ _ _ _ H)].
  destruct (hm_binds x) as [|b0 bs]; [exact (IH _ _ _ _ H)|]. congruence.
Qed.

(** What NewHelper made of a service: the first binding of every method that has one. *)
Lemma helper_first : forall ms svc hs m sb sbs, new_helper ms svc = Ret hs -> In m svc -> sm_bindings m = sb :: sbs ->
  exists h b bs, In h hs /\ hm_name h = sm_name m /\ hm_binds h = b :: bs /\ new_binding ms 0 m = Ret b.
Proof.
  intros ms. induction svc as [|x svc IH]; intros hs m sb sbs H Hi Hb; [destruct Hi|]. cbn [new_helper] in H.
  destruct (sm_bindings x) as [|y ys] eqn:Ex.
  - destruct Hi as [->|Hi]; [congruence|]. exact (IH hs m sb sbs H Hi Hb).
  - destruct (new_method ms x) as [h| |] eqn:Em; try discriminate. destruct (new_helper ms svc) as [hs2| |] eqn:Eh; try discriminate. injection H as <-. destruct Hi as [->|Hi].
    + unfold new_method in Em. rewrite Ex in Em. cbn [length seq new_bindings] in Em. destruct (new_binding ms 0 m) as [b| |] eqn:E0; try discriminate.
      destruct (new_bindings ms m (seq 1 (length ys))) as [bs| |]; try discriminate. injection Em as <-. exists (mkHMeth (sm_name m) (ft_name (sm_req m)) (ft_name (sm_resp m)) (b :: bs)), b, bs.
      split; [left; reflexivity|]. split; [reflexivity|]. split; reflexivity.
    + destruct (IH hs2 m sb sbs eq_refl Hi Hb) as (h' & b & bs & H1 & H2). exists h', b, bs. split; [right; exact H1|exact H2].
Qed.
Lemma helper_in : forall ms svc hs h, new_helper ms svc = Ret hs -> In h hs -> exists m, In m svc /\ hm_name h = sm_name m /\ sm_bindings m <> [].
Proof.
  intros ms. induction svc as [|x svc IH]; intros hs h H Hi; cbn [new_helper] in H; [injection H as <-; destruct Hi|].
  destruct (sm_bindings x) as [|y ys] eqn:Ex.
  - destruct (IH hs h H Hi) as (m & H1 & H2). exists m. split; [right; exact H1|exact H2].
  - destruct (new_method ms x) as [h0| |] eqn:Em; try discriminate. destruct (new_helper ms svc) as [hs2| |] eqn:Eh; try discriminate. injection H as <-. destruct Hi as [<-|Hi].
    + exists x. split; [left; reflexivity|]. unfold new_method in Em. destruct (new_bindings _ _ _) as [bs| |]; try discriminate. injection Em as <-. split; [reflexivity|]. rewrite Ex. discriminate.
    + destruct (IH hs2 h eq_refl Hi) as (m & H1 & H2). exists m. split; [right; exact H1|exact H2].
Qed.
Lemma nodup_in : forall (svc : list smethod) a b, NoDup (map sm_name svc) -> In a svc -> In b svc -> sm_name a = sm_name b -> a = b.
Proof.
  induction svc as [|x svc IH]; intros a b Hn Ha Hb E; [destruct Ha|]. inversion Hn; subst. destruct Ha as [->|Ha]; destruct Hb as [->|Hb]; auto.
  - exfalso. apply H1. rewrite E. apply in_map. exact Hb.
  - exfalso. apply H1. rewrite <- E. apply in_map. exact Ha.
Qed.
Lemma helper_nodup : forall ms svc hs, new_helper ms svc = Ret hs -> NoDup (map sm_name svc) -> NoDup (map hm_name hs).
Proof.
  intros ms. induction svc as [|x svc IH]; intros hs H Hn; cbn [new_helper] in H; [injection H as <-; constructor|]. inversion Hn; subst.
  destruct (sm_bindings x) as [|y ys] eqn:Ex; [exact (IH hs H H3)|].
  destruct (new_method ms x) as [h0| |] eqn:Em; try discriminate. destruct (new_helper ms svc) as [hs2| |] eqn:Eh; try discriminate. injection H as <-. cbn [map]. constructor; [|exact (IH hs2 eq_refl H3)].
  assert (En : hm_name h0 = sm_name x) by (unfold new_method in Em; destruct (new_bindings _ _ _) as [bs| |]; try discriminate; injection Em as <-; reflexivity).
  rewrite En. intro K. apply in_map_iff in K. destruct K as (h & E & Hh). destruct (helper_in ms svc hs2 h Eh Hh) as (m & Hm & E2 & _). apply H2. rewrite <- E, E2. apply in_map. exact Hm.
Qed.

(** ** Theorems *)
(** The client calls a method by its first binding; without one the endpoint is nil. *)
Definition goes_to (c : client) (svc : list smethod) (ms : list message) (scheme host : str) : Prop :=
  forall m, In m svc ->
    match sm_bindings m with
    | [] => calls c (sm_name m) = None
    | sb :: _ => exists u b, new_binding ms 0 m = Ret b /\ hb_path b = sb_path sb /\ hb_verb b = sb_verb sb /\
        calls c (sm_name m) = Some (to_upper (sb_verb sb), u, b) /\ sent_to u = Some (scheme, host) /\ u_query u = []
    end.
Lemma client_goes : forall o inst inst' ms svc hs u, (if has_prefix inst (T "http") then inst else T "http://" ++ inst) = inst' -> url_parse o inst' = Some u ->
  new_helper ms svc = Ret hs -> NoDup (map sm_name svc) -> hs <> [] -> forall sch host, sent_to u = Some (sch, host) -> u_query u = [] ->
  goes_to (new_http_client o inst hs) svc ms sch host.
Proof.
  intros o inst inst' ms svc hs u Ei Eu Hh Hn Hne sch host Hs Hq m Hm. unfold new_http_client. rewrite Ei, Eu. destruct hs as [|h0 hs]; [congruence|]. set (H0 := h0 :: hs) in *. cbn [calls].
  destruct (sm_bindings m) as [|sb sbs] eqn:Eb.
  - destruct (endpoints_of u H0 (sm_name m)) as [[[v w] b]|] eqn:E; [|reflexivity]. exfalso.
    assert (K : exists h, In h H0 /\ hm_name h = sm_name m).
    { clear - E. induction H0 as [|x l IH]; [discriminate|]. cbn [endpoints_of] in E. destruct (str_eqb_spec (hm_name x) (sm_name m)) as [En|_]; [exists x; split; [left; reflexivity|exact En]|].
      destruct (IH E) as (h & H1 & H2). exists h. split; [right; exact H1|exact H2]. }
    destruct K as (h & H1 & H2). destruct (helper_in ms svc H0 h Hh H1) as (m' & H3 & H4 & H5). assert (m' = m) by (apply (nodup_in svc); auto; congruence). subst m'. contradiction.
  - destruct (helper_first ms svc H0 m sb sbs Hh Hm Eb) as (h & b & bs & H1 & H2 & H3 & H4).
    exists (copy_url u (hb_base b)), b. split; [exact H4|].
    assert (Hb : hb_path b = sb_path sb /\ hb_verb b = sb_verb sb).
    { unfold new_binding in H4. rewrite Eb in H4. cbn [nth_error] in H4. destruct (oneof_loop _ _ _); try discriminate. injection H4 as <-. auto. }
    destruct Hb as [Hb1 Hb2]. split; [exact Hb1|]. split; [exact Hb2|]. split; [|split; [exact Hs|exact Hq]].
    rewrite <- H2, (endpoints_spec u H0 h b bs (helper_nodup ms svc H0 Hh Hn) H1 H3), Hb2. reflexivity.
Qed.
(** For an instance host or host:port that does not begin with http. *)
Theorem c72_host_port : forall o inst ms svc hs, host_port inst -> (forall r, inst <> T "http" ++ r) -> new_helper ms svc = Ret hs -> NoDup (map sm_name svc) -> hs <> [] ->
  goes_to (new_http_client o inst hs) svc ms (T "http") inst.
Proof.
  intros o inst ms svc hs Hi Hp Hh Hn Hne. assert (E : has_prefix inst (T "http") = false).
  { destruct (has_prefix inst (T "http")) eqn:E; [|reflexivity]. exfalso. clear - E Hp. assert (P : forall p s, has_prefix s p = true -> exists r, s = p ++ r).
    { induction p as [|x p IH]; intros s H; [exists s; reflexivity|]. destruct s as [|y s]; [discriminate|]. cbn [has_prefix] in H. apply andb_true_iff in H. destruct H as [H1 H2]. apply N.eqb_eq in H1. subst. destruct (IH s H2) as (r & ->). exists r. reflexivity. }
    destruct (P _ _ E) as (r & ->). exact (Hp r eq_refl). }
  apply (client_goes o inst (T "http://" ++ inst) ms svc hs (mkUrl (T "http") [] inst [] [])); try assumption.
  - rewrite E. reflexivity.
  - pose proof (parse_full o (T "http") inst [] (or_introl eq_refl) Hi (or_introl eq_refl)) as F. rewrite app_nil_r in F. exact F.
  - unfold sent_to. cbn [u_scheme u_host]. change (str_eqb (T "http") (T "http")) with true. cbn [orb andb]. assert (Ne : str_eqb inst [] = false); [|rewrite Ne; reflexivity].
    apply str_eqb_neq. destruct Hi as [[K _]|(h & p & -> & [K _] & _)]; [exact K|]. destruct h; [congruence|discriminate].
  - reflexivity.
Qed.
Print Assumptions c72_host_port.
(** For an instance with a scheme; a path in it is dropped: requests go where they would go without it. *)
Theorem c72_scheme : forall o sch hp t ms svc hs, sch = T "http" \/ sch = T "https" -> host_port hp -> url_tail t -> new_helper ms svc = Ret hs -> NoDup (map sm_name svc) -> hs <> [] ->
  goes_to (new_http_client o (sch ++ T "://" ++ hp ++ t) hs) svc ms sch hp.
Proof.
  intros o sch hp t ms svc hs Hs Hi Ht Hh Hn Hne.
  apply (client_goes o (sch ++ T "://" ++ hp ++ t) (sch ++ T "://" ++ hp ++ t) ms svc hs (mkUrl sch [] hp t [])); try assumption.
  - assert (E : has_prefix (sch ++ T "://" ++ hp ++ t) (T "http") = true); [|rewrite E; reflexivity]. destruct Hs as [-> | ->]; [apply has_prefix_app|]. reflexivity.
  - apply parse_full; assumption.
  - unfold sent_to. cbn [u_scheme u_host]. assert (Ne : str_eqb hp [] = false).
    { apply str_eqb_neq. destruct Hi as [[K _]|(h & p & -> & [K _] & _)]; [exact K|]. destruct h; [congruence|discriminate]. }
    rewrite Ne. destruct Hs as [-> | ->]; reflexivity.
  - reflexivity.
Qed.
Print Assumptions c72_scheme.
Theorem c72_path_dropped : forall o sch hp t hs, sch = T "http" \/ sch = T "https" -> host_port hp -> url_tail t -> forall name,
  calls (new_http_client o (sch ++ T "://" ++ hp ++ t) hs) name = calls (new_http_client o (sch ++ T "://" ++ hp) hs) name.
Proof.
  intros o sch hp t hs Hs Hi Ht name.
  assert (E1 : has_prefix (sch ++ T "://" ++ hp ++ t) (T "http") = true) by (destruct Hs as [-> | ->]; [apply has_prefix_app|reflexivity]).
  assert (E2 : has_prefix (sch ++ T "://" ++ hp) (T "http") = true) by (destruct Hs as [-> | ->]; [apply has_prefix_app|reflexivity]).
  pose proof (parse_full o sch hp [] Hs Hi (or_introl eq_refl)) as F. rewrite app_nil_r in F. unfold new_http_client. rewrite E1, E2, F, (parse_full o sch hp t Hs Hi Ht).
  destruct hs as [|h hs]; [reflexivity|]. cbn [calls]. generalize (h :: hs). clear. induction l as [|x l IH]; [reflexivity|]. cbn [endpoints_of].
  destruct (str_eqb (hm_name x) name); [|exact IH]. destruct (hm_binds x); [exact IH|reflexivity].
Qed.
(** REFUTED for hosts that begin with http: no call is ever sent. *)
Lemma get_scheme_run : forall h r, Forall (fun c => is_alnum c = true \/ c = c_dot \/ c = c_dash) h -> get_scheme false (h ++ c_colon :: r) = Some (Some (h, r)) /\ get_scheme false h = Some None.
Proof.
  induction h as [|c h IH]; intros r H; [split; reflexivity|]. inversion H as [|x y Hc Hh]; subst. destruct (IH r Hh) as [I1 I2]. cbn [app get_scheme]. rewrite I1, I2.
  destruct (is_letter c) eqn:El; [split; reflexivity|]. destruct Hc as [Hc|[->| ->]]; [|split; reflexivity ..].
  assert (D : is_digit c = true) by (unfold is_alnum in Hc; rewrite El in Hc; exact Hc). rewrite D. split; reflexivity.
Qed.
Theorem c72_http_host_refuted : forall o r port hs, Forall (fun c => is_alnum c = true \/ c = c_dot \/ c = c_dash) r -> Forall (fun c => is_digit c = true) port -> hs <> [] ->
  forall inst, inst = T "http" ++ r \/ inst = T "http" ++ r ++ T ":" ++ port ->
  exists e, new_http_client o inst hs = Client e /\ forall name v u b, e name = Some (v, u, b) -> sent_to u = None.
Proof.
  intros o r port hs Hr Hp Hne inst Hi.
  assert (Hh : Forall (fun c => is_alnum c = true \/ c = c_dot \/ c = c_dash) (T "http" ++ r)) by (apply Forall_app; split; [repeat constructor|exact Hr]).
  assert (Hn : host_name (T "http" ++ r)) by (split; [discriminate|exact Hh]).
  assert (Hhp : host_port inst) by (destruct Hi as [-> | ->]; [left; exact Hn|right; exists (T "http" ++ r), port; rewrite <- app_assoc; auto]).
  assert (Pf : has_prefix inst (T "http") = true) by (destruct Hi as [-> | ->]; apply has_prefix_app).
  assert (K : exists u, url_parse o inst = Some u /\ u_host u = []).
  { unfold url_parse. rewrite (cut_at_none 35) by (apply (hp_not inst); [exact Hhp|reflexivity|discriminate|discriminate|discriminate]). rewrite (no_ctl inst (hp_printing inst Hhp)). cbn [unescape].
    assert (Star : str_eqb inst (T "*") = false) by (destruct Hi as [-> | ->]; reflexivity). rewrite Star.
    destruct (get_scheme_run (T "http" ++ r) port Hh) as [G1 G2]. destruct Hi as [Hi|Hi].
    - assert (G : get_scheme true inst = Some None) by (rewrite Hi; change (get_scheme true (T "http" ++ r)) with (get_scheme false (T "http" ++ r)); exact G2). rewrite G.
      rewrite (cut_at_none 63) by (apply (hp_not inst); [exact Hhp|reflexivity|discriminate|discriminate|discriminate]). change (to_lower []) with (@nil N). change (str_eqb [] []) with true. cbn [negb andb orb].
      assert (P0 : has_prefix inst (T "/") = false) by (rewrite Hi; reflexivity). rewrite P0. cbn [negb andb].
      rewrite (cut_at_none c_slash) by (apply (hp_not inst); [exact Hhp|reflexivity|discriminate|discriminate|discriminate]). cbn [fst].
      rewrite contains1_false by (rewrite Hi; apply (host_chars _ _ Hn); [reflexivity|discriminate|discriminate]).
      assert (P1 : has_prefix inst (T "//") = false) by (rewrite Hi; reflexivity). rewrite P1, andb_false_r.
      rewrite unescape_plain by (apply (hp_not inst); [exact Hhp|reflexivity|discriminate|discriminate|discriminate]). eexists. split; [reflexivity|reflexivity].
    - assert (G : get_scheme true inst = Some (Some (T "http" ++ r, port))).
      { rewrite Hi. change (get_scheme true (T "http" ++ r ++ T ":" ++ port)) with (get_scheme false (T "http" ++ r ++ T ":" ++ port)).
        replace (T "http" ++ r ++ T ":" ++ port) with ((T "http" ++ r) ++ c_colon :: port) by (rewrite <- app_assoc; reflexivity). exact G1. }
      rewrite G. assert (P2 : forall c, is_digit c = false -> ~ In c port) by (intros c Hc K; rewrite Forall_forall in Hp; rewrite (Hp c K) in Hc; discriminate).
      rewrite (cut_at_none 63) by (apply P2; reflexivity).
      assert (P0 : has_prefix port (T "/") = false).
      { destruct port as [|c p]; [reflexivity|]. change (T "/") with [c_slash]. cbn [has_prefix]. destruct (N.eqb_spec c c_slash) as [->|Hc]; [exfalso; apply (P2 c_slash); [reflexivity|left; reflexivity]|].
        apply N.eqb_neq in Hc. rewrite N.eqb_sym, Hc || rewrite Hc. reflexivity. }
      rewrite P0. change (to_lower (T "http" ++ r)) with (T "http" ++ to_lower r). change (str_eqb (T "http" ++ to_lower r) []) with false. cbn [negb andb]. eexists. split; [reflexivity|reflexivity]. }
  destruct K as (u & Eu & Eh). unfold new_http_client. rewrite Pf, Eu. destruct hs as [|h hs]; [congruence|]. eexists. split; [reflexivity|]. intros name v w b E.
  apply endpoints_url in E. subst w. unfold sent_to, copy_url. cbn [u_host u_scheme]. rewrite Eh. rewrite andb_false_r. reflexivity.
Qed.
Print Assumptions c72_http_host_refuted.
(** REFUTED for schemes in upper case: the scheme is taken for the host. *)
Theorem c72_upper_refuted : forall o hs, hs <> [] -> exists e, new_http_client o (T "HTTPS://api.example.com:443/") hs = Client e /\
  forall name v u b, e name = Some (v, u, b) -> sent_to u = Some (T "http", T "HTTPS:").
Proof.
  intros o hs Hne. destruct hs as [|h hs]; [congruence|]. eexists. split; [reflexivity|]. intros name v u b E. apply endpoints_url in E. subst u. reflexivity.
Qed.
(** A service without HTTP methods has no client: the constructor panics, unless the instance is no URL. *)
Lemma no_http : forall inst, (forall r, inst <> T "http" ++ r) -> has_prefix inst (T "http") = false.
Proof.
  intros inst Hp. destruct (has_prefix inst (T "http")) eqn:E; [|reflexivity]. exfalso. clear - E Hp. assert (P : forall p s, has_prefix s p = true -> exists r, s = p ++ r).
  { induction p as [|x p IH]; intros s H; [exists s; reflexivity|]. destruct s as [|y s]; [discriminate|]. cbn [has_prefix] in H. apply andb_true_iff in H. destruct H as [H1 H2]. apply N.eqb_eq in H1. subst. destruct (IH s H2) as (r & ->). exists r. reflexivity. }
  destruct (P _ _ E) as (r & ->). exact (Hp r eq_refl).
Qed.
Theorem c72_no_methods : forall o inst, (new_http_client o inst [] = ClientPanics \/ new_http_client o inst [] = ClientError) /\
  (host_port inst -> (forall r, inst <> T "http" ++ r) -> new_http_client o inst [] = ClientPanics).
Proof.
  intros o inst. split; [unfold new_http_client; destruct (url_parse o _); auto|]. intros H Hp. unfold new_http_client. rewrite (no_http inst Hp).
  pose proof (parse_full o (T "http") inst [] (or_introl eq_refl) H (or_introl eq_refl)) as F. rewrite app_nil_r in F. change (T "http" ++ T "://" ++ inst) with (T "http://" ++ inst) in F. rewrite F. reflexivity.
Qed.
(** The query of the instance is part of the URL of every call. *)
Theorem c72_query_kept : forall o sch hp t q hs, sch = T "http" \/ sch = T "https" -> host_port hp -> url_tail t -> url_query q -> hs <> [] ->
  exists e, new_http_client o (sch ++ T "://" ++ hp ++ t ++ T "?" ++ q) hs = Client e /\ forall name v u b, e name = Some (v, u, b) -> u_query u = q /\ sent_to u = Some (sch, hp).
Proof.
  intros o sch hp t q hs Hs Hh Ht Hq Hne. destruct hs as [|h hs]; [congruence|]. unfold new_http_client.
  assert (E1 : has_prefix (sch ++ T "://" ++ hp ++ t ++ T "?" ++ q) (T "http") = true) by (destruct Hs as [-> | ->]; [apply has_prefix_app|reflexivity]). rewrite E1, (parse_query o sch hp t q Hs Hh Ht Hq).
  eexists. split; [reflexivity|]. intros name v u b E. apply endpoints_url in E. subst u. split; [reflexivity|]. unfold sent_to. cbn [copy_url u_scheme u_host].
  assert (Hn : str_eqb hp [] = false) by (apply str_eqb_neq; destruct Hh as [[K _]|(h0 & p & -> & [K _] & _)]; [exact K|destruct h0; [congruence|discriminate]]). rewrite Hn. destruct Hs as [-> | ->]; reflexivity.
Qed.
Print Assumptions c72_query_kept.
Example c72_query_case : forall hs, hs <> [] -> exists e, new_http_client (fun _ => None) (T "http://a.b:80/x?k=v") hs = Client e /\ forall name v u b, e name = Some (v, u, b) -> u_query u = T "k=v".
Proof. intros hs H. destruct hs as [|h hs]; [congruence|]. eexists. split; [reflexivity|]. intros name v u b E. apply endpoints_url in E. subst u. reflexivity. Qed.

(** ** The hypotheses are met *)
Definition ex_ft (n : str) : ftype := mkFT n None None (Some (MDef 0)) None true false.
Definition ex_ms : list message := [mkMsg (T "Req") []].
Definition ex_svc : list smethod := [mkSMeth (T "Get") (ex_ft (T "Req")) (ex_ft (T "Resp")) [mkSBind (T "get") (T "/v1/{id}") []; mkSBind (T "post") (T "/v1") []];
  mkSMeth (T "Local") (ex_ft (T "Req")) (ex_ft (T "Resp")) []].
Example c72_case : exists hs, new_helper ex_ms ex_svc = Ret hs /\ hs <> [] /\ goes_to (new_http_client (fun _ => None) (T "api.example.com:80") hs) ex_svc ex_ms (T "http") (T "api.example.com:80").
Proof.
  destruct (new_helper ex_ms ex_svc) as [hs| |] eqn:E; [|vm_compute in E; discriminate ..]. exists hs.
  assert (Hne : hs <> []) by (intros ->; vm_compute in E; discriminate). split; [reflexivity|]. split; [exact Hne|]. apply c72_host_port; try assumption.
  - right. exists (T "api.example.com"), (T "80"). split; [reflexivity|]. split; [split; [discriminate|repeat constructor; vm_compute; tauto]|repeat constructor].
  - intros r. discriminate.
  - repeat constructor; vm_compute; intuition discriminate.
Qed.
