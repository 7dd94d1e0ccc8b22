(** Proofs about names. *)
From Verif Require Import GoStr GoStrProofs Strs StrsSpec SplitJoin.

Lemma rb : forall lo hi c, reflect (lo <= c <= hi)%N (in_range lo hi c).
Proof. intros. destruct (in_range lo hi c) eqn:E; constructor; [apply in_range_spec; exact E|]. rewrite <- in_range_spec, E. discriminate. Qed.
Ltac rng := unfold upper1, lower1 in *; unfold is_alnum, is_letter, proto_rune in *; unfold is_lower, is_upper, is_digit, c_underscore, c_dot in *;
  repeat match goal with
  | |- context [in_range ?a ?b ?c] => destruct (rb a b c)
  | H : context [in_range ?a ?b ?c] |- _ => destruct (rb a b c)
  end; cbn in *; try discriminate; try lia.

(** C23 *)
Definition word_rune (d : N) : Prop := is_alnum d = true \/ d = c_underscore.
Lemma camel_runes : forall s prev run, Forall proto_rune s -> Forall word_rune (camel_loop prev run s).
Proof.
  induction s as [|c s IH]; intros prev run H; cbn [camel_loop]; [constructor|].
  inversion H as [|x l Hc Hs E1]; subst x l.
  destruct (run && is_lower c) eqn:E0.
  { constructor; [|auto]. apply andb_true_iff in E0. destruct E0 as [_ E0]. left. unfold is_alnum, is_letter. rewrite E0. reflexivity. }
  destruct (N.eqb c c_dot && next_lower s); [auto|].
  destruct (N.eqb_spec c c_dot) as [Ed|Ed]; [constructor; [right; reflexivity|auto]|].
  destruct (N.eqb c c_underscore && _); [constructor; [left; reflexivity|auto]|].
  destruct (N.eqb c c_underscore && next_lower s); [auto|].
  destruct (is_digit c) eqn:Eg; [constructor; [|auto]; left; unfold is_alnum; rewrite Eg; apply orb_true_r|].
  constructor; [|auto]. unfold word_rune. destruct Hc as [Hc|[Hc|Hc]]; [left|right|contradiction].
  - clear -Hc Eg. rng; auto.
  - subst c. reflexivity.
Qed.

Lemma camel_exported : forall s, proto_ident s -> exported_ident (go_camel_case s).
Proof.
  intros [|c s] [Hall Hc]; [destruct Hc|]. inversion Hall as [|x l Hx Hs E1]; subst x l.
  unfold go_camel_case. cbn [camel_loop andb].
  destruct (N.eqb_spec c c_dot) as [->|Ed]; [destruct Hc as [Hc|Hc]; discriminate|]. cbn [andb].
  destruct (N.eqb_spec c c_underscore) as [->|Eu]; cbn [andb].
  { split; [reflexivity|]. apply camel_runes. exact Hs. }
  destruct Hc as [Hc|Hc]; [|contradiction].
  destruct (is_digit c) eqn:Eg; [exfalso; clear -Hc Eg; rng|].
  split; [clear -Hc; rng; auto|]. apply camel_runes. exact Hs.
Qed.

(** C24: a camel-cased text: it begins with neither an underscore nor a lower-case letter, and every
    lower-case letter follows a rune that is neither digit nor underscore. *)
Definition joins (p : option N) (c : N) : Prop :=
  match p with
  | None => is_lower c = false /\ c <> c_underscore
  | Some q => is_lower c = true -> is_digit q = false /\ q <> c_underscore
  end.
Fixpoint shaped (p : option N) (s : str) : Prop :=
  match s with [] => True | c :: s' => joins p c /\ c <> c_dot /\ shaped (Some c) s' end.
Definition run_after (p : option N) : bool :=
  match p with None => false | Some q => negb (is_digit q) && negb (N.eqb q c_underscore) end.

Lemma camel_fix_gen : forall s p run, shaped p s -> (p <> Some c_dot) ->
  (run = run_after p \/ (run = true /\ p = Some c_underscore)) -> camel_loop p run s = s.
Proof.
  induction s as [|c s IH]; intros p run Hs Hp Hrun; cbn [camel_loop]; [reflexivity|].
  destruct Hs as (Hj & Hd & Hs).
  destruct (is_lower c) eqn:El.
  { assert (Er : run = true).
    { destruct p as [q|]; cbn in Hj; [|destruct Hj; congruence]. destruct (Hj El) as [H1 H2].
      destruct Hrun as [->|[-> _]]; [|reflexivity]. cbn. rewrite H1. cbn.
      destruct (N.eqb_spec q c_underscore); [contradiction|reflexivity]. }
    rewrite Er. cbn [andb]. f_equal. apply IH; [exact Hs|congruence|]. left. cbn. clear -El. rng.
    destruct (N.eqb_spec c 95); [lia|reflexivity]. }
  rewrite andb_false_r.
  destruct (N.eqb_spec c c_dot) as [E|_]; [contradiction|]. cbn [andb].
  destruct (N.eqb_spec c c_underscore) as [Eu|Eu]; cbn [andb].
  - assert (E1 : match p with None => true | Some q => N.eqb q c_dot end = false).
    { destruct p as [q|]; cbn in Hj; [|destruct Hj; contradiction]. apply N.eqb_neq. congruence. }
    rewrite E1. assert (E2 : next_lower s = false).
    { destruct s as [|d s']; [reflexivity|]. cbn. destruct Hs as (Hj2 & _). cbn in Hj2.
      destruct (is_lower d); [|reflexivity]. destruct (Hj2 eq_refl). contradiction. }
    rewrite E2. subst c. cbn [is_digit]. change (is_digit c_underscore) with false. cbn match.
    change (upper1 c_underscore) with c_underscore. f_equal. apply IH; [exact Hs|discriminate|]. right. auto.
  - destruct (is_digit c) eqn:Eg.
    + f_equal. apply IH; [exact Hs|congruence|]. left. cbn. rewrite Eg. reflexivity.
    + unfold upper1. rewrite El. f_equal. apply IH; [exact Hs|congruence|]. left. cbn. rewrite Eg.
      destruct (N.eqb_spec c c_underscore); [contradiction|reflexivity].
Qed.

(** The output is shaped; [q] is the last rune put out. *)
Lemma camel_shaped : forall s p q run, ~ In c_dot s -> p <> Some c_dot -> q <> Some c_dot ->
  (p = None -> q = None) -> (q = None -> p = None) -> (p = None -> run = false) ->
  (run = true -> (exists x, q = Some x /\ is_digit x = false /\ (x = c_underscore -> next_lower s = false))) ->
  shaped q (camel_loop p run s).
Proof.
  induction s as [|c s IH]; intros p q run Hd Hp Hq Hpq Hqp Hpr Hrun; cbn [camel_loop]; [exact I|].
  assert (Hc : c <> c_dot) by (intro; apply Hd; left; auto).
  assert (Hs : ~ In c_dot s) by (intro; apply Hd; right; auto).
  destruct (is_lower c) eqn:El; [destruct run|]; cbn [andb].
  - destruct (Hrun eq_refl) as (x & -> & H1 & H2). split; [|split; [exact Hc|]].
    + cbn. intros _. split; [exact H1|]. intro E. specialize (H2 E). cbn in H2. congruence.
    + apply IH; try discriminate; try congruence; try assumption. intros _. exists c. split; [reflexivity|].
      split; [clear -El; rng; auto|]. intros ->. discriminate.
  - destruct (N.eqb_spec c c_dot) as [|_]; [contradiction|].
    destruct (N.eqb_spec c c_underscore) as [->|Eu]; [discriminate|]. cbn [andb].
    destruct (is_digit c) eqn:Eg; [exfalso; clear -El Eg; rng|].
    assert (Hu : is_upper (upper1 c) = true) by (clear -El; rng; auto).
    assert (Hx : upper1 c <> c_dot /\ is_lower (upper1 c) = false /\ upper1 c <> c_underscore /\ is_digit (upper1 c) = false)
      by (clear -Hu; generalize dependent (upper1 c); intros x Hx; rng; repeat split; auto; lia).
    destruct Hx as (X1 & X2 & X3 & X4).
    split; [|split; [exact X1|]].
    + destruct q; cbn; [congruence|auto].
    + apply IH; try discriminate; try congruence; try assumption. intros _. exists (upper1 c). split; [reflexivity|].
      split; [exact X4|]. intro; contradiction.
  - rewrite andb_false_r. destruct (N.eqb_spec c c_dot) as [|_]; [contradiction|]. cbn [andb].
    destruct (N.eqb_spec c c_underscore) as [->|Eu]; cbn [andb].
    + destruct (match p with None => true | Some x => N.eqb x c_dot end) eqn:Ep.
      * destruct p as [x|]; [apply N.eqb_eq in Ep; congruence|]. rewrite (Hpq eq_refl). split; [split; [reflexivity|discriminate]|].
        split; [discriminate|]. apply IH; try discriminate; try congruence; try assumption.
      * destruct p as [x|]; [|discriminate]. destruct q as [y|]; [|specialize (Hqp eq_refl); discriminate].
        destruct (next_lower s) eqn:En.
        -- apply IH; try discriminate; try congruence; try assumption.
        -- change (is_digit c_underscore) with false. cbn match. change (upper1 c_underscore) with c_underscore.
           split; [cbn; discriminate|]. split; [discriminate|].
           apply IH; try discriminate; try congruence; try assumption. intros _. exists c_underscore. auto.
    + destruct (is_digit c) eqn:Eg.
      * split; [|split; [exact Hc|]].
        -- destruct q; cbn; [congruence|auto].
        -- apply IH; try discriminate; try congruence; try assumption.
      * unfold upper1. rewrite El. split; [|split; [exact Hc|]].
        -- destruct q; cbn; [congruence|auto].
        -- apply IH; try discriminate; try congruence; try assumption. intros _. exists c. split; [reflexivity|]. split; [exact Eg|].
           intro; contradiction.
Qed.

Lemma camel_stable : forall s, ~ In c_dot s -> go_camel_case (go_camel_case s) = go_camel_case s.
Proof.
  intros s H. unfold go_camel_case at 1. apply camel_fix_gen; [|discriminate|left; reflexivity].
  apply camel_shaped; try discriminate; try congruence; auto.
Qed.

(** C25 *)
Lemma json_inverse_gen : forall s, snake s -> json_snake_case (json_camel_loop false s) = s.
Proof.
  intros s H. induction H as [|c s Hc Hu Hs IH|c s Hl Hs IH]; cbn [json_camel_loop]; [reflexivity| |].
  - destruct (N.eqb_spec c c_underscore) as [|_]; [contradiction|]. cbn [andb]. unfold json_snake_case in *. cbn [flat_map].
    rewrite Hu, IH. reflexivity.
  - rewrite N.eqb_refl. destruct (N.eqb_spec c c_underscore) as [->|_]; [discriminate|]. rewrite Hl. cbn [andb].
    unfold json_snake_case in *. cbn [flat_map]. replace (is_upper (c - 32)) with true by (clear -Hl; rng; auto).
    cbn [app]. rewrite IH. do 2 f_equal. clear -Hl; rng.
Qed.
Lemma json_camel_no_underscore : forall s w, ~ In c_underscore (json_camel_loop w s).
Proof.
  induction s as [|c s IH]; intros w; cbn [json_camel_loop]; [intros []|].
  destruct (N.eqb_spec c c_underscore) as [|Hc]; [apply IH|]. intros [H|H]; [|exact (IH _ H)].
  destruct (w && is_lower c) eqn:E; [|contradiction]. apply andb_true_iff in E. destruct E as [_ E]. clear -E H. rng.
Qed.
Lemma json_camel_id : forall s, ~ In c_underscore s -> json_camel_loop false s = s.
Proof.
  induction s as [|c s IH]; intro H; cbn [json_camel_loop]; [reflexivity|].
  destruct (N.eqb_spec c c_underscore) as [->|_]; [exfalso; apply H; left; reflexivity|]. cbn [andb]. f_equal.
  apply IH. intro; apply H; right; assumption.
Qed.
Lemma json_snake_no_upper : forall s, Forall (fun c => is_upper c = false) (json_snake_case s).
Proof.
  induction s as [|c s IH]; [constructor|]. unfold json_snake_case in *. cbn [flat_map]. apply Forall_app. split; [|exact IH].
  destruct (is_upper c) eqn:E; repeat constructor; auto. clear -E. rng; auto.
Qed.

(** C26 *)
Lemma is_keyword_in : forall s, is_keyword s = true <-> In s go_keywords.
Proof.
  intro s. unfold is_keyword. rewrite existsb_exists. split.
  - intros [x [H E]]. apply str_eqb_eq in E. subst x. exact H.
  - intro H. exists s. split; [exact H|apply str_eqb_refl].
Qed.
Lemma keyword_not_underscore : forall s, ~ In (c_underscore :: s) go_keywords.
Proof. intros s H. unfold go_keywords in H. repeat (destruct H as [H|H]; [discriminate|]). destruct H. Qed.
Lemma sanitized_ident : forall U s, u_letter U rune_error = false -> go_ident U (go_sanitized U s).
Proof.
  intros U s HU. unfold go_sanitized.
  set (f := fun r => if u_letter U r || u_digit U r then r else c_underscore).
  assert (Hf : Forall (fun d => u_letter U d = true \/ u_digit U d = true \/ d = c_underscore) (map f s)).
  { apply Forall_forall. intros d Hd. apply in_map_iff in Hd. destruct Hd as [x [<- _]]. unfold f.
    destruct (u_letter U x) eqn:E1; cbn [orb]; [left; exact E1|]. destruct (u_digit U x) eqn:E2; auto. }
  destruct (is_keyword (map f s) || _) eqn:E.
  - split; [|apply keyword_not_underscore]. split; [right; reflexivity|exact Hf].
  - apply orb_false_iff in E. destruct E as [E1 E2]. apply negb_false_iff in E2. split.
    + destruct (map f s) as [|c m]; [congruence|]. split; [left; exact E2|]. inversion Hf; assumption.
    + rewrite <- is_keyword_in, E1. discriminate.
Qed.

Lemma sanitized_keeps : forall U s, go_ident U s -> starts_letter U s -> go_sanitized U s = s.
Proof.
  intros U s [H Hk] Hl. unfold go_sanitized. set (f := fun r => if u_letter U r || u_digit U r then r else c_underscore).
  assert (E : map f s = s).
  { destruct s as [|c s]; [reflexivity|]. destruct H as [_ H]. cbn [starts_letter] in Hl. cbn [map]. f_equal.
    - unfold f. rewrite Hl. reflexivity.
    - rewrite <- (map_id s) at 2. apply map_ext_in. intros d Hd. rewrite Forall_forall in H. unfold f.
      destruct (H d Hd) as [-> |[-> | ->]]; [reflexivity|rewrite orb_true_r; reflexivity|destruct (_ || _); reflexivity]. }
  rewrite E. destruct (is_keyword s) eqn:Ek; [apply is_keyword_in in Ek; contradiction|]. cbn [orb].
  destruct s as [|c s]; [destruct Hl|]. cbn in Hl. rewrite Hl. reflexivity.
Qed.

(** C49 *)
Notation nous := (filter (fun c => negb (N.eqb c c_underscore))).
Lemma trim_left_suffix : forall c s, exists d, s = d ++ trim_left1 c s /\ Forall (fun x => x = c) d.
Proof.
  intros c s. induction s as [|x s [d [E F]]]; cbn [trim_left1]; [exists []; split; [reflexivity|constructor]|].
  destruct (N.eqb_spec x c) as [->|_].
  - exists (c :: d). split; [cbn; f_equal; exact E|constructor; auto].
  - exists []. split; [reflexivity|constructor].
Qed.
Lemma trim_loop_spec : forall s p s1 p1, trim_enum_loop s p = Some (s1, p1) ->
  exists d, s = d ++ s1 /\ p = to_lower (nous d) ++ p1.
Proof.
  induction s as [|c s IH]; intros p s1 p1 H; cbn [trim_enum_loop] in H.
  - injection H as <- <-. exists []. auto.
  - destruct p as [|q p]; [injection H as <- <-; exists []; auto|].
    destruct (N.eqb_spec c c_underscore) as [->|Hc].
    + destruct (IH _ _ _ H) as (d & -> & E). exists (c_underscore :: d). split; [reflexivity|]. exact E.
    + destruct (N.eqb_spec (lower1 c) q) as [Hq|]; [|discriminate]. cbn [negb] in H.
      destruct (IH _ _ _ H) as (d & -> & ->). exists (c :: d). split; [reflexivity|].
      cbn [filter]. destruct (N.eqb_spec c c_underscore); [contradiction|]. cbn [negb]. unfold to_lower. cbn [map app]. rewrite Hq. reflexivity.
Qed.
Lemma nous_under : forall d, Forall (fun x => x = c_underscore) d -> nous d = [].
Proof. induction d as [|x d IH]; intro H; [reflexivity|]. inversion H; subst. cbn [filter]. rewrite N.eqb_refl. cbn. auto. Qed.
Lemma trim_cases : forall s p, trim_enum_prefix s p = s
  \/ (trim_enum_prefix s p <> [] /\ exists d, s = d ++ trim_enum_prefix s p /\ to_lower (nous d) = p).
Proof.
  intros s p. unfold trim_enum_prefix. destruct (trim_enum_loop s p) as [[s1 p1]|] eqn:E; [|left; reflexivity].
  destruct p1 as [|q p1]; [|left; reflexivity].
  destruct (trim_loop_spec _ _ _ _ E) as (d & Es & Ep). rewrite app_nil_r in Ep.
  destruct (trim_left_suffix c_underscore s1) as (d2 & E2 & F2).
  destruct (trim_left1 c_underscore s1) as [|c r]; [left; reflexivity|]. right. split; [discriminate|].
  exists (d ++ d2). split; [rewrite <- app_assoc, <- E2; exact Es|].
  rewrite filter_app, (nous_under d2 F2), app_nil_r. auto.
Qed.
Lemma trim_suffix_of : forall s p, exists dropped, s = dropped ++ trim_enum_prefix s p.
Proof. intros s p. destruct (trim_cases s p) as [->|(_ & d & E & _)]; [exists []; reflexivity|exists d; exact E]. Qed.
Lemma trim_nonempty : forall s p, s <> [] -> trim_enum_prefix s p <> [].
Proof. intros s p H. destruct (trim_cases s p) as [->|(K & _)]; assumption. Qed.
Lemma trim_drops : forall s p, trim_enum_prefix s p <> s ->
  exists dropped, s = dropped ++ trim_enum_prefix s p /\ to_lower (nous dropped) = p.
Proof. intros s p H. destruct (trim_cases s p) as [K|(_ & K)]; [contradiction|exact K]. Qed.
Lemma trim_loop_complete : forall s p rest, to_lower (nous s) = p ->
  exists m, (forall x, In x m -> x = c_underscore) /\ trim_enum_loop (s ++ rest) p = Some (m ++ rest, []).
Proof.
  induction s as [|c s IH]; intros p rest H.
  - cbn in H. subst p. exists []. split; [intros x []|]. destruct rest; reflexivity.
  - cbn [filter] in H. destruct (N.eqb_spec c c_underscore) as [->|Hc]; cbn [negb] in H.
    + destruct (IH p rest H) as (m & Hm & E). destruct p as [|q p].
      * exists (c_underscore :: s). split; [|reflexivity].
        intros x [<-|Hx]; [reflexivity|]. clear -H Hx. induction s as [|y s IHs]; [destruct Hx|].
        cbn [filter] in H. destruct (N.eqb_spec y c_underscore) as [->|]; [|discriminate].
        destruct Hx as [<-|Hx]; auto.
      * exists m. split; [exact Hm|]. cbn [app trim_enum_loop]. rewrite N.eqb_refl. exact E.
    + destruct p as [|q p]; [discriminate|]. cbn in H. injection H as Hq Hp.
      destruct (IH p rest Hp) as (m & Hm & E). exists m. split; [exact Hm|].
      cbn [app trim_enum_loop]. destruct (N.eqb_spec c c_underscore); [contradiction|].
      rewrite <- Hq, N.eqb_refl. exact E.
Qed.
Lemma trim_left_all : forall m us, (forall x, In x m -> x = c_underscore) -> match us with c :: _ => c <> c_underscore | [] => False end ->
  trim_left1 c_underscore (m ++ us) = us.
Proof.
  induction m as [|x m IH]; intros us Hm Hu; cbn [app].
  - destruct us as [|c us]; [destruct Hu|]. cbn. destruct (N.eqb_spec c c_underscore); [contradiction|reflexivity].
  - cbn [trim_left1]. rewrite (Hm x (or_introl eq_refl)), N.eqb_refl. apply IH; [|exact Hu]. intros y Hy. apply Hm. right. exact Hy.
Qed.
Lemma trim_complete : forall s p us, to_lower (nous s) = p ->
  match us with c :: _ => c <> c_underscore | [] => False end ->
  trim_enum_prefix (s ++ [c_underscore] ++ us) p = us.
Proof.
  intros s p us H Hu. unfold trim_enum_prefix.
  destruct (trim_loop_complete s p ([c_underscore] ++ us) H) as (m & Hm & E). rewrite E.
  replace (m ++ [c_underscore] ++ us) with ((m ++ [c_underscore]) ++ us) by (rewrite <- app_assoc; reflexivity).
  rewrite trim_left_all; [|intros x Hx; apply in_app_or in Hx; destruct Hx as [Hx|[<-|[]]]; auto|exact Hu].
  destruct us; [destruct Hu|reflexivity].
Qed.
Lemma enum_no_under : forall s u, ~ In c_underscore (enum_value_loop u s).
Proof.
  induction s as [|c s IH]; intro u; cbn [enum_value_loop]; [intros []|].
  destruct (N.eqb_spec c c_underscore) as [|Hc]; [apply IH|].
  destruct u; intros [H|H]; try exact (IH _ H); clear IH; rng.
Qed.
Lemma entry_no_under : forall s u, ~ In c_underscore (map_entry_loop u s).
Proof.
  induction s as [|c s IH]; intro u; cbn [map_entry_loop]; [intros []|].
  destruct (N.eqb_spec c c_underscore) as [|Hc]; [apply IH|].
  destruct u; intros [H|H]; try exact (IH _ H); clear IH; [rng|contradiction].
Qed.
Lemma names_no_underscore : forall s, ~ In c_underscore (enum_value_name s) /\ ~ In c_underscore (map_entry_name s).
Proof.
  intro s. split; [apply enum_no_under|]. unfold map_entry_name. intro H. apply in_app_or in H. destruct H as [H|H].
  - exact (entry_no_under _ _ H).
  - repeat (destruct H as [H|H]; [discriminate|]). destruct H.
Qed.

(** ** The camel-cased words of a name *)
Lemma enum_words_gen : forall s, enum_value_loop true s = concat (map cap_lower (split1 c_underscore s)) /\
  enum_value_loop false s = match split1 c_underscore s with [] => [] | w :: ws => map lower1 w ++ concat (map cap_lower ws) end.
Proof.
  induction s as [|c s [IH1 IH2]]; [split; reflexivity|]. cbn [enum_value_loop split1].
  destruct (N.eqb c c_underscore); [rewrite IH1; split; reflexivity|].
  destruct (split1 c_underscore s) as [|w ws] eqn:E; [exfalso; exact (split1_ne _ _ E)|]. rewrite IH2. split; reflexivity.
Qed.
Lemma entry_words_gen : forall s, map_entry_loop true s = concat (map cap_only (split1 c_underscore s)) /\
  map_entry_loop false s = match split1 c_underscore s with [] => [] | w :: ws => w ++ concat (map cap_only ws) end.
Proof.
  induction s as [|c s [IH1 IH2]]; [split; reflexivity|]. cbn [map_entry_loop split1].
  destruct (N.eqb c c_underscore); [rewrite IH1; split; reflexivity|].
  destruct (split1 c_underscore s) as [|w ws] eqn:E; [exfalso; exact (split1_ne _ _ E)|]. rewrite IH2. split; reflexivity.
Qed.
