(** The parser accepts exactly the language of GrammarSpec.v. *)
From Verif Require Import GoStr GoStrProofs Scanner Lexer Unquote Parser ParserSpec ParserList ParserSim ParserProofs ParserProofs2 GrammarSpec.

Lemma tok_neq : forall a b, a <> b -> token_eqb a b = false.
Proof. intros a b H. destruct a, b; reflexivity || congruence. Qed.
Lemma legal_tests : forall t, legal t -> token_eqb t TEOF || token_eqb t ILLEGAL = false.
Proof. intros t [H1 H2]. rewrite (tok_neq _ _ H1), (tok_neq _ _ H2). reflexivity. Qed.
Lemma tests_legal : forall t, token_eqb t TEOF || token_eqb t ILLEGAL = false -> legal t.
Proof. intros t H. split; intros ->; discriminate. Qed.

Lemma aff_iff : forall d s s', aff d s = AOk tt s' <-> exists sk t, s = sk ++ (t, d) :: s' /\ skipped d sk /\ legal t.
Proof.
  intros d s s'. split.
  - revert s'. induction s as [|[t v] s IH]; intros s' H; cbn [aff] in H; [discriminate|].
    destruct (token_eqb t TEOF || token_eqb t ILLEGAL) eqn:E; [discriminate|]. apply tests_legal in E.
    destruct (str_eqb v d) eqn:Ev.
    + apply str_eqb_eq in Ev. injection H as <-. exists [], t. subst v. split; [reflexivity|]. split; [apply Forall_nil|exact E].
    + apply IH in H. destruct H as (sk & t1 & -> & Hsk & Ht1). exists ((t, v) :: sk), t1. split; [reflexivity|]. split; [|exact Ht1].
      apply Forall_cons; [|exact Hsk]. split; [exact E|]. intro K. cbn in K. subst v. rewrite (proj2 (str_eqb_eq d d) eq_refl) in Ev. discriminate.
  - intros (sk & t & -> & Hsk & Ht). induction Hsk as [|[t1 v1] sk [H1 H2] Hsk IH]; cbn [app aff].
    + rewrite (legal_tests _ Ht), (proj2 (str_eqb_eq d d) eq_refl). reflexivity.
    + cbn [fst snd] in *. rewrite (legal_tests _ H1), (str_neqb _ _ H2). exact IH.
Qed.

Lemma askip_inv : forall s desc d t v s', askip desc s = (d, (t, v), s') -> t <> TEOF ->
  exists cs, s = comments cs ++ (t, v) :: s' /\ d = last cs desc /\ t <> COMMENT.
Proof.
  induction s as [|[t0 v0] s IH]; intros desc d t v s' H Ht; cbn [askip] in H.
  - injection H as <- <- <- <-. congruence.
  - destruct (token_eqb t0 COMMENT) eqn:E.
    + apply token_eqb_eq in E. subst t0. destruct (IH _ _ _ _ _ H Ht) as (cs & -> & -> & Hc).
      exists (v0 :: cs). split; [reflexivity|]. split; [rewrite last_cons; reflexivity|exact Hc].
    + injection H as <- <- <- <-. exists []. split; [reflexivity|]. split; [reflexivity|].
      intros ->. discriminate.
Qed.

Lemma anext_inv : forall s t v s', anext s = (t, v, s') -> t <> TEOF -> s = (t, v) :: s'.
Proof. intros [|[t0 v0] s] t v s' H Ht; cbn in H; injection H as <- <- <-; congruence. Qed.

(** ** Entries *)
Lemma items_len : forall desc s fs c rest, items desc s fs c rest -> length rest <= length s.
Proof.
  intros desc s fs c rest H. induction H; rewrite ?app_length in *; cbn [length] in *; rewrite ?app_length in *; cbn [length] in *; lia.
Qed.

Lemma ends_items_dec : forall t v, ends_items t v <-> (token_eqb t CLOSE_BRACE && str_eqb v (T "}")) || str_eqb v (T "additional_bindings") = true.
Proof.
  intros t v. unfold ends_items. rewrite Bool.orb_true_iff, Bool.andb_true_iff, token_eqb_eq, !str_eqb_eq. tauto.
Qed.

Lemma items_complete : forall desc s fs c rest, items desc s fs c rest -> forall fuel fs0 c0, length s < fuel ->
  afields fuel s desc fs0 c0 = AOk (fs0 ++ fs, or_custom c c0) rest.
Proof.
  intros desc s fs c rest H. induction H as [desc cs t v s Ht He|desc cs t kind lit val s fs c rest Ht He Hk Hu H IH
    |desc cs t sk t1 s cfs c' sk' t2 s' fs c rest Ht Hsk Ht1 H1 IH1 Hsk' Ht2 H2 IH2]; intros fuel fs0 c0 Hf;
    (destruct fuel as [|fuel]; [lia|]); cbn [afields]; rewrite askip_comments by (apply Ht); rewrite (legal_tests _ (proj1 Ht)).
  - apply ends_items_dec in He. rewrite app_nil_r.
    destruct (token_eqb t CLOSE_BRACE && str_eqb v (T "}")); [reflexivity|]. cbn [orb] in He. rewrite He. reflexivity.
  - destruct (token_eqb t CLOSE_BRACE && str_eqb kind (T "}")) eqn:E1;
      [exfalso; apply He; apply ends_items_dec; rewrite E1; reflexivity|].
    destruct (str_eqb kind (T "additional_bindings")) eqn:E2;
      [exfalso; apply He; apply ends_items_dec; rewrite E2; apply Bool.orb_true_r|].
    rewrite (str_neqb _ _ Hk). cbn [anext token_eqb negb]. change (str_eqb (T ":") (T ":")) with true. cbn [negb orb].
    rewrite Hu. rewrite IH by (rewrite app_length in Hf; cbn [length] in Hf; lia). rewrite <- app_assoc. reflexivity.
  - change (str_eqb (T "custom") (T "}")) with false. rewrite Bool.andb_false_r.
    change (str_eqb (T "custom") (T "additional_bindings")) with false. change (str_eqb (T "custom") (T "custom")) with true. cbv iota.
    assert (L : length s < fuel).
    { rewrite app_length in Hf. cbn [length] in Hf. rewrite app_length in Hf. cbn [length] in Hf. lia. }
    assert (L' : length s' < fuel).
    { pose proof (items_len _ _ _ _ _ H1) as K. rewrite app_length in K. cbn [length] in K. lia. }
    rewrite (proj2 (aff_iff (T "{") (sk ++ (t1, T "{") :: s) s)) by (exists sk, t1; auto). cbn [awrap abind].
    rewrite (IH1 fuel [] []) by exact L. cbn [awrap abind app].
    rewrite (proj2 (aff_iff (T "}") (sk' ++ (t2, T "}") :: s') s')) by (exists sk', t2; auto). cbn [awrap abind].
    rewrite (IH2 fuel fs0 cfs) by exact L'. destruct c; reflexivity.
Qed.

Lemma items_sound : forall fuel s desc fs0 c0 f cc rest, afields fuel s desc fs0 c0 = AOk (f, cc) rest ->
  exists fs c, f = fs0 ++ fs /\ cc = or_custom c c0 /\ items desc s fs c rest.
Proof.
  induction fuel as [|fuel IH]; intros s desc fs0 c0 f cc rest H; [discriminate|]. cbn [afields] in H.
  destruct (askip desc s) as [[d [t v]] s1] eqn:Es.
  destruct (token_eqb t TEOF || token_eqb t ILLEGAL) eqn:E1; [discriminate|]. apply tests_legal in E1.
  destruct (askip_inv _ _ _ _ _ _ Es (proj1 E1)) as (cs & -> & -> & Hc). assert (He : entry t) by (split; assumption).
  destruct (token_eqb t CLOSE_BRACE && str_eqb v (T "}")) eqn:E2.
  { injection H as <- <- <-. exists [], None. rewrite app_nil_r. split; [reflexivity|]. split; [reflexivity|].
    apply items_end; [exact He|]. apply ends_items_dec. rewrite E2. reflexivity. }
  destruct (str_eqb v (T "additional_bindings")) eqn:E3.
  { injection H as <- <- <-. exists [], None. rewrite app_nil_r. split; [reflexivity|]. split; [reflexivity|].
    apply items_end; [exact He|]. apply ends_items_dec. rewrite E3. apply Bool.orb_true_r. }
  destruct (str_eqb v (T "custom")) eqn:E4.
  - apply str_eqb_eq in E4. subst v.
    apply abind_ok in H. destruct H as (x & s2 & H1 & H). apply awrap_ok in H1. destruct x.
    apply abind_ok in H. destruct H as ([cf cc'] & s3 & H2 & H). apply awrap_ok in H2.
    apply abind_ok in H. destruct H as (x & s4 & H3 & H). apply awrap_ok in H3. destruct x.
    apply aff_iff in H1. destruct H1 as (sk & t1 & -> & Hsk & Ht1).
    apply aff_iff in H3. destruct H3 as (sk' & t2 & -> & Hsk' & Ht2).
    apply IH in H2. destruct H2 as (cfs & c' & E & _ & H2). cbn [app] in E. subst cf.
    apply IH in H. destruct H as (fs & c & -> & -> & H).
    exists fs, (Some (or_custom c cfs)). split; [reflexivity|]. split; [reflexivity|].
    eapply items_custom; eassumption.
  - destruct (anext s1) as [[t2 v2] s2] eqn:N2.
    destruct (negb (token_eqb t2 SYMBOL) || negb (str_eqb v2 (T ":"))) eqn:F2; [discriminate|].
    apply Bool.orb_false_iff in F2. destruct F2 as [F2 F2']. apply negb_tok in F2. apply negb_str in F2'. subst t2 v2.
    apply anext_inv in N2; [|discriminate]. subst s1.
    destruct (anext s2) as [[t3 v3] s3] eqn:N3. destruct (negb (token_eqb t3 STRING_LITERAL)) eqn:F3; [discriminate|].
    apply negb_tok in F3. subst t3. apply anext_inv in N3; [|discriminate]. subst s2.
    destruct (unquote v3) as [nq|] eqn:U; [|discriminate].
    apply IH in H. destruct H as (fs & c & -> & -> & H).
    exists (mkField v (last cs desc) v nq :: fs), c. split; [rewrite <- app_assoc; reflexivity|]. split; [reflexivity|].
    apply items_field; auto.
    + intro K. apply ends_items_dec in K. rewrite E2, E3 in K. discriminate.
    + intros ->. discriminate.
Qed.

Lemma aparse_fields_iff : forall s f cc rest, aparse_fields s = AOk (f, cc) rest <->
  exists c, cc = or_custom c [] /\ items [] s f c rest.
Proof.
  intros s f cc rest. unfold aparse_fields. split.
  - intro H. apply items_sound in H. destruct H as (fs & c & -> & -> & H). exists c. auto.
  - intros (c & -> & H). rewrite (items_complete _ _ _ _ _ H) by lia. reflexivity.
Qed.

(** ** Bindings *)
Lemma aadditional_iff : forall desc s r rest, aadditional desc s = AOk r rest <->
  exists fs c, r = Some [mkBinding desc fs c] /\ block s fs c rest.
Proof.
  intros desc s r rest. unfold aadditional. split.
  - intro H. apply abind_ok in H. destruct H as (x & s2 & H1 & H). destruct x.
    apply abind_ok in H. destruct H as ([fs cc] & s3 & H2 & H).
    apply abind_ok in H. destruct H as (x & s4 & H3 & H). destruct x. injection H as <- <-.
    apply aff_iff in H1. destruct H1 as (sk & t1 & -> & Hsk & Ht1).
    apply aff_iff in H3. destruct H3 as (sk' & t2 & -> & Hsk' & Ht2).
    apply aparse_fields_iff in H2. destruct H2 as (c & -> & H2). exists fs, (or_custom c []). split; [reflexivity|].
    eapply block_i; eassumption.
  - intros (fs & c & -> & H). destruct H as [sk t1 s fs c sk' t2 rest Hsk Ht1 H Hsk' Ht2].
    rewrite (proj2 (aff_iff (T "{") (sk ++ (t1, T "{") :: s) s)) by (exists sk, t1; auto). cbn [abind].
    rewrite (proj2 (aparse_fields_iff s fs (or_custom c []) _)) by (exists c; eauto). cbn [abind].
    rewrite (proj2 (aff_iff (T "}") (sk' ++ (t2, T "}") :: rest) rest)) by (exists sk', t2; auto). reflexivity.
Qed.

Lemma block_len : forall s fs c rest, block s fs c rest -> length rest < length s.
Proof.
  intros s fs c rest H. destruct H as [sk t1 s fs c sk' t2 rest Hsk Ht1 H Hsk' Ht2]. apply items_len in H.
  rewrite app_length in *. cbn [length] in *. lia.
Qed.

Lemma additional_complete : forall s bs rest, additional s bs rest -> forall fuel rv no, length s < fuel ->
  aoption fuel s rv no = AOk (Some (rv ++ bs ++ [no])) rest.
Proof.
  intros s bs rest H. induction H as [cs v rest|cs t s fs c s' bs rest Ht Hcb Hb H IH]; intros fuel rv no Hf.
  - rewrite app_length, comments_len in Hf. cbn [length] in Hf. rewrite aoption_comments by lia.
    destruct (fuel - length cs) as [|k] eqn:E; [lia|]. reflexivity.
  - rewrite app_length, comments_len in Hf. cbn [length] in Hf. rewrite aoption_comments by lia.
    destruct (fuel - length cs) as [|k] eqn:E; [lia|]. cbn [aoption anext].
    rewrite (tok_neq _ _ Hcb), (tok_neq _ _ (proj2 Ht)). change (str_eqb (T "additional_bindings") (T "additional_bindings")) with true.
    rewrite (legal_tests _ (proj1 Ht)). rewrite (proj2 (aadditional_iff [] s (Some [mkBinding [] fs c]) s')) by (exists fs, c; auto).
    cbn [abind]. rewrite IH by (apply block_len in Hb; lia). rewrite <- app_assoc. reflexivity.
Qed.

Lemma additional_comment : forall c s bs rest, additional s bs rest -> additional ((COMMENT, c) :: s) bs rest.
Proof. intros c s bs rest H. destruct H as [cs v rest|cs t s fs cu s' bs rest Ht Hcb Hb H]; [exact (add_end (c :: cs) v rest)|exact (add_more (c :: cs) t s fs cu s' bs rest Ht Hcb Hb H)]. Qed.

Lemma additional_sound : forall fuel s rv no r rest, aoption fuel s rv no = AOk r rest ->
  exists bs, r = Some (rv ++ bs ++ [no]) /\ additional s bs rest.
Proof.
  induction fuel as [|fuel IH]; intros s rv no r rest H; [discriminate|]. cbn [aoption] in H.
  destruct (anext s) as [[t v] s1] eqn:N.
  destruct (token_eqb t CLOSE_BRACE) eqn:E1.
  { apply token_eqb_eq in E1. subst t. apply anext_inv in N; [|discriminate]. subst s. injection H as <- <-.
    exists []. split; [reflexivity|]. exact (add_end [] v s1). }
  destruct (token_eqb t COMMENT) eqn:E2.
  { apply token_eqb_eq in E2. subst t. apply anext_inv in N; [|discriminate]. subst s. apply IH in H.
    destruct H as (bs & -> & H). exists bs. split; [reflexivity|]. apply additional_comment. exact H. }
  destruct (str_eqb v (T "additional_bindings")) eqn:E3;
    (destruct (token_eqb t TEOF || token_eqb t ILLEGAL) eqn:E4; [discriminate|]); [|discriminate].
  apply tests_legal in E4. apply anext_inv in N; [|apply E4]. subst s. apply str_eqb_eq in E3. subst v.
  apply abind_ok in H. destruct H as (more & s2 & H1 & H). apply aadditional_iff in H1. destruct H1 as (fs & c & -> & Hb).
  apply IH in H. destruct H as (bs & -> & H). exists (mkBinding [] fs c :: bs). split; [rewrite <- app_assoc; reflexivity|].
  apply (add_more [] t s1 fs c s2 bs rest); try assumption.
  - split; [exact E4|]. intros ->. discriminate.
  - intros ->. discriminate.
Qed.

Lemma ahttp_iff : forall s r rest, ahttp s = AOk r rest <-> http_part s r rest.
Proof.
  intros s r rest. split.
  - intro H. unfold ahttp in H. destruct (askip [] s) as [[d [t v]] s1] eqn:Es.
    destruct (token_eqb t TEOF || token_eqb t ILLEGAL) eqn:E1; [discriminate|]. apply tests_legal in E1.
    destruct (askip_inv _ _ _ _ _ _ Es (proj1 E1)) as (cs & -> & -> & Hc). assert (He : entry t) by (split; assumption).
    destruct (str_eqb v (T "option")) eqn:E2.
    { apply str_eqb_eq in E2. subst v.
      apply abind_ok in H. destruct H as (x & s2 & H1 & H). destruct x.
      apply abind_ok in H. destruct H as ([fs cc] & s3 & H2 & H).
      apply aff_iff in H1. destruct H1 as (sk & t1 & -> & Hsk & Ht1).
      apply aparse_fields_iff in H2. destruct H2 as (c & -> & H2).
      apply additional_sound in H. destruct H as (bs & -> & H). cbn [app].
      eapply http_option; eassumption. }
    destruct (str_eqb v (T "additional_bindings")) eqn:E3.
    { apply str_eqb_eq in E3. subst v. apply aadditional_iff in H. destruct H as (fs & c & -> & Hb).
      apply http_additional; assumption. }
    destruct (str_eqb v (T "}")) eqn:E4; [|discriminate]. apply str_eqb_eq in E4. subst v. injection H as <- <-.
    apply http_none. exact He.
  - intro H. unfold ahttp. destruct H as [cs t sk t1 s fs c s' bs rest Ht Hsk Ht1 Hi Ha|cs t s fs c rest Ht Hb|cs t rest Ht];
      rewrite askip_comments by (apply Ht); rewrite (legal_tests _ (proj1 Ht)).
    + change (str_eqb (T "option") (T "option")) with true. cbv iota.
      rewrite (proj2 (aff_iff (T "{") (sk ++ (t1, T "{") :: s) s)) by (exists sk, t1; auto). cbn [abind].
      rewrite (proj2 (aparse_fields_iff s fs (or_custom c []) s')) by (exists c; auto). cbn [abind].
      rewrite (additional_complete _ _ _ Ha) by lia. reflexivity.
    + change (str_eqb (T "additional_bindings") (T "option")) with false.
      change (str_eqb (T "additional_bindings") (T "additional_bindings")) with true. cbv iota.
      apply aadditional_iff. exists fs, c. auto.
    + reflexivity.
Qed.

(** ** Types *)
Lemma atype_iff : forall s ty r rest, atype ty s = AOk r rest <->
  exists more v, s = more ++ (CLOSE_PAREN, v) :: rest /\ Forall (fun x => fst x = SYMBOL \/ fst x = IDENT) more
    /\ r = last (map snd (filter (fun x => token_eqb (fst x) IDENT) more)) ty.
Proof.
  intros s ty r rest. split.
  - revert ty. induction s as [|[t v] s IH]; intros ty H; cbn [atype] in H; [discriminate|].
    destruct (token_eqb t CLOSE_PAREN) eqn:E1.
    { apply token_eqb_eq in E1. subst t. injection H as <- <-. exists [], v. split; [reflexivity|]. split; [apply Forall_nil|reflexivity]. }
    destruct (token_eqb t SYMBOL) eqn:E2.
    { apply token_eqb_eq in E2. subst t. apply IH in H. destruct H as (more & v' & -> & Hm & ->).
      exists ((SYMBOL, v) :: more), v'. split; [reflexivity|]. split; [apply Forall_cons; [left; reflexivity|exact Hm]|reflexivity]. }
    destruct (token_eqb t IDENT) eqn:E3; [|discriminate].
    apply token_eqb_eq in E3. subst t. apply IH in H. destruct H as (more & v' & -> & Hm & ->).
    exists ((IDENT, v) :: more), v'. split; [reflexivity|]. split; [apply Forall_cons; [right; reflexivity|exact Hm]|].
    cbn [filter fst token_eqb map snd]. rewrite last_cons. reflexivity.
  - intros (more & v & -> & Hm & ->). revert ty. induction Hm as [|[t w] more [K|K] Hm IH]; intro ty; cbn [app atype].
    + reflexivity.
    + cbn [fst] in K. subst t. cbn [token_eqb]. rewrite IH. reflexivity.
    + cbn [fst] in K. subst t. cbn [token_eqb filter fst map snd]. rewrite IH, last_cons. reflexivity.
Qed.

Lemma aarg_iff : forall e s r rest, aarg e s = AOk r rest <-> argument s r rest.
Proof.
  intros e s r rest. unfold aarg. split.
  - intro H. destruct (anext s) as [[t v] s1] eqn:N1. destruct (negb (token_eqb t OPEN_PAREN)) eqn:E1; [discriminate|].
    apply negb_tok in E1. subst t. apply anext_inv in N1; [|discriminate]. subst s.
    destruct (anext s1) as [[t1 v1] s2] eqn:N2.
    destruct (str_eqb v1 (T "stream")) eqn:E2.
    + destruct (anext s2) as [[t3 v3] s3] eqn:N3. destruct (negb (token_eqb t3 IDENT)) eqn:E3; [discriminate|].
      apply negb_tok in E3. subst t3. apply anext_inv in N3; [|discriminate]. subst s2.
      apply str_eqb_eq in E2. subst v1.
      assert (Es1 : s1 = (t1, T "stream") :: (IDENT, v3) :: s3).
      { destruct s1 as [|[ta va] s1]; cbn [anext] in N2; [discriminate|]. congruence. }
      subst s1. cbn [atype token_eqb] in H. apply atype_iff in H. destruct H as (more & v' & -> & Hm & ->).
      apply arg_stream. exact Hm.
    + destruct (anext s1) as [[t3 v3] s3] eqn:N3 in H. destruct (negb (token_eqb t3 IDENT)) eqn:E3; [discriminate|].
      apply negb_tok in E3. subst t3. rewrite N2 in N3. injection N3 as -> -> ->.
      apply anext_inv in N2; [|discriminate]. subst s1. cbn [atype token_eqb] in H. apply atype_iff in H.
      destruct H as (more & v' & -> & Hm & ->). apply arg_plain; [|exact Hm]. intros ->. discriminate.
  - intro H. destruct H as [v first more v' rest Hn Hm|v t first more v' rest Hm]; cbn [anext token_eqb negb].
    + rewrite (str_neqb _ _ Hn). cbn [anext token_eqb negb atype]. apply atype_iff. exists more, v'. auto.
    + change (str_eqb (T "stream") (T "stream")) with true. cbn [anext token_eqb negb atype]. apply atype_iff. exists more, v'. auto.
Qed.

(** ** Methods *)
Lemma aend_iff : forall m bs s r rest, aend m bs s = AOk r rest <->
  exists cs1 cs2 v2, s = comments cs1 ++ (SYMBOL, T ";") :: comments cs2 ++ (CLOSE_BRACE, v2) :: rest /\ r = Some (m bs).
Proof.
  intros m bs s r rest. unfold aend. split.
  - intro H. destruct (askip [] s) as [[d [t v]] s1] eqn:Es.
    destruct (negb (token_eqb t SYMBOL) || negb (str_eqb v (T ";"))) eqn:E1; [discriminate|].
    apply Bool.orb_false_iff in E1. destruct E1 as [E1 E2]. apply negb_tok in E1. apply negb_str in E2. subst t v.
    destruct (askip_inv _ _ _ _ _ _ Es ltac:(discriminate)) as (cs1 & -> & _ & _).
    destruct (askip [] s1) as [[d2 [t2 v2]] s2] eqn:Es2. destruct (negb (token_eqb t2 CLOSE_BRACE)) eqn:E3; [discriminate|].
    apply negb_tok in E3. subst t2. destruct (askip_inv _ _ _ _ _ _ Es2 ltac:(discriminate)) as (cs2 & -> & _ & _).
    injection H as <- <-. exists cs1, cs2, v2. auto.
  - intros (cs1 & cs2 & v2 & -> & ->). rewrite askip_comments by discriminate. cbn [token_eqb negb].
    change (str_eqb (T ";") (T ";")) with true. cbn [negb orb]. rewrite askip_comments by discriminate. reflexivity.
Qed.

Lemma amethod_iff : forall s r rest, amethod s = AOk r rest <-> rpc s r rest.
Proof.
  intros s r rest. split.
  - intro H. unfold amethod in H. destruct (askip [] s) as [[d [t v]] s1] eqn:Es.
    destruct (token_eqb t CLOSE_BRACE) eqn:E0; [discriminate|].
    destruct (negb (token_eqb t IDENT) || negb (str_eqb v (T "rpc"))) eqn:E1; [discriminate|].
    apply Bool.orb_false_iff in E1. destruct E1 as [E1 E2]. apply negb_tok in E1. apply negb_str in E2. subst t v.
    destruct (askip_inv _ _ _ _ _ _ Es ltac:(discriminate)) as (cs & -> & -> & _).
    destruct (anext s1) as [[t2 name] s2] eqn:N2. destruct (negb (token_eqb t2 IDENT)) eqn:E3; [discriminate|].
    apply negb_tok in E3. subst t2. apply anext_inv in N2; [|discriminate]. subst s1.
    apply abind_ok in H. destruct H as (req & s3 & H1 & H). apply aarg_iff in H1.
    destruct (anext s3) as [[t4 v4] s4] eqn:N4.
    destruct (negb (token_eqb t4 IDENT) || negb (str_eqb v4 (T "returns"))) eqn:E4; [discriminate|].
    apply Bool.orb_false_iff in E4. destruct E4 as [E4 E5]. apply negb_tok in E4. apply negb_str in E5. subst t4 v4.
    apply anext_inv in N4; [|discriminate]. subst s3.
    apply abind_ok in H. destruct H as (resp & s5 & H2 & H). apply aarg_iff in H2.
    apply (rpc_i cs name s2 req s4 resp s5 r rest H1 H2).
    destruct (anext s5) as [[t6 v6] s6] eqn:N6.
    destruct (str_eqb v6 (T ";")) eqn:E6.
    { injection H as <- <-. apply str_eqb_eq in E6. subst v6.
      destruct s5 as [|[ta va] s5]; cbn [anext] in N6; [discriminate|]. injection N6 as -> E8 ->. rewrite E8. apply tail_semi. }
    destruct (negb (token_eqb t6 OPEN_BRACE)) eqn:E7; [discriminate|]. apply negb_tok in E7. subst t6.
    apply anext_inv in N6; [|discriminate]. subst s5. assert (Hv : v6 <> T ";") by (intros ->; discriminate).
    apply abind_ok in H. destruct H as (ob & s7 & H3 & H). apply ahttp_iff in H3. destruct ob as [bs|].
    + apply aend_iff in H. destruct H as (cs1 & cs2 & v2 & -> & ->). eapply tail_http; eassumption.
    + injection H as <- <-. apply tail_none; assumption.
  - intro H. destruct H as [cs name s req s1 resp s2 m rest H1 H2 H3]. unfold amethod. rewrite askip_comments by discriminate.
    cbn [token_eqb negb]. change (str_eqb (T "rpc") (T "rpc")) with true. cbn [negb orb anext token_eqb].
    rewrite (proj2 (aarg_iff _ _ _ _) H1). cbn [abind anext token_eqb negb]. change (str_eqb (T "returns") (T "returns")) with true.
    cbn [negb orb]. rewrite (proj2 (aarg_iff _ _ _ _) H2). cbn [abind].
    destruct H3 as [t rest|v sh rest Hv Hh|v sh bs cs1 cs2 v2 rest Hv Hh]; cbn [anext].
    + reflexivity.
    + rewrite (str_neqb _ _ Hv). cbn [token_eqb negb]. rewrite (proj2 (ahttp_iff _ _ _) Hh). reflexivity.
    + rewrite (str_neqb _ _ Hv). cbn [token_eqb negb]. rewrite (proj2 (ahttp_iff _ _ _) Hh). cbn [abind].
      apply aend_iff. exists cs1, cs2, v2. auto.
Qed.

Lemma rpc_len : forall s m rest, rpc s m rest -> length rest < length s.
Proof. intros s m rest H. apply amethod_iff in H. pose proof (amethod_len s) as K. rewrite H in K. exact K. Qed.

(** Only a closing brace ends the service. *)
Lemma aarg_noend : forall e s, aarg e s <> AErr ESvcDefEnd.
Proof.
  assert (A : forall s ty, atype ty s <> AErr ESvcDefEnd).
  { induction s as [|[t v] s IH]; intro ty; cbn [atype]; [discriminate|].
    destruct (token_eqb t CLOSE_PAREN); [discriminate|]. destruct (token_eqb t SYMBOL); [apply IH|].
    destruct (token_eqb t IDENT); [apply IH|discriminate]. }
  intros e s. unfold aarg. destruct (anext s) as [[t v] s1]. destruct (negb (token_eqb t OPEN_PAREN)); [discriminate|].
  destruct (anext s1) as [[t1 v1] s2]. destruct (anext (if str_eqb v1 (T "stream") then s2 else s1)) as [[t2 v2] s3].
  destruct (negb (token_eqb t2 IDENT)); [discriminate|]. apply A.
Qed.
Lemma aff_noend : forall d s, aff d s <> AErr ESvcDefEnd.
Proof. intros d s. induction s as [|[t v] s IH]; cbn [aff]; [discriminate|]. destruct (_ || _); [discriminate|]. destruct (str_eqb v d); [discriminate|exact IH]. Qed.
Lemma abind_noend : forall A B (m : ares A) (k : A -> list stok -> ares B), m <> AErr ESvcDefEnd -> (forall a s, k a s <> AErr ESvcDefEnd) -> abind m k <> AErr ESvcDefEnd.
Proof. intros A B m k H1 H2. destruct m; cbn [abind]; [apply H2|congruence|discriminate]. Qed.
Lemma awrap_noend : forall A msg (m : ares A), awrap msg m <> AErr ESvcDefEnd.
Proof. intros A msg m. destruct m; cbn [awrap]; discriminate. Qed.
Lemma afields_noend : forall fuel s d fs cs, afields fuel s d fs cs <> AErr ESvcDefEnd.
Proof.
  induction fuel as [|fuel IH]; intros s d fs cs; cbn [afields]; [discriminate|].
  destruct (askip d s) as [[d1 [t v]] s1]. destruct (token_eqb t TEOF || token_eqb t ILLEGAL); [discriminate|].
  destruct (token_eqb t CLOSE_BRACE && str_eqb v (T "}")); [discriminate|]. destruct (str_eqb v (T "additional_bindings")); [discriminate|].
  destruct (str_eqb v (T "custom")).
  - apply abind_noend; [apply awrap_noend|]. intros _ s2. apply abind_noend; [apply awrap_noend|]. intros [c c2] s3.
    apply abind_noend; [apply awrap_noend|]. intros _ s4. apply IH.
  - destruct (anext s1) as [[t2 v2] s2]. destruct (_ || _); [discriminate|]. destruct (anext s2) as [[t3 v3] s3].
    destruct (negb _); [discriminate|]. destruct (unquote v3); [apply IH|discriminate].
Qed.
Lemma aadditional_noend : forall d s, aadditional d s <> AErr ESvcDefEnd.
Proof.
  intros d s. unfold aadditional. apply abind_noend; [apply aff_noend|]. intros _ s1. apply abind_noend; [apply afields_noend|].
  intros [f c] s2. apply abind_noend; [apply aff_noend|]. intros _ s3. discriminate.
Qed.
Lemma aoption_noend : forall fuel s rv no, aoption fuel s rv no <> AErr ESvcDefEnd.
Proof.
  induction fuel as [|fuel IH]; intros s rv no; cbn [aoption]; [discriminate|]. destruct (anext s) as [[t v] s1].
  destruct (token_eqb t CLOSE_BRACE); [discriminate|]. destruct (token_eqb t COMMENT); [apply IH|].
  destruct (str_eqb v (T "additional_bindings")); destruct (token_eqb t TEOF || token_eqb t ILLEGAL); try discriminate.
  apply abind_noend; [apply aadditional_noend|]. intros a s2. apply IH.
Qed.
Lemma ahttp_noend : forall s, ahttp s <> AErr ESvcDefEnd.
Proof.
  intro s. unfold ahttp. destruct (askip [] s) as [[d [t v]] s1]. destruct (token_eqb t TEOF || token_eqb t ILLEGAL); [discriminate|].
  destruct (str_eqb v (T "option")).
  - apply abind_noend; [apply aff_noend|]. intros _ s2. apply abind_noend; [apply afields_noend|]. intros [f c] s3. apply aoption_noend.
  - destruct (str_eqb v (T "additional_bindings")); [apply aadditional_noend|]. destruct (str_eqb v (T "}")); discriminate.
Qed.
Lemma amethod_end : forall s, amethod s = AErr ESvcDefEnd <-> exists cs v s', s = comments cs ++ (CLOSE_BRACE, v) :: s'.
Proof.
  intro s. split.
  - intro H. unfold amethod in H. destruct (askip [] s) as [[d [t v]] s1] eqn:Es.
    destruct (token_eqb t CLOSE_BRACE) eqn:E0.
    { apply token_eqb_eq in E0. subst t. destruct (askip_inv _ _ _ _ _ _ Es ltac:(discriminate)) as (cs & -> & _ & _). exists cs, v, s1. reflexivity. }
    exfalso. revert H.
    destruct (_ || _); [discriminate|]. destruct (anext s1) as [[t2 v2] s2]. destruct (negb _); [discriminate|].
    apply abind_noend; [apply aarg_noend|]. intros req s3. destruct (anext s3) as [[t4 v4] s4]. destruct (_ || _); [discriminate|].
    apply abind_noend; [apply aarg_noend|]. intros resp s5. destruct (anext s5) as [[t6 v6] s6].
    destruct (str_eqb v6 (T ";")); [discriminate|]. destruct (negb _); [discriminate|].
    apply abind_noend; [apply ahttp_noend|]. intros [bs|] s7; [|discriminate]. unfold aend.
    destruct (askip [] s7) as [[d8 [t8 v8]] s8]. destruct (_ || _); [discriminate|]. destruct (askip [] s8) as [[d9 [t9 v9]] s9].
    destruct (negb _); discriminate.
  - intros (cs & v & s' & ->). unfold amethod. rewrite askip_comments by discriminate. reflexivity.
Qed.

Lemma rpcs_complete : forall s ms rest, rpcs s ms rest -> forall fuel acc, length s < fuel ->
  amethods fuel s acc = AOk (acc ++ ms) rest.
Proof.
  intros s ms rest H. induction H as [cs v s|s m s' ms rest Hm H IH]; intros fuel acc Hf; (destruct fuel as [|fuel]; [lia|]); cbn [amethods].
  - rewrite (proj2 (amethod_end _)) by eauto. rewrite app_nil_r. reflexivity.
  - rewrite (proj2 (amethod_iff _ _ _) Hm). apply rpc_len in Hm. destruct m as [m|]; cbn [methods_of app]; rewrite IH by lia.
    + rewrite <- app_assoc. reflexivity.
    + reflexivity.
Qed.
Lemma rpcs_sound : forall fuel s acc r rest, amethods fuel s acc = AOk r rest -> exists ms, r = acc ++ ms /\ rpcs s ms rest.
Proof.
  induction fuel as [|fuel IH]; intros s acc r rest H; [discriminate|]. cbn [amethods] in H.
  destruct (amethod s) as [[m|] s'|e|] eqn:E.
  - apply amethod_iff in E. apply IH in H. destruct H as (ms & -> & H). exists (m :: ms). split; [rewrite <- app_assoc; reflexivity|].
    exact (rpcs_more s (Some m) s' ms rest E H).
  - apply amethod_iff in E. apply IH in H. destruct H as (ms & -> & H). exists ms. split; [reflexivity|].
    exact (rpcs_more s None s' ms rest E H).
  - destruct e; try discriminate. injection H as <- <-. apply amethod_end in E. destruct E as (cs & v & s' & ->).
    exists []. rewrite app_nil_r. split; [reflexivity|]. apply rpcs_end.
  - discriminate.
Qed.

Lemma aservice_iff : forall s sv rest, aservice s = AOk sv rest <-> service_def s sv rest.
Proof.
  intros s sv rest. split.
  - intro H. unfold aservice in H. destruct (anext s) as [[t w] s1] eqn:N1. destruct (token_eqb t TEOF) eqn:E0; [discriminate|].
    destruct (negb (token_eqb t IDENT) && negb (str_eqb w (T "service"))) eqn:E1; [discriminate|].
    assert (Ht : t <> TEOF) by (intros ->; discriminate). apply anext_inv in N1; [|exact Ht]. subst s.
    destruct (anext s1) as [[t2 name] s2] eqn:N2. destruct (negb (token_eqb t2 IDENT)) eqn:E2; [discriminate|].
    apply negb_tok in E2. subst t2. apply anext_inv in N2; [|discriminate]. subst s1.
    destruct (anext s2) as [[t3 v3] s3] eqn:N3. destruct (negb (token_eqb t3 OPEN_BRACE)) eqn:E3; [discriminate|].
    apply negb_tok in E3. subst t3. apply anext_inv in N3; [|discriminate]. subst s2.
    apply abind_ok in H. destruct H as (ms & s4 & H1 & H). injection H as <- <-. apply rpcs_sound in H1.
    destruct H1 as (ms' & E & H1). cbn [app] in E. subst ms'. apply service_i; [|exact Ht|exact H1].
    apply Bool.andb_false_iff in E1. destruct E1 as [E1|E1]; [left; apply negb_tok; exact E1|right; apply negb_str; exact E1].
  - intro H. destruct H as [t w name v s ms rest Hw Ht H]. unfold aservice. cbn [anext]. rewrite (tok_neq _ _ Ht).
    assert (E : negb (token_eqb t IDENT) && negb (str_eqb w (T "service")) = false).
    { destruct Hw as [-> | ->]; [reflexivity|]. change (str_eqb (T "service") (T "service")) with true. apply Bool.andb_false_r. }
    rewrite E. cbn [anext token_eqb negb]. rewrite (rpcs_complete _ _ _ H) by lia. reflexivity.
Qed.

Lemma parse_service_iff : forall ts sv rest, service_def (without_space ts) sv rest <->
  exists l, parse_service (new_lexer ts) = POk sv l /\ without_space (skipn (lx_pos l) (lx_buf l)) = rest.
Proof.
  intros ts sv rest. assert (Hw : wf ts (new_lexer ts)) by (split; [reflexivity|cbn; lia]).
  pose proof (service_rel ts _ Hw) as H. rewrite sig_new in H. rewrite <- aservice_iff. split.
  - intro E. rewrite E in H. destruct (parse_service (new_lexer ts)) as [a l| | |]; cbn in H; try contradiction.
    destruct H as (-> & _ & Hs). exists l. split; [reflexivity|exact Hs].
  - intros (l & E & Hl). rewrite E in H. destruct (aservice (without_space ts)) as [a s| |]; cbn in H; try contradiction.
    destruct H as (<- & _ & Hs). unfold sig in Hs. congruence.
Qed.
