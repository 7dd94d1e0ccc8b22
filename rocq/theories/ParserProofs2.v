(** Everything in a parsed service comes from tokens of the buffer. *)
From Verif Require Import GoStr GoStrProofs Scanner Lexer Unquote Parser ParserSpec ParserList ParserSim.

Definition suffix (s' s : list stok) : Prop := exists p, s = p ++ s'.
Lemma suffix_refl : forall s, suffix s s.
Proof. intro s. exists []. reflexivity. Qed.
Lemma suffix_trans : forall a b c, suffix a b -> suffix b c -> suffix a c.
Proof. intros a b c [p ->] [q ->]. exists (q ++ p). apply app_assoc. Qed.
Lemma suffix_cons : forall x a b, suffix (x :: a) b -> suffix a b.
Proof. intros x a b [p ->]. exists (p ++ [x]). rewrite <- app_assoc. reflexivity. Qed.
Lemma suffix_in : forall x a b, suffix (x :: a) b -> In x b.
Proof. intros x a b [p ->]. apply in_or_app. right. left. reflexivity. Qed.

Lemma aff_suffix : forall ts d s x s', suffix s ts -> aff d s = AOk x s' -> suffix s' ts.
Proof.
  intros ts d l. induction l as [|[t v] l IH]; intros x s' Hs H; cbn [aff] in H; [discriminate|].
  destruct (token_eqb t TEOF || token_eqb t ILLEGAL); [discriminate|].
  apply suffix_cons in Hs. destruct (str_eqb v d); [injection H as <- <-; exact Hs|]. eapply IH; eassumption.
Qed.
Lemma awrap_ok : forall A msg (m : ares A) x s, awrap msg m = AOk x s -> m = AOk x s.
Proof. intros A msg [] ? ? H; cbn in H; congruence. Qed.
Lemma abind_ok : forall A B (m : ares A) (k : A -> list stok -> ares B) y s,
  abind m k = AOk y s -> exists x s1, m = AOk x s1 /\ k x s1 = AOk y s.
Proof. intros A B [x s1| |] k y s H; cbn in H; try discriminate. exists x, s1. auto. Qed.

Lemma askip_suffix : forall ts s desc d t v s', suffix s ts -> from_comment ts desc ->
  askip desc s = (d, (t, v), s') ->
  from_comment ts d /\ suffix s' ts /\ (t <> TEOF -> suffix ((t, v) :: s') ts).
Proof.
  intros ts. induction s as [|[t0 v0] s IH]; intros desc d t v s' Hs Hd H; cbn [askip] in H.
  - injection H as <- <- <- <-. split; [exact Hd|]. split; [exact Hs|]. congruence.
  - destruct (token_eqb t0 COMMENT) eqn:E.
    + apply token_eqb_eq in E. subst t0. apply (IH v0); [eapply suffix_cons; exact Hs| |exact H].
      right. eapply suffix_in. exact Hs.
    + injection H as <- <- <- <-. split; [exact Hd|]. split; [eapply suffix_cons; exact Hs|]. intros _. exact Hs.
Qed.
Lemma anext_suffix : forall ts s t v s', suffix s ts -> anext s = (t, v, s') ->
  suffix s' ts /\ (t <> TEOF -> suffix ((t, v) :: s') ts /\ s = (t, v) :: s').
Proof.
  intros ts [|[t0 v0] s] t v s' Hs H; cbn in H; injection H as <- <- <-.
  - split; [exact Hs|congruence].
  - split; [eapply suffix_cons; exact Hs|]. intros _. auto.
Qed.

Lemma eof_false : forall t, token_eqb t TEOF || token_eqb t ILLEGAL = false -> t <> TEOF.
Proof. intros t H ->. discriminate. Qed.
Lemma negb_tok : forall a b, negb (token_eqb a b) = false -> a = b.
Proof. intros a b H. apply negb_false_iff in H. apply token_eqb_eq. exact H. Qed.
Lemma negb_str : forall a b, negb (str_eqb a b) = false -> a = b.
Proof. intros a b H. apply negb_false_iff in H. apply str_eqb_eq. exact H. Qed.

Lemma afields_from : forall ts fuel s desc fs cs r s', suffix s ts -> from_comment ts desc ->
  Forall (field_from ts) fs -> Forall (field_from ts) cs ->
  afields fuel s desc fs cs = AOk r s' ->
  suffix s' ts /\ Forall (field_from ts) (fst r) /\ Forall (field_from ts) (snd r).
Proof.
  intros ts. induction fuel as [|fuel IH]; intros s desc fs cs r s' Hs Hd Hf Hc H; cbn [afields] in H; [discriminate|].
  destruct (askip desc s) as [[d [t v]] s1] eqn:Es.
  destruct (askip_suffix ts _ _ _ _ _ _ Hs Hd Es) as (Hd1 & Hs1 & Ht).
  destruct (token_eqb t TEOF || token_eqb t ILLEGAL) eqn:E1; [discriminate|].
  specialize (Ht (eof_false _ E1)).
  destruct (token_eqb t CLOSE_BRACE && str_eqb v (T "}")); [injection H as <- <-; auto|].
  destruct (str_eqb v (T "additional_bindings")); [injection H as <- <-; auto|].
  destruct (str_eqb v (T "custom")).
  - apply abind_ok in H. destruct H as ([] & s2 & H2 & H). apply awrap_ok in H2.
    apply (aff_suffix ts) in H2; [|exact Hs1].
    apply abind_ok in H. destruct H as ([c c2] & s3 & H3 & H). apply awrap_ok in H3.
    apply IH in H3; [|exact H2|left; reflexivity|constructor|constructor]. destruct H3 as (H3 & Hcf & _).
    apply abind_ok in H. destruct H as ([] & s4 & H4 & H). apply awrap_ok in H4.
    apply (aff_suffix ts) in H4; [|exact H3].
    eapply IH; [exact H4|exact Hd1|exact Hf|exact Hcf|exact H].
  - destruct (anext s1) as [[t2 v2] s2] eqn:E2. destruct (anext_suffix ts _ _ _ _ Hs1 E2) as (Hs2 & _).
    destruct (negb (token_eqb t2 SYMBOL) || negb (str_eqb v2 (T ":"))); [discriminate|].
    destruct (anext s2) as [[t3 v3] s3] eqn:E3. destruct (anext_suffix ts _ _ _ _ Hs2 E3) as (Hs3 & Ht3).
    destruct (negb (token_eqb t3 STRING_LITERAL)) eqn:E4; [discriminate|]. apply negb_tok in E4.
    destruct (unquote v3) as [nq|] eqn:Eu; [|discriminate].
    eapply IH; [exact Hs3|left; reflexivity| |exact Hc|exact H].
    apply Forall_app. split; [exact Hf|]. constructor; [|constructor]. split; [reflexivity|].
    split; [exists t; eapply suffix_in; exact Ht|]. split; [exact Hd1|].
    exists v3. split; [|exact Eu]. subst t3. destruct (Ht3 ltac:(discriminate)) as [Hx _]. eapply suffix_in. exact Hx.
Qed.

Definition some_from (ts : list stok) (ob : option (list hbinding)) : Prop :=
  match ob with Some bs => bs <> [] /\ Forall (binding_from ts) bs | None => True end.

Lemma aadditional_from : forall ts desc s r s', suffix s ts -> from_comment ts desc ->
  aadditional desc s = AOk r s' -> suffix s' ts /\ some_from ts r.
Proof.
  intros ts desc s r s' Hs Hd H. unfold aadditional in H.
  apply abind_ok in H. destruct H as ([] & s2 & H2 & H). apply (aff_suffix ts) in H2; [|exact Hs].
  apply abind_ok in H. destruct H as ([fs cs] & s3 & H3 & H).
  apply (afields_from ts) in H3; [|exact H2|left; reflexivity|constructor|constructor]. destruct H3 as (H3 & Hf & Hc).
  apply abind_ok in H. destruct H as ([] & s4 & H4 & H). apply (aff_suffix ts) in H4; [|exact H3].
  injection H as <- <-. split; [exact H4|]. split; [discriminate|]. constructor; [|constructor].
  split; [exact Hd|]. split; [exact Hf|exact Hc].
Qed.

Lemma aoption_from : forall ts fuel s rv no r s', suffix s ts -> Forall (binding_from ts) rv -> binding_from ts no ->
  aoption fuel s rv no = AOk r s' -> suffix s' ts /\ some_from ts r.
Proof.
  intros ts. induction fuel as [|fuel IH]; intros s rv no r s' Hs Hrv Hno H; cbn [aoption] in H; [discriminate|].
  destruct (anext s) as [[t v] s1] eqn:E1. destruct (anext_suffix ts _ _ _ _ Hs E1) as (Hs1 & _).
  destruct (token_eqb t CLOSE_BRACE).
  { injection H as <- <-. split; [exact Hs1|]. split; [destruct rv; discriminate|]. apply Forall_app. auto. }
  destruct (token_eqb t COMMENT); [eapply IH; [exact Hs1|exact Hrv|exact Hno|exact H]|].
  destruct (str_eqb v (T "additional_bindings")).
  - destruct (token_eqb t TEOF || token_eqb t ILLEGAL); [discriminate|].
    apply abind_ok in H. destruct H as (more & s2 & H2 & H).
    apply (aadditional_from ts) in H2; [|exact Hs1|left; reflexivity]. destruct H2 as (H2 & Hm).
    eapply IH; [exact H2| |exact Hno|exact H]. apply Forall_app. split; [exact Hrv|].
    destruct more as [m|]; [exact (proj2 Hm)|constructor].
  - destruct (token_eqb t TEOF || token_eqb t ILLEGAL); discriminate.
Qed.

Lemma ahttp_from : forall ts s r s', suffix s ts -> ahttp s = AOk r s' -> suffix s' ts /\ some_from ts r.
Proof.
  intros ts s r s' Hs H. unfold ahttp in H. destruct (askip [] s) as [[d [t v]] s1] eqn:Es.
  destruct (askip_suffix ts _ _ _ _ _ _ Hs (or_introl eq_refl) Es) as (Hd1 & Hs1 & Ht).
  destruct (token_eqb t TEOF || token_eqb t ILLEGAL); [discriminate|].
  destruct (str_eqb v (T "option")).
  - apply abind_ok in H. destruct H as ([] & s2 & H2 & H). apply (aff_suffix ts) in H2; [|exact Hs1].
    apply abind_ok in H. destruct H as ([fs cs] & s3 & H3 & H).
    apply (afields_from ts) in H3; [|exact H2|left; reflexivity|constructor|constructor]. destruct H3 as (H3 & Hf & Hc).
    eapply aoption_from; [exact H3|constructor| |exact H]. split; [exact Hd1|]. split; [exact Hf|exact Hc].
  - destruct (str_eqb v (T "additional_bindings")); [eapply aadditional_from; [exact Hs1|exact Hd1|exact H]|].
    destruct (str_eqb v (T "}")); [injection H as <- <-; split; [exact Hs1|exact I]|discriminate].
Qed.

Lemma atype_from : forall ts s ty r s', suffix s ts -> In (IDENT, ty) ts -> atype ty s = AOk r s' ->
  suffix s' ts /\ In (IDENT, r) ts.
Proof.
  intros ts. induction s as [|[t v] s IH]; intros ty r s' Hs Hty H; cbn [atype] in H; [discriminate|].
  pose proof (suffix_cons _ _ _ Hs) as Hs1.
  destruct (token_eqb t CLOSE_PAREN); [injection H as <- <-; auto|].
  destruct (token_eqb t SYMBOL); [eapply IH; eassumption|].
  destruct (token_eqb t IDENT) eqn:E; [|discriminate]. apply token_eqb_eq in E. subst t.
  eapply IH; [exact Hs1|eapply suffix_in; exact Hs|exact H].
Qed.

Lemma aarg_from : forall ts e s r s', suffix s ts -> aarg e s = AOk r s' -> suffix s' ts /\ In (IDENT, r) ts.
Proof.
  intros ts e s r s' Hs H. unfold aarg in H. destruct (anext s) as [[t v] s1] eqn:E1.
  destruct (anext_suffix ts _ _ _ _ Hs E1) as (Hs1 & _).
  destruct (negb (token_eqb t OPEN_PAREN)); [discriminate|].
  destruct (anext s1) as [[t1 v1] s2] eqn:E2. destruct (anext_suffix ts _ _ _ _ Hs1 E2) as (Hs2 & _).
  set (s3 := if str_eqb v1 (T "stream") then s2 else s1) in *.
  assert (Hs3 : suffix s3 ts) by (unfold s3; destruct (str_eqb v1 (T "stream")); assumption).
  destruct (anext s3) as [[t3 v3] s4] eqn:E3. destruct (anext_suffix ts _ _ _ _ Hs3 E3) as (Hs4 & Ht3).
  destruct (negb (token_eqb t3 IDENT)) eqn:E4; [discriminate|]. apply negb_tok in E4. subst t3.
  destruct (Ht3 ltac:(discriminate)) as [Hx ->]. cbn [atype token_eqb] in H.
  eapply atype_from; [exact Hs4|eapply suffix_in; exact Hx|exact H].
Qed.

Lemma amethod_from : forall ts s r s', suffix s ts -> amethod s = AOk r s' ->
  suffix s' ts /\ match r with Some m => method_from ts m | None => True end.
Proof.
  intros ts s r s' Hs H. unfold amethod in H. destruct (askip [] s) as [[d [t v]] s1] eqn:Es.
  destruct (askip_suffix ts _ _ _ _ _ _ Hs (or_introl eq_refl) Es) as (Hd1 & Hs1 & Ht).
  destruct (token_eqb t CLOSE_BRACE); [discriminate|].
  destruct (negb (token_eqb t IDENT)) eqn:Et; [discriminate|]. apply negb_tok in Et. subst t.
  destruct (negb (str_eqb v (T "rpc"))) eqn:Ev; [discriminate|]. apply negb_str in Ev. subst v. cbn [orb] in H.
  specialize (Ht ltac:(discriminate)).
  destruct (anext s1) as [[t2 name] s2] eqn:E2. destruct (anext_suffix ts _ _ _ _ Hs1 E2) as (Hs2 & Ht2).
  destruct (negb (token_eqb t2 IDENT)) eqn:E3; [discriminate|]. apply negb_tok in E3. subst t2.
  destruct (Ht2 ltac:(discriminate)) as [_ E1]. rewrite E1 in Ht.
  apply abind_ok in H. destruct H as (req & s3 & H3 & H). apply (aarg_from ts) in H3; [|exact Hs2]. destruct H3 as (Hs3 & Hreq).
  destruct (anext s3) as [[t4 v4] s4] eqn:E4. destruct (anext_suffix ts _ _ _ _ Hs3 E4) as (Hs4 & _).
  destruct (negb (token_eqb t4 IDENT) || negb (str_eqb v4 (T "returns"))); [discriminate|].
  apply abind_ok in H. destruct H as (resp & s5 & H5 & H). apply (aarg_from ts) in H5; [|exact Hs4]. destruct H5 as (Hs5 & Hresp).
  destruct (anext s5) as [[t6 v6] s6] eqn:E6. destruct (anext_suffix ts _ _ _ _ Hs5 E6) as (Hs6 & _).
  destruct (str_eqb v6 (T ";")); [injection H as <- <-; auto|].
  destruct (negb (token_eqb t6 OPEN_BRACE)); [discriminate|].
  apply abind_ok in H. destruct H as (ob & s7 & H7 & H). apply (ahttp_from ts) in H7; [|exact Hs6]. destruct H7 as (Hs7 & Hob).
  destruct ob as [bs|]; [|injection H as <- <-; auto].
  unfold aend in H. destruct (askip [] s7) as [[d8 [t8 v8]] s8] eqn:E8.
  destruct (askip_suffix ts _ _ _ _ _ _ Hs7 (or_introl eq_refl) E8) as (_ & Hs8 & _).
  destruct (negb (token_eqb t8 SYMBOL) || negb (str_eqb v8 (T ";"))); [discriminate|].
  destruct (askip [] s8) as [[d9 [t9 v9]] s9] eqn:E9.
  destruct (askip_suffix ts _ _ _ _ _ _ Hs8 (or_introl eq_refl) E9) as (_ & Hs9 & _).
  destruct (negb (token_eqb t9 CLOSE_BRACE)); [discriminate|]. injection H as <- <-.
  split; [exact Hs9|]. destruct Hob as [Hne Hall]. split; [exact Hne|].
  split; [destruct Ht as [p ->]; exists p, s2; reflexivity|].
  split; [exact Hd1|]. split; [exact Hreq|]. split; [exact Hresp|exact Hall].
Qed.

Lemma amethods_from : forall ts fuel s ms r s', suffix s ts -> Forall (method_from ts) ms ->
  amethods fuel s ms = AOk r s' -> Forall (method_from ts) r.
Proof.
  intros ts. induction fuel as [|fuel IH]; intros s ms r s' Hs Hms H; cbn [amethods] in H; [discriminate|].
  destruct (amethod s) as [[m|] s1|e|] eqn:E.
  - apply (amethod_from ts) in E; [|exact Hs]. destruct E as [Hs1 Hm].
    eapply IH; [exact Hs1| |exact H]. apply Forall_app. auto.
  - apply (amethod_from ts) in E; [|exact Hs]. destruct E as [Hs1 _]. eapply IH; eassumption.
  - destruct e; try discriminate. injection H as <- <-. exact Hms.
  - discriminate.
Qed.

Lemma aservice_from : forall s r s', aservice s = AOk r s' ->
  Forall (method_from s) (hs_methods r) /\ In (IDENT, hs_name r) s.
Proof.
  intros s r s' H. unfold aservice in H. pose proof (suffix_refl s) as Hs.
  destruct (anext s) as [[t v] s1] eqn:E1. destruct (anext_suffix s _ _ _ _ Hs E1) as (Hs1 & _).
  destruct (token_eqb t TEOF); [discriminate|].
  destruct (negb (token_eqb t IDENT) && negb (str_eqb v (T "service"))); [discriminate|].
  destruct (anext s1) as [[t2 name] s2] eqn:E2. destruct (anext_suffix s _ _ _ _ Hs1 E2) as (Hs2 & Ht2).
  destruct (negb (token_eqb t2 IDENT)) eqn:E3; [discriminate|]. apply negb_tok in E3. subst t2.
  destruct (Ht2 ltac:(discriminate)) as [Hx _].
  destruct (anext s2) as [[t3 v3] s3] eqn:E4. destruct (anext_suffix s _ _ _ _ Hs2 E4) as (Hs3 & _).
  destruct (negb (token_eqb t3 OPEN_BRACE)); [discriminate|].
  apply abind_ok in H. destruct H as (ms & s4 & H4 & H). injection H as <- <-.
  split; [eapply amethods_from; [exact Hs3|constructor|exact H4]|]. cbn. eapply suffix_in. exact Hx.
Qed.

(** ** At the level of the parser *)
Lemma parse_total : forall ts, match parse_service (new_lexer ts) with POk _ _ | PErr _ => True | _ => False end.
Proof.
  intro ts. assert (Hw : wf ts (new_lexer ts)) by (split; [reflexivity|cbn; lia]).
  pose proof (service_rel ts _ Hw) as H. pose proof (aservice_total (sig (new_lexer ts))) as Ht.
  destruct (parse_service (new_lexer ts)), (aservice (sig (new_lexer ts))); cbn in *; auto; congruence.
Qed.

Lemma sig_new : forall ts, sig (new_lexer ts) = without_space ts.
Proof. reflexivity. Qed.

Lemma parse_from : forall ts sv l, parse_service (new_lexer ts) = POk sv l ->
  Forall (method_from (without_space ts)) (hs_methods sv) /\ In (IDENT, hs_name sv) (without_space ts).
Proof.
  intros ts sv l E. assert (Hw : wf ts (new_lexer ts)) by (split; [reflexivity|cbn; lia]).
  pose proof (service_rel ts _ Hw) as H. rewrite E, sig_new in H.
  destruct (aservice (without_space ts)) as [sv' s'| |] eqn:Ea; cbn in H; try contradiction.
  destruct H as (-> & _ & _). eapply aservice_from. exact Ea.
Qed.

Lemma parse_space : forall ts1 ts2, without_space ts1 = without_space ts2 ->
  same_result (parse_service (new_lexer ts1)) (parse_service (new_lexer ts2)).
Proof.
  intros ts1 ts2 E. assert (Hw1 : wf ts1 (new_lexer ts1)) by (split; [reflexivity|cbn; lia]).
  assert (Hw2 : wf ts2 (new_lexer ts2)) by (split; [reflexivity|cbn; lia]).
  pose proof (service_rel ts1 _ Hw1) as H1. pose proof (service_rel ts2 _ Hw2) as H2.
  rewrite sig_new in H1, H2. rewrite <- E in H2. pose proof (aservice_total (without_space ts1)) as Ht.
  destruct (parse_service (new_lexer ts1)), (parse_service (new_lexer ts2)), (aservice (without_space ts1));
    cbn in *; try contradiction; try congruence.
  destruct H1 as (-> & _), H2 as (-> & _). reflexivity.
Qed.
