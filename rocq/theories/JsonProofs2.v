(** The JSON model against the grammar of JsonSpec. *)
From Verif Require Import GoStr GoStrProofs GoMap GenHttp Json JsonProofs JsonSpec.

(** ** Spaces *)
Lemma ws_space : forall c, json_ws c = true <-> space c.
Proof. intro c. unfold json_ws, space. rewrite !orb_true_iff, !N.eqb_eq. tauto. Qed.
Lemma skip_spaces : forall a s, spaces a -> skip_ws (a ++ s) = skip_ws s.
Proof. intros a s H. induction H as [|c a Hc H IH]; [reflexivity|]. cbn [app skip_ws]. rewrite (proj2 (ws_space c) Hc). exact IH. Qed.
Lemma skip_split : forall s, exists a, spaces a /\ s = a ++ skip_ws s.
Proof.
  induction s as [|c s (a & Ha & E)]; [exists []; split; [constructor|reflexivity]|]. cbn [skip_ws]. destruct (json_ws c) eqn:Ew.
  - exists (c :: a). split; [constructor; [apply ws_space; exact Ew|exact Ha]|]. cbn [app]. rewrite <- E. reflexivity.
  - exists []. split; [constructor|reflexivity].
Qed.
Lemma skip_head : forall c s, json_ws c = false -> skip_ws (c :: s) = c :: s.
Proof. intros c s H. cbn [skip_ws]. rewrite H. reflexivity. Qed.
Lemma spaces_nil : forall s, skip_ws s = [] -> spaces s.
Proof. intros s H. destruct (skip_split s) as (a & Ha & E). rewrite H, app_nil_r in E. subst a. exact Ha. Qed.

(** ** Numbers *)
Lemma digit_range : forall c, is_digit c = true <-> (48 <= c <= 57)%N.
Proof. intro c. unfold is_digit. rewrite in_range_spec. tauto. Qed.
Lemma span_spec : forall p s, Forall (fun c => p c = true) (fst (span p s)) /\ s = fst (span p s) ++ snd (span p s) /\ match snd (span p s) with c :: _ => p c = false | [] => True end.
Proof.
  intro p. induction s as [|c s (H1 & H2 & H3)]; [repeat split; constructor|]. cbn [span]. destruct (p c) eqn:E.
  - destruct (span p s) as [a b]. cbn [fst snd] in *. split; [constructor; assumption|]. split; [cbn [app]; congruence|exact H3].
  - cbn [fst snd]. split; [constructor|]. split; [reflexivity|exact E].
Qed.
Lemma span_app : forall p a b, Forall (fun c => p c = true) a -> match b with c :: _ => p c = false | [] => True end -> span p (a ++ b) = (a, b).
Proof.
  intros p a b H Hb. induction H as [|c a Hc H IH]; cbn [app].
  - destruct b as [|d b]; [reflexivity|]. cbn [span]. rewrite Hb. reflexivity.
  - cbn [span]. rewrite Hc, IH. reflexivity.
Qed.
Lemma digits_b : forall s, (match s with [] => false | _ => forallb is_digit s end) = true <-> digits s.
Proof.
  intros [|c s]; [split; [discriminate|intros [H _]; congruence]|]. rewrite forallb_forall. unfold digits. rewrite Forall_forall. split.
  - intro H. split; [discriminate|]. intros x Hx. apply digit_range. auto.
  - intros [_ H] x Hx. apply digit_range. auto.
Qed.
Lemma digits_all : forall s, Forall (fun c => (48 <= c <= 57)%N) s -> Forall (fun c => is_digit c = true) s.
Proof. intros s H. eapply Forall_impl; [|exact H]. intros c Hc. apply digit_range. exact Hc. Qed.
Lemma exp_iff : forall s, json_exp s = true <-> exp_part s.
Proof.
  intro s. unfold json_exp, exp_part. destruct s as [|c s]; [split; [left; reflexivity|reflexivity]|].
  rewrite andb_true_iff, orb_true_iff, !N.eqb_eq, digits_b. split.
  - intros [Hc Hd]. right. exists [c]. assert (Ec : In [c] [T "e"; T "E"]) by (destruct Hc as [-> | ->]; [left|right; left]; reflexivity).
    destruct s as [|d s]; [destruct Hd; congruence|]. destruct (N.eqb d 43 || N.eqb d c_dash) eqn:E.
    + exists [d], s. split; [exact Ec|]. apply orb_true_iff in E. rewrite !N.eqb_eq in E. split; [destruct E as [-> | ->]; [right; left|right; right; left]; reflexivity|]. split; [exact Hd|reflexivity].
    + exists [], (d :: s). split; [exact Ec|]. split; [left; reflexivity|]. split; [exact Hd|reflexivity].
  - intros [E|(e & sign & d & He & Hs & Hd & E)]; [discriminate|].
    assert (Hcc : e = [101%N] \/ e = [69%N]) by (destruct He as [<-|[<-|[]]]; [left|right]; reflexivity).
    assert (E2 : [c] = e /\ s = sign ++ d) by (destruct Hcc as [-> | ->]; cbn [app] in E; injection E as -> ->; split; reflexivity). destruct E2 as [E2 ->].
    split; [destruct Hcc as [-> | ->]; injection E2 as ->; auto|].
    destruct Hs as [<-|[<-|[<-|[]]]]; [|exact Hd|exact Hd]. cbn [app]. destruct d as [|x d]; [exact Hd|].
    destruct (N.eqb x 43 || N.eqb x c_dash) eqn:K; [|exact Hd]. exfalso. destruct Hd as [_ Hd]. inversion Hd as [|? ? Hx _]; subst. apply orb_true_iff in K. rewrite !N.eqb_eq in K.
    change c_dash with 45%N in K. lia.
Qed.
Lemma exp_head : forall s, exp_part s -> match s with c :: _ => is_digit c = false /\ N.eqb c c_dot = false | [] => True end.
Proof.
  intros s [->|(e & sign & d & He & _ & _ & ->)]; [exact I|]. destruct He as [<-|[<-|[]]]; split; reflexivity.
Qed.
Lemma frac_iff : forall s, json_frac s = true <-> exists f e, frac_part f /\ exp_part e /\ s = f ++ e.
Proof.
  intro s. unfold json_frac. destruct s as [|c s].
  - split; [intros _; exists [], []; split; [left; reflexivity|split; [left; reflexivity|reflexivity]]|reflexivity].
  - destruct (N.eqb_spec c c_dot) as [->|Hn].
    + pose proof (span_spec is_digit s) as (S1 & S2 & S3). destruct (span is_digit s) as [d r]. cbn [fst snd] in *. split.
      * intro H. destruct d as [|x d]; [discriminate|]. exists (T "." ++ x :: d), r. split; [right; exists (x :: d); split; [|reflexivity]|].
        { split; [discriminate|]. eapply Forall_impl; [|exact S1]. intros y Hy. apply digit_range. exact Hy. }
        split; [apply exp_iff; exact H|]. cbn [app]. rewrite S2. reflexivity.
      * intros (f & e & Hf & He & E). destruct Hf as [->|(d2 & Hd & ->)].
        { cbn [app] in E. subst e. pose proof (exp_head _ He) as [_ K]. rewrite N.eqb_refl in K. discriminate. }
        change (T "." ++ d2) with (c_dot :: d2) in E. cbn [app] in E. injection E as E. assert (K : span is_digit (d2 ++ e) = (d2, e)).
        { apply span_app; [apply digits_all; apply Hd|]. pose proof (exp_head e He). destruct e; [exact I|apply H]. }
        assert (Q : (d, r) = (d2, e)). { rewrite <- K, <- E, S2. symmetry. apply span_app; [exact S1|exact S3]. }
        injection Q as -> ->. destruct Hd as [Hd _]. destruct d2; [congruence|]. apply exp_iff. exact He.
    + split.
      * intro H. exists [], (c :: s). split; [left; reflexivity|]. split; [apply exp_iff; exact H|reflexivity].
      * intros (f & e & Hf & He & E). destruct Hf as [->|(d2 & Hd & ->)]; [cbn [app] in E; subst e; apply exp_iff; exact He|]. exfalso. change (T "." ++ d2) with (c_dot :: d2) in E. injection E as E _. congruence.
Qed.
Lemma frac_head : forall f e, frac_part f -> exp_part e -> match f ++ e with c :: _ => is_digit c = false | [] => True end.
Proof.
  intros f e [->|(d & _ & ->)] He; [|reflexivity]. cbn [app]. pose proof (exp_head e He). destruct e; [exact I|apply H].
Qed.
Lemma number_iff : forall s, json_number s = true <-> number s.
Proof.
  assert (U : forall s, (let (d, r) := span is_digit s in match d with [] => false | c :: d' => (negb (N.eqb c 48) || match d' with [] => true | _ => false end) && json_frac r end) = true
    <-> exists i f e, int_part i /\ frac_part f /\ exp_part e /\ s = i ++ f ++ e).
  { intro s. pose proof (span_spec is_digit s) as (S1 & S2 & S3). destruct (span is_digit s) as [d r] eqn:Es. cbn [fst snd] in *. split.
    - intro H. destruct d as [|c d']; [discriminate|]. apply andb_prop in H. destruct H as [H1 H2]. apply frac_iff in H2. destruct H2 as (f & e & Hf & He & ->).
      exists (c :: d'), f, e. split; [|split; [exact Hf|split; [exact He|exact S2]]]. apply orb_true_iff in H1. destruct H1 as [H1|H1].
      + right. split; [|cbn [hd]; intros ->; discriminate]. split; [discriminate|]. eapply Forall_impl; [|exact S1]. intros y Hy. apply digit_range. exact Hy.
      + destruct d'; [|discriminate]. destruct (N.eq_dec c 48) as [->|Hc]; [left; reflexivity|]. right. split; [|exact Hc]. split; [discriminate|]. eapply Forall_impl; [|exact S1]. intros y Hy. apply digit_range. exact Hy.
    - intros (i & f & e & Hi & Hf & He & E). assert (K : span is_digit (i ++ f ++ e) = (i, f ++ e)).
      { apply span_app; [|apply frac_head; assumption]. destruct Hi as [->|[Hi _]]; [constructor; [reflexivity|constructor]|apply digits_all; apply Hi]. }
      rewrite <- E, Es in K. injection K as -> ->. assert (F : json_frac (f ++ e) = true) by (apply frac_iff; exists f, e; auto). destruct Hi as [->|[[Hi _] Hh]]; [cbn; exact F|].
      destruct i as [|c i]; [congruence|]. cbn [hd] in Hh. destruct (N.eqb_spec c 48); [contradiction|]. cbn [negb orb andb]. exact F. }
  intro s. unfold json_number, number. destruct s as [|c s].
  - split; [discriminate|]. intros (sg & i & f & e & _ & Hi & _ & _ & E). destruct Hi as [->|[[Hi _] _]]; [destruct sg; discriminate|]. destruct i; [congruence|destruct sg; discriminate].
  - destruct (N.eqb_spec c c_dash) as [->|Hn].
    + rewrite U. split.
      * intros (i & f & e & Hi & Hf & He & ->). exists (T "-"), i, f, e. split; [right; left; reflexivity|]. auto.
      * intros (sg & i & f & e & Hs & Hi & Hf & He & E). destruct Hs as [<-|[<-|[]]].
        { exfalso. cbn [app] in E. destruct Hi as [->|[[Hi Hd] _]]; [discriminate|]. destruct i as [|x i]; [congruence|]. cbn [app] in E. injection E as <- _. inversion Hd as [|? ? K _]. change c_dash with 45%N in K. lia. }
        injection E as ->. exists i, f, e. auto.
    + rewrite U. split.
      * intros (i & f & e & Hi & Hf & He & E). exists [], i, f, e. split; [left; reflexivity|]. auto.
      * intros (sg & i & f & e & Hs & Hi & Hf & He & E). destruct Hs as [<-|[<-|[]]]; [|exfalso; apply Hn; injection E as E _; exact E]. exists i, f, e. auto.
Qed.
Lemma number_chars : forall s, number s -> Forall (fun c => num_char c = true) s.
Proof.
  intros s (sg & i & f & e & Hs & Hi & Hf & He & ->).
  assert (D : forall d, Forall (fun c => (48 <= c <= 57)%N) d -> Forall (fun c => num_char c = true) d).
  { intros d H. eapply Forall_impl; [|exact H]. intros c Hc. unfold num_char. rewrite (proj2 (digit_range c) Hc). reflexivity. }
  apply Forall_app. split; [destruct Hs as [<-|[<-|[]]]; [constructor|constructor; [reflexivity|constructor]]|]. apply Forall_app. split.
  - destruct Hi as [->|[[_ Hi] _]]; [constructor; [reflexivity|constructor]|apply D; exact Hi].
  - apply Forall_app. split.
    + destruct Hf as [->|(d & [_ Hd] & ->)]; [constructor|]. constructor; [reflexivity|apply D; exact Hd].
    + destruct He as [->|(x & sg2 & d & Hx & Hsg & [_ Hd] & ->)]; [constructor|]. apply Forall_app. split; [destruct Hx as [<-|[<-|[]]]; constructor; try reflexivity; constructor|].
      apply Forall_app. split; [destruct Hsg as [<-|[<-|[<-|[]]]]; [constructor| |]; constructor; try reflexivity; constructor|apply D; exact Hd].
Qed.
Lemma number_head : forall s, number s -> exists c s', s = c :: s' /\ (c = 45%N \/ (48 <= c <= 57)%N).
Proof.
  intros s (sg & i & f & e & Hs & Hi & _ & _ & ->). destruct Hs as [<-|[<-|[]]]; [|exists 45%N; eexists; split; [reflexivity|auto]].
  cbn [app]. destruct Hi as [->|[[Hi Hd] _]]; [exists 48%N; eexists; split; [reflexivity|right; lia]|]. destruct i as [|c i]; [congruence|]. inversion Hd; subst. exists c. eexists. split; [reflexivity|auto].
Qed.

(** ** Strings *)
Lemma hex_iff : forall c v, hex_digit_val c = Some v <-> hex_is c v.
Proof.
  intros c v. unfold hex_digit_val, hex_is. destruct (is_digit c) eqn:E1.
  - apply digit_range in E1. split; [intro H; injection H as <-; left; auto|]. intros [[_ ->]|[[H _]|[H _]]]; [reflexivity|lia|lia].
  - assert (K1 : ~ (48 <= c <= 57)%N) by (intro K; apply digit_range in K; congruence). destruct (in_range 97 102 c) eqn:E2.
    + apply in_range_spec in E2. split; [intro H; injection H as <-; right; left; split; [lia|reflexivity]|]. intros [[H _]|[[_ ->]|[H _]]]; [contradiction|reflexivity|lia].
    + assert (K2 : ~ (97 <= c <= 102)%N) by (intro K; assert (in_range 97 102 c = true) by (apply in_range_spec; lia); congruence). destruct (in_range 65 70 c) eqn:E3.
      * apply in_range_spec in E3. split; [intro H; injection H as <-; right; right; split; [lia|reflexivity]|]. intros [[H _]|[[H _]|[_ ->]]]; [contradiction|contradiction|reflexivity].
      * assert (K3 : ~ (65 <= c <= 70)%N) by (intro K; assert (in_range 65 70 c = true) by (apply in_range_spec; lia); congruence). split; [discriminate|]. tauto.
Qed.
Lemma hex4_iff : forall a b c d v, hex4 a b c d = Some v <-> u_is [92; 117; a; b; c; d]%N v.
Proof.
  intros a b c d v. unfold hex4, u_is. split.
  - destruct (hex_digit_val a) as [w|] eqn:E1; [|discriminate]. destruct (hex_digit_val b) as [x|] eqn:E2; [|discriminate]. destruct (hex_digit_val c) as [y|] eqn:E3; [|discriminate].
    destruct (hex_digit_val d) as [z|] eqn:E4; [|discriminate]. intro H. injection H as <-. apply hex_iff in E1, E2, E3, E4. exists a, b, c, d, w, x, y, z. split; [reflexivity|].
    split; [exact E1|]. split; [exact E2|]. split; [exact E3|]. split; [exact E4|]. lia.
  - intros (a' & b' & c' & d' & w & x & y & z & E & E1 & E2 & E3 & E4 & ->). injection E as <- <- <- <-. apply hex_iff in E1, E2, E3, E4. rewrite E1, E2, E3, E4. f_equal. lia.
Qed.
Lemma u_shape : forall u v, u_is u v -> exists a b c d, u = [92; 117; a; b; c; d]%N /\ hex4 a b c d = Some v.
Proof.
  intros u v H. pose proof H as (a & b & c & d & w & x & y & z & E & _). exists a, b, c, d. split; [exact E|]. apply hex4_iff. rewrite <- E. exact H.
Qed.
Lemma lead_iff : forall v, lead v = true <-> high v.
Proof. intro v. unfold lead, high. rewrite in_range_spec. tauto. Qed.
Lemma trail_iff : forall v, trail v = true <-> low v.
Proof. intro v. unfold trail, low. rewrite in_range_spec. tauto. Qed.
Lemma simple_iff : forall c v, simple_escape c = Some v <-> simple_is c v.
Proof.
  intros c v. unfold simple_escape, simple_is. cbn [In]. change c_dquote with 34%N. change c_backslash with 92%N. change c_slash with 47%N.
  destruct (N.eqb_spec c 34) as [->|H1]; [cbn; split; [intro E; injection E as <-; auto|intro H; repeat (destruct H as [H|H]; [injection H as; try discriminate; subst; try reflexivity; try lia|]); destruct H]|].
  destruct (N.eqb_spec c 92) as [->|H2]; [cbn; split; [intro E; injection E as <-; auto|intro H; repeat (destruct H as [H|H]; [injection H as; try discriminate; subst; try reflexivity; try lia|]); destruct H]|].
  destruct (N.eqb_spec c 47) as [->|H3]; [cbn; split; [intro E; injection E as <-; auto|intro H; repeat (destruct H as [H|H]; [injection H as; try discriminate; subst; try reflexivity; try lia|]); destruct H]|].
  cbn [orb].
  destruct (N.eqb_spec c 98) as [->|H4]; [split; [intro E; injection E as <-; auto 10|intro H; repeat (destruct H as [H|H]; [injection H as; try discriminate; subst; try reflexivity; try lia|]); destruct H]|].
  destruct (N.eqb_spec c 102) as [->|H5]; [split; [intro E; injection E as <-; auto 10|intro H; repeat (destruct H as [H|H]; [injection H as; try discriminate; subst; try reflexivity; try lia|]); destruct H]|].
  destruct (N.eqb_spec c 110) as [->|H6]; [split; [intro E; injection E as <-; auto 10|intro H; repeat (destruct H as [H|H]; [injection H as; try discriminate; subst; try reflexivity; try lia|]); destruct H]|].
  destruct (N.eqb_spec c 114) as [->|H7]; [split; [intro E; injection E as <-; auto 12|intro H; repeat (destruct H as [H|H]; [injection H as; try discriminate; subst; try reflexivity; try lia|]); destruct H]|].
  destruct (N.eqb_spec c 116) as [->|H8]; [split; [intro E; injection E as <-; auto 12|intro H; repeat (destruct H as [H|H]; [injection H as; try discriminate; subst; try reflexivity; try lia|]); destruct H]|].
  split; [discriminate|]. intro H. repeat (destruct H as [H|H]; [injection H as; congruence|]). destruct H.
Qed.
Lemma unquote_plain : forall c s, (32 <= c)%N -> c <> 34%N -> c <> 92%N -> json_unquote (c :: s) = push_rune (if (1114112 <=? c)%N then rune_error else c) (json_unquote s).
Proof.
  intros c s H1 H2 H3. cbn [json_unquote]. change c_dquote with 34%N. change c_backslash with 92%N. destruct (N.eqb_spec c 34); [contradiction|].
  destruct (N.ltb_spec c 32); [lia|]. destruct (N.eqb_spec c 92); [contradiction|]. reflexivity.
Qed.
Lemma unquote_simple : forall c v s, simple_is c v -> json_unquote (92%N :: c :: s) = push_rune v (json_unquote s).
Proof.
  intros c v s H. pose proof (proj2 (simple_iff c v) H) as E. cbn [json_unquote]. change (N.eqb 92 c_dquote) with false. change (N.eqb 92 c_backslash) with true. change (92 <? 32)%N with false. cbv iota.
  destruct (N.eqb_spec c 117) as [->|_]; [vm_compute in E; discriminate|]. rewrite E. reflexivity.
Qed.
(** What follows a \u escape is a second one that pairs with it. *)
Definition pairs (v : N) (s : str) : option (N * str) :=
  match s with
  | x :: y :: a2 :: b2 :: e2 :: f2 :: s4 =>
      match (if N.eqb x c_backslash && N.eqb y 117 then hex4 a2 b2 e2 f2 else None) with
      | Some r2 => if lead v && trail r2 then Some (((v - 55296) * 1024 + (r2 - 56320) + 65536)%N, s4) else None
      | None => None
      end
  | _ => None
  end.
Lemma unquote_esc : forall a b c d v s, hex4 a b c d = Some v -> json_unquote ([92; 117; a; b; c; d]%N ++ s) =
  if lead v || trail v then match pairs v s with Some (x, s4) => push_rune x (json_unquote s4) | None => push_rune rune_error (json_unquote s) end else push_rune v (json_unquote s).
Proof.
  intros a b c d v s H. cbn [app]. cbn [json_unquote]. change (N.eqb 92 c_dquote) with false. change (N.eqb 92 c_backslash) with true. change (92 <? 32)%N with false. change (N.eqb 117 117) with true. cbv iota.
  rewrite H. destruct (lead v || trail v); [|reflexivity]. unfold pairs. destruct s as [|x [|y [|a2 [|b2 [|e2 [|f2 s4]]]]]]; try reflexivity.
  destruct (N.eqb x c_backslash && N.eqb y 117); [|reflexivity]. destruct (hex4 a2 b2 e2 f2) as [r2|]; [|reflexivity]. destruct (lead v && trail r2); reflexivity.
Qed.
Lemma pairs_some : forall v s x s4, pairs v s = Some (x, s4) -> exists u l, s = u ++ s4 /\ u_is u l /\ high v /\ low l /\ x = (65536 + 1024 * (v - 55296) + (l - 56320))%N.
Proof.
  intros v s x s4 H. unfold pairs in H. destruct s as [|p [|q [|a2 [|b2 [|e2 [|f2 s5]]]]]]; try discriminate. destruct (N.eqb p c_backslash && N.eqb q 117) eqn:E; [|discriminate].
  apply andb_prop in E. destruct E as [E1 E2]. apply N.eqb_eq in E1, E2. subst p q. destruct (hex4 a2 b2 e2 f2) as [r2|] eqn:Eh; [|discriminate]. destruct (lead v && trail r2) eqn:El; [|discriminate].
  apply andb_prop in El. destruct El as [L1 L2]. injection H as <- <-. exists [92; 117; a2; b2; e2; f2]%N, r2. split; [reflexivity|]. split; [apply hex4_iff; exact Eh|].
  split; [apply lead_iff; exact L1|]. split; [apply trail_iff; exact L2|]. lia.
Qed.
Lemma pairs_u : forall v u l s, u_is u l -> high v -> low l -> pairs v (u ++ s) = Some ((65536 + 1024 * (v - 55296) + (l - 56320))%N, s).
Proof.
  intros v u l s Hu Hv Hl. destruct (u_shape u l Hu) as (a & b & c & d & -> & E). cbn [app pairs]. change (N.eqb 92 c_backslash && N.eqb 117 117) with true. cbv iota. rewrite E.
  rewrite (proj2 (lead_iff v) Hv), (proj2 (trail_iff l) Hl). cbn [andb]. f_equal. f_equal. lia.
Qed.
Lemma hex_no_quote : forall c v, hex_is c v -> c <> 34%N.
Proof. intros c v [[H _]|[[H _]|[H _]]] ->; lia. Qed.
Lemma u_no_quote : forall u l, u_is u l -> ~ In 34%N u.
Proof.
  intros u l (a & b & c & d & w & x & y & z & -> & H1 & H2 & H3 & H4 & _) K. cbn [In] in K. apply hex_no_quote in H1, H2, H3, H4.
  destruct K as [K|[K|[K|[K|[K|[K|[]]]]]]]; [discriminate|discriminate|congruence..].
Qed.
Lemma inside : forall u s s4 r, ~ In 34%N u -> s ++ 34%N :: r = u ++ s4 -> exists s2, s = u ++ s2.
Proof.
  induction u as [|c u IH]; intros s s4 r Hu E; [exists s; reflexivity|]. destruct s as [|d s]; cbn [app] in E.
  - injection E as E _. exfalso. apply Hu. left. congruence.
  - injection E as -> E. destruct (IH s s4 r) as (s2 & ->); [intro K; apply Hu; right; exact K|exact E|]. exists s2. reflexivity.
Qed.
Lemma unquote_complete : forall b t, string_body b t -> forall r, json_unquote (b ++ 34%N :: r) = Some (t, r).
Proof.
  induction 1 as [|c s t H1 H2 H3 H IH|c s t H1 H IH|c v s t H1 H IH|u v s t Hu H1 H2 H IH|u1 u2 h l s t Hu1 Hu2 H1 H2 H IH|u v s t Hu H1 H2 H IH]; intro r.
  - reflexivity.
  - cbn [app]. rewrite unquote_plain by (lia || assumption). rewrite IH. destruct (N.leb_spec 1114112 c); [lia|reflexivity].
  - cbn [app]. rewrite unquote_plain by lia. rewrite IH. destruct (N.leb_spec 1114112 c); [reflexivity|lia].
  - cbn [app]. rewrite (unquote_simple c v) by exact H1. rewrite IH. reflexivity.
  - destruct (u_shape u v Hu) as (a & b & c & d & -> & E). rewrite <- app_assoc, (unquote_esc a b c d v _ E), IH.
    destruct (lead v) eqn:L; [exfalso; apply H1; apply lead_iff; exact L|]. destruct (trail v) eqn:L2; [exfalso; apply H2; apply trail_iff; exact L2|]. reflexivity.
  - destruct (u_shape u1 h Hu1) as (a & b & c & d & -> & E). rewrite <- !app_assoc, (unquote_esc a b c d h _ E). rewrite (proj2 (lead_iff h) H1). cbn [orb].
    rewrite (pairs_u h u2 l) by assumption. rewrite IH. reflexivity.
  - destruct (u_shape u v Hu) as (a & b & c & d & -> & E). rewrite <- app_assoc, (unquote_esc a b c d v _ E).
    assert (L : lead v || trail v = true) by (apply orb_true_iff; rewrite lead_iff, trail_iff; exact H1). rewrite L.
    destruct (pairs v (s ++ 34%N :: r)) as [[x s4]|] eqn:Ep; [|rewrite IH; reflexivity]. exfalso. destruct (pairs_some _ _ _ _ Ep) as (u2 & l & E2 & Hu2 & Hh & Hl & _).
    destruct (inside u2 s s4 r (u_no_quote _ _ Hu2) E2) as (s2 & Es). exact (H2 u2 l s2 Es Hu2 (conj Hh Hl)).
Qed.
Lemma unquote_sound : forall n s t r, length s <= n -> json_unquote s = Some (t, r) -> exists b, s = b ++ 34%N :: r /\ string_body b t.
Proof.
  induction n as [|n IH]; intros s t r Hn H; [destruct s; [discriminate|cbn in Hn; lia]|]. destruct s as [|c s]; [discriminate|]. cbn [length] in Hn.
  assert (P : forall x o, push_rune x o = Some (t, r) -> exists t', t = x :: t' /\ o = Some (t', r)) by (intros x [[a b]|] E; [injection E as <- <-; exists a; auto|discriminate]).
  destruct (N.eq_dec c 34) as [->|H34]; [cbn in H; injection H as <- <-; exists []; split; [reflexivity|constructor]|].
  destruct (N.ltb_spec c 32) as [H32|H32].
  { exfalso. cbn [json_unquote] in H. change c_dquote with 34%N in H. destruct (N.eqb_spec c 34); [contradiction|]. destruct (N.ltb_spec c 32); [discriminate|lia]. }
  destruct (N.eq_dec c 92) as [->|H92].
  2: { rewrite unquote_plain in H by assumption. apply P in H. destruct H as (t' & -> & H). apply IH in H; [|lia]. destruct H as (b & -> & Hb). exists (c :: b). split; [reflexivity|].
       destruct (N.leb_spec 1114112 c); [apply SbBadByte; [lia|exact Hb]|apply SbRune; try assumption; lia]. }
  destruct s as [|d s]; [discriminate|]. destruct (N.eq_dec d 117) as [->|Hd].
  2: { cbn [json_unquote] in H. change (N.eqb 92 c_dquote) with false in H. change (N.eqb 92 c_backslash) with true in H. change (92 <? 32)%N with false in H. cbv iota in H.
       destruct (N.eqb_spec d 117); [contradiction|]. destruct (simple_escape d) as [v|] eqn:E; [|discriminate]. apply simple_iff in E. apply P in H. destruct H as (t' & -> & H).
       cbn [length] in Hn. apply IH in H; [|lia]. destruct H as (b & -> & Hb). exists (92%N :: d :: b). split; [reflexivity|]. apply SbSimple; assumption. }
  destruct s as [|a [|b [|e [|f s]]]]; try discriminate. destruct (hex4 a b e f) as [v|] eqn:Eh.
  2: { cbn [json_unquote] in H. change (N.eqb 92 c_dquote) with false in H. change (N.eqb 92 c_backslash) with true in H. change (92 <? 32)%N with false in H. change (N.eqb 117 117) with true in H. cbv iota in H. rewrite Eh in H. discriminate. }
  change (92%N :: 117%N :: a :: b :: e :: f :: s) with ([92; 117; a; b; e; f]%N ++ s) in *. rewrite (unquote_esc a b e f v s Eh) in H. cbn [app length] in Hn. pose proof (proj1 (hex4_iff a b e f v) Eh) as Hu.
  assert (Hl : lead v = true <-> high v) by apply lead_iff. assert (Ht : trail v = true <-> low v) by apply trail_iff. destruct (lead v || trail v) eqn:El.
  - apply orb_true_iff in El. destruct (pairs v s) as [[x s4]|] eqn:Ep.
    + destruct (pairs_some _ _ _ _ Ep) as (u2 & l & -> & Hu2 & Hh & Hlo & ->). apply P in H. destruct H as (t' & -> & H). rewrite app_length in Hn. apply IH in H; [|lia]. destruct H as (b0 & -> & Hb).
      exists ([92; 117; a; b; e; f]%N ++ u2 ++ b0). split; [rewrite <- !app_assoc; reflexivity|]. apply SbPair; assumption.
    + apply P in H. destruct H as (t' & -> & H). apply IH in H; [|lia]. destruct H as (b0 & -> & Hb). exists ([92; 117; a; b; e; f]%N ++ b0). split; [rewrite <- app_assoc; reflexivity|].
      apply (SbLone _ v); [exact Hu|tauto| |exact Hb]. intros u2 l s2 -> Hu2 [K1 K2]. rewrite <- app_assoc, (pairs_u v u2 l) in Ep by assumption. discriminate.
  - apply orb_false_iff in El. destruct El as [L1 L2]. apply P in H. destruct H as (t' & -> & H). apply IH in H; [|lia]. destruct H as (b0 & -> & Hb). exists ([92; 117; a; b; e; f]%N ++ b0).
    split; [rewrite <- app_assoc; reflexivity|]. apply SbU; [exact Hu| | |exact Hb]; intro K; [apply Hl in K|apply Ht in K]; congruence.
Qed.
Lemma unquote_iff : forall s t r, json_unquote s = Some (t, r) <-> exists b, s = b ++ 34%N :: r /\ string_body b t.
Proof. intros s t r. split; [apply (unquote_sound (length s)); auto|]. intros (b & -> & H). apply unquote_complete. exact H. Qed.

(** ** Values: the parser finds only values ... *)
Lemma prefix_split : forall p s, has_prefix s p = true -> exists r, s = p ++ r.
Proof.
  induction p as [|c p IH]; intros s E; [exists s; reflexivity|]. destruct s as [|d s]; [discriminate|]. cbn [has_prefix] in E. apply andb_prop in E.
  destruct E as [E1 E2]. apply N.eqb_eq in E1. subst d. destruct (IH _ E2) as (r & ->). exists r. reflexivity.
Qed.
Lemma parse_sound : forall f,
  (forall s v r, parse_value f s = Some (v, r) -> exists t, s = t ++ r /\ value t v) /\
  (forall s l r, parse_elems f s = Some (l, r) -> exists t, s = t ++ T "]" ++ r /\ elems t l) /\
  (forall s l r, parse_members f s = Some (l, r) -> exists t, s = t ++ T "}" ++ r /\ members t l).
Proof.
  induction f as [|f (IHv & IHe & IHm)]; [split; [|split]; intros; discriminate|]. split; [|split]; intros s v r H.
  - rewrite parse_value_S in H. destruct s as [|c s]; [discriminate|]. destruct (N.eqb_spec c c_dquote) as [->|_].
    { destruct (json_unquote s) as [[t r']|] eqn:E; [|discriminate]. injection H as <- <-. apply unquote_iff in E. destruct E as (b & -> & Hb).
      exists ([34%N] ++ b ++ [34%N]). split; [cbn [app]; rewrite <- app_assoc; reflexivity|]. apply VaStr. exists b. split; [reflexivity|exact Hb]. }
    destruct (N.eqb_spec c 91) as [->|_].
    { destruct (skip_split s) as (a & Ha & E). destruct (skip_ws s) as [|d r'] eqn:Ew; [discriminate|]. destruct (N.eqb_spec d 93) as [->|_].
      - injection H as <- <-. exists (T "[" ++ a ++ T "]"). split; [rewrite <- !app_assoc, E; reflexivity|apply VaArr0; exact Ha].
      - destruct (parse_elems f (d :: r')) as [[l t]|] eqn:Ee; [|discriminate]. injection H as <- <-. apply IHe in Ee. destruct Ee as (t' & E2 & Hl).
        exists (T "[" ++ (a ++ t') ++ T "]"). split; [rewrite <- !app_assoc, E, E2; reflexivity|]. apply VaArr.
        inversion Hl as [a2 s2 b2 v2 K1 K2 K3|a2 s2 b2 v2 r2 l2 K1 K2 K3 K4]; subst; rewrite app_assoc; constructor; try assumption; apply Forall_app; split; assumption. }
    destruct (N.eqb_spec c c_lbrace) as [->|_].
    { destruct (skip_split s) as (a & Ha & E). destruct (skip_ws s) as [|d r'] eqn:Ew; [discriminate|]. destruct (N.eqb_spec d c_rbrace) as [->|_].
      - injection H as <- <-. exists (T "{" ++ a ++ T "}"). split; [rewrite <- !app_assoc, E; reflexivity|apply VaObj0; exact Ha].
      - destruct (parse_members f (d :: r')) as [[l t]|] eqn:Ee; [|discriminate]. injection H as <- <-. apply IHm in Ee. destruct Ee as (t' & E2 & Hl).
        exists (T "{" ++ (a ++ t') ++ T "}"). split; [rewrite <- !app_assoc, E, E2; reflexivity|]. apply VaObj.
        inversion Hl as [a2 k2 kt2 b2 c2 s2 d2 v2 K1 K2 K3 K4 K5 K6|a2 k2 kt2 b2 c2 s2 d2 v2 r2 l2 K1 K2 K3 K4 K5 K6 K7]; subst; rewrite app_assoc; constructor; try assumption; apply Forall_app; split; assumption. }
    destruct (has_prefix (c :: s) (T "null")) eqn:En. { apply prefix_split in En. destruct En as (q & En). rewrite En in H. injection H as <- <-. exists (T "null"). split; [exact En|constructor]. }
    destruct (has_prefix (c :: s) (T "true")) eqn:Et. { apply prefix_split in Et. destruct Et as (q & Et). rewrite Et in H. injection H as <- <-. exists (T "true"). split; [exact Et|constructor]. }
    destruct (has_prefix (c :: s) (T "false")) eqn:Ef. { apply prefix_split in Ef. destruct Ef as (q & Ef). rewrite Ef in H. injection H as <- <-. exists (T "false"). split; [exact Ef|constructor]. }
    pose proof (span_spec num_char (c :: s)) as (_ & S2 & _). destruct (span num_char (c :: s)) as [lit t]. cbn [fst snd] in S2. destruct (json_number lit) eqn:Ej; [|discriminate]. injection H as <- <-.
    exists lit. split; [exact S2|]. apply VaNum. apply number_iff. exact Ej.
  - rewrite parse_elems_S in H. destruct (parse_value f s) as [[w t]|] eqn:Ev; [|discriminate]. apply IHv in Ev. destruct Ev as (x & -> & Hx).
    destruct (skip_split t) as (b & Hb & E). destruct (skip_ws t) as [|c r'] eqn:Ew; [discriminate|]. destruct (N.eqb_spec c 44) as [->|_].
    + destruct (parse_elems f (skip_ws r')) as [[l t']|] eqn:Ee; [|discriminate]. injection H as <- <-. apply IHe in Ee. destruct Ee as (y & E2 & Hl).
      destruct (skip_split r') as (a & Ha & E3). exists ([] ++ x ++ b ++ T "," ++ (a ++ y)). split.
      * rewrite E, E3, E2. cbn [app]. rewrite <- ?app_assoc. cbn [app]. rewrite <- ?app_assoc. reflexivity.
      * apply EMore; [constructor|exact Hb|exact Hx|]. inversion Hl as [a2 s2 b2 v2 K1 K2 K3|a2 s2 b2 v2 r2 l2 K1 K2 K3 K4]; subst; rewrite app_assoc; constructor; try assumption; apply Forall_app; split; assumption.
    + destruct (N.eqb_spec c 93) as [->|_]; [|discriminate]. injection H as <- <-. exists ([] ++ x ++ b). split; [rewrite E; cbn [app]; rewrite <- app_assoc; reflexivity|]. apply EOne; [constructor|exact Hb|exact Hx].
  - rewrite parse_members_S in H. destruct s as [|q s1]; [discriminate|]. destruct (N.eqb_spec q c_dquote) as [->|_]; [|discriminate].
    destruct (json_unquote s1) as [[k t]|] eqn:Ek; [|discriminate]. apply unquote_iff in Ek. destruct Ek as (kb & -> & Hkb).
    destruct (skip_split t) as (b & Hb & E). destruct (skip_ws t) as [|c r1] eqn:Ew; [discriminate|]. destruct (N.eqb_spec c c_colon) as [->|_]; [|discriminate].
    destruct (skip_split r1) as (cc & Hcc & Ec). destruct (parse_value f (skip_ws r1)) as [[w r2]|] eqn:Ev; [|discriminate]. apply IHv in Ev. destruct Ev as (x & Ex & Hx).
    destruct (skip_split r2) as (d0 & Hd0 & Ed). destruct (skip_ws r2) as [|d r3] eqn:Ew2; [discriminate|].
    assert (Q : quoted ([34%N] ++ kb ++ [34%N]) k) by (exists kb; split; [reflexivity|exact Hkb]). destruct (N.eqb_spec d 44) as [->|_].
    + destruct (parse_members f (skip_ws r3)) as [[l t']|] eqn:Em; [|discriminate]. injection H as <- <-. apply IHm in Em. destruct Em as (y & E2 & Hl).
      destruct (skip_split r3) as (a & Ha & E3). exists ([] ++ ([34%N] ++ kb ++ [34%N]) ++ b ++ T ":" ++ cc ++ x ++ d0 ++ T "," ++ (a ++ y)). split.
      * rewrite E, Ec, Ex, Ed, E3, E2. cbn [app]. rewrite <- !app_assoc. cbn [app]. rewrite <- ?app_assoc. cbn [app]. rewrite <- ?app_assoc. reflexivity.
      * apply MMore; try assumption; [constructor|]. inversion Hl as [a2 k2 kt2 b2 c2 s2 d2 v2 K1 K2 K3 K4 K5 K6|a2 k2 kt2 b2 c2 s2 d2 v2 r2' l2 K1 K2 K3 K4 K5 K6 K7]; subst; rewrite app_assoc; constructor; try assumption; apply Forall_app; split; assumption.
    + destruct (N.eqb_spec d c_rbrace) as [->|_]; [|discriminate]. injection H as <- <-. exists ([] ++ ([34%N] ++ kb ++ [34%N]) ++ b ++ T ":" ++ cc ++ x ++ d0). split.
      * rewrite E, Ec, Ex, Ed. cbn [app]. rewrite <- ?app_assoc. cbn [app]. rewrite <- ?app_assoc. cbn [app]. rewrite <- ?app_assoc. reflexivity.
      * apply MOne; try assumption. constructor.
Qed.

(** ** ... and all of them. *)
Lemma mono1 : forall f,
  (forall s x, parse_value f s = Some x -> parse_value (S f) s = Some x) /\
  (forall s x, parse_elems f s = Some x -> parse_elems (S f) s = Some x) /\
  (forall s x, parse_members f s = Some x -> parse_members (S f) s = Some x).
Proof.
  induction f as [|f (IHv & IHe & IHm)]; [split; [|split]; intros; discriminate|]. split; [|split]; intros s x H.
  - rewrite parse_value_S in *. destruct s as [|c s]; [discriminate|]. destruct (N.eqb c c_dquote); [exact H|]. destruct (N.eqb c 91).
    { destruct (skip_ws s) as [|d r]; [exact H|]. destruct (N.eqb d 93); [exact H|]. destruct (parse_elems f (d :: r)) as [y|] eqn:E; [|discriminate]. rewrite (IHe _ _ E). exact H. }
    destruct (N.eqb c c_lbrace); [|exact H]. destruct (skip_ws s) as [|d r]; [exact H|]. destruct (N.eqb d c_rbrace); [exact H|].
    destruct (parse_members f (d :: r)) as [y|] eqn:E; [|discriminate]. rewrite (IHm _ _ E). exact H.
  - rewrite parse_elems_S in *. destruct (parse_value f s) as [[w t]|] eqn:Ev; [|discriminate]. rewrite (IHv _ _ Ev). destruct (skip_ws t) as [|c r]; [exact H|].
    destruct (N.eqb c 44); [|exact H]. destruct (parse_elems f (skip_ws r)) as [y|] eqn:E; [|discriminate]. rewrite (IHe _ _ E). exact H.
  - rewrite parse_members_S in *. destruct s as [|q s]; [exact H|]. destruct (N.eqb q c_dquote); [|exact H]. destruct (json_unquote s) as [[k t]|]; [|exact H].
    destruct (skip_ws t) as [|c r1]; [exact H|]. destruct (N.eqb c c_colon); [|exact H]. destruct (parse_value f (skip_ws r1)) as [[w r2]|] eqn:Ev; [|discriminate]. rewrite (IHv _ _ Ev).
    destruct (skip_ws r2) as [|d r3]; [exact H|]. destruct (N.eqb d 44); [|exact H]. destruct (parse_members f (skip_ws r3)) as [y|] eqn:E; [|discriminate]. rewrite (IHm _ _ E). exact H.
Qed.
Lemma mono : forall f g, f <= g ->
  (forall s x, parse_value f s = Some x -> parse_value g s = Some x) /\
  (forall s x, parse_elems f s = Some x -> parse_elems g s = Some x) /\
  (forall s x, parse_members f s = Some x -> parse_members g s = Some x).
Proof.
  intros f g H. induction H as [|g H (IHv & IHe & IHm)]; [auto|]. destruct (mono1 g) as (Mv & Me & Mm). split; [|split]; intros s x E; [apply Mv|apply Me|apply Mm]; auto.
Qed.
(** What can follow a value. *)
Definition stops (r : str) : Prop := match r with c :: _ => num_char c = false | [] => True end.
Lemma space_stops : forall b r, spaces b -> stops r -> stops (b ++ r).
Proof. intros b r Hb Hr. destruct Hb as [|c b Hc Hb]; [exact Hr|]. cbn [app stops]. destruct Hc as [->|[->|[->| ->]]]; reflexivity. Qed.
Lemma value_head : forall t v, value t v -> exists c t', t = c :: t' /\ json_ws c = false /\ c <> 93%N /\ c <> 125%N.
Proof.
  intros t v H. destruct H as [| | |s H|s t (b & -> & H)| | | |]; try (eexists; eexists; split; [reflexivity|]; split; [reflexivity|split; discriminate]).
  destruct (number_head s H) as (c & s' & -> & Hc). exists c, s'. split; [reflexivity|]. split; [|lia]. unfold json_ws. destruct (N.eqb_spec c 32); [lia|]. destruct (N.eqb_spec c 9); [lia|]. destruct (N.eqb_spec c 10); [lia|]. destruct (N.eqb_spec c 13); [lia|reflexivity].
Qed.
Lemma elems_head : forall s l r, elems s l -> exists c t', skip_ws (s ++ r) = c :: t' /\ c <> 93%N.
Proof.
  intros s l r H. destruct H as [a s b v Ha Hb Hv|a s b v r0 l Ha Hb Hv Hl]; destruct (value_head s v Hv) as (c & t' & -> & Hw & Hc & _); rewrite <- app_assoc, (skip_spaces a _ Ha); cbn [app]; rewrite skip_head by exact Hw; eexists; eexists; (split; [reflexivity|exact Hc]).
Qed.
Lemma members_head : forall s l r, members s l -> exists t', skip_ws (s ++ r) = 34%N :: t'.
Proof.
  intros s l r H. destruct H as [a k kt b c s d v Ha Hb Hc Hd (kb & -> & Hk) Hv|a k kt b c s d v r0 l Ha Hb Hc Hd (kb & -> & Hk) Hv Hl]; rewrite <- app_assoc, (skip_spaces a _ Ha); cbn [app]; rewrite skip_head by reflexivity; eexists; reflexivity.
Qed.
Scheme value_mind := Minimality for value Sort Prop with elems_mind := Minimality for elems Sort Prop with members_mind := Minimality for members Sort Prop.
Combined Scheme json_mind from value_mind, elems_mind, members_mind.
Lemma parse_complete :
  (forall t v, value t v -> forall r, stops r -> exists f, parse_value f (t ++ r) = Some (v, r)) /\
  (forall s l, elems s l -> forall r, exists f, parse_elems f (skip_ws (s ++ T "]" ++ r)) = Some (l, r)) /\
  (forall s l, members s l -> forall r, exists f, parse_members f (skip_ws (s ++ T "}" ++ r)) = Some (l, r)).
Proof.
  apply json_mind.
  - intros r _. exists 1. destruct r; reflexivity.
  - intros r _. exists 1. destruct r; reflexivity.
  - intros r _. exists 1. destruct r; reflexivity.
  - intros s H r Hr. exists 1. destruct (number_head s H) as (c & s' & E & Hc). rewrite parse_value_S. rewrite E at 1. cbn [app].
    destruct (N.eqb_spec c c_dquote) as [->|_]; [change c_dquote with 34%N in Hc; lia|]. destruct (N.eqb_spec c 91); [lia|]. destruct (N.eqb_spec c c_lbrace) as [->|_]; [change c_lbrace with 123%N in Hc; lia|].
    assert (P : forall d w, (d = 110 \/ d = 116 \/ d = 102)%N -> has_prefix (s ++ r) (d :: w) = false).
    { intros d w Hd. rewrite E. cbn [app has_prefix]. destruct (N.eqb_spec d c); [lia|reflexivity]. }
    change (T "null") with (110%N :: T "ull"). change (T "true") with (116%N :: T "rue"). change (T "false") with (102%N :: T "alse"). rewrite !P by auto.
    rewrite (span_app num_char s r (number_chars s H)); [|exact Hr]. rewrite (proj2 (number_iff s) H). reflexivity.
  - intros s t (b & -> & Hb) r _. exists 1. rewrite parse_value_S. cbn [app]. change (N.eqb 34 c_dquote) with true. cbv iota. rewrite <- app_assoc. cbn [app].
    rewrite (proj2 (unquote_iff (b ++ 34%N :: r) t r)); [reflexivity|]. exists b. split; [reflexivity|exact Hb].
  - intros w Hw r _. exists 1. rewrite parse_value_S. change ((T "[" ++ w ++ T "]") ++ r) with (91%N :: (w ++ T "]") ++ r). change (N.eqb 91 c_dquote) with false. change (N.eqb 91 91) with true. cbv iota.
    rewrite <- app_assoc, (skip_spaces w _ Hw). reflexivity.
  - intros s l Hl IH r _. destruct (IH r) as (f & E). exists (S f). rewrite parse_value_S. change ((T "[" ++ s ++ T "]") ++ r) with (91%N :: (s ++ T "]") ++ r). change (N.eqb 91 c_dquote) with false. change (N.eqb 91 91) with true. cbv iota.
    rewrite <- app_assoc. destruct (elems_head s l (T "]" ++ r) Hl) as (c & t' & E2 & Hc). rewrite E2 in *. destruct (N.eqb_spec c 93); [contradiction|]. rewrite E. reflexivity.
  - intros w Hw r _. exists 1. rewrite parse_value_S. change ((T "{" ++ w ++ T "}") ++ r) with (123%N :: (w ++ T "}") ++ r). change (N.eqb 123 c_dquote) with false. change (N.eqb 123 91) with false. change (N.eqb 123 c_lbrace) with true. cbv iota.
    rewrite <- app_assoc, (skip_spaces w _ Hw). reflexivity.
  - intros s l Hl IH r _. destruct (IH r) as (f & E). exists (S f). rewrite parse_value_S. change ((T "{" ++ s ++ T "}") ++ r) with (123%N :: (s ++ T "}") ++ r). change (N.eqb 123 c_dquote) with false. change (N.eqb 123 91) with false. change (N.eqb 123 c_lbrace) with true. cbv iota.
    rewrite <- app_assoc. destruct (members_head s l (T "}" ++ r) Hl) as (t' & E2). rewrite E2 in *. change (N.eqb 34 c_rbrace) with false. cbv iota. rewrite E. reflexivity.
  - intros a s b v Ha Hb Hv IH r. destruct (IH (b ++ T "]" ++ r)) as (f & E); [apply space_stops; [exact Hb|reflexivity]|]. exists (S f). rewrite parse_elems_S.
    rewrite <- !app_assoc, (skip_spaces a _ Ha). destruct (value_head s v Hv) as (c & t' & Es & Hw & _). assert (K : skip_ws (s ++ b ++ T "]" ++ r) = s ++ b ++ T "]" ++ r) by (rewrite Es; apply skip_head; exact Hw).
    rewrite K, E, (skip_spaces b _ Hb). reflexivity.
  - intros a s b v r0 l Ha Hb Hv IHv Hl IHl r. destruct (IHv (b ++ T "," ++ r0 ++ T "]" ++ r)) as (f & E); [apply space_stops; [exact Hb|reflexivity]|]. destruct (IHl r) as (g & E2).
    exists (S (max f g)). rewrite parse_elems_S. rewrite <- !app_assoc, (skip_spaces a _ Ha). destruct (value_head s v Hv) as (c & t' & Es & Hw & _).
    assert (K : skip_ws (s ++ b ++ T "," ++ r0 ++ T "]" ++ r) = s ++ b ++ T "," ++ r0 ++ T "]" ++ r) by (rewrite Es; apply skip_head; exact Hw).
    apply (proj1 (mono f (max f g) (Nat.le_max_l _ _))) in E. apply (proj1 (proj2 (mono g (max f g) (Nat.le_max_r _ _)))) in E2.
    rewrite K, E, (skip_spaces b _ Hb). change (skip_ws (T "," ++ r0 ++ T "]" ++ r)) with (44%N :: r0 ++ T "]" ++ r). change (N.eqb 44 44) with true. cbv iota. rewrite E2. reflexivity.
  - intros a k kt b c s d v Ha Hb Hc Hd (kb & -> & Hk) Hv IH r. destruct (IH (d ++ T "}" ++ r)) as (f & E); [apply space_stops; [exact Hd|reflexivity]|]. exists (S f). rewrite parse_members_S.
    rewrite <- !app_assoc, (skip_spaces a _ Ha). cbn [app]. rewrite (skip_head 34%N) by reflexivity. change (N.eqb 34 c_dquote) with true. cbv iota.
    rewrite (unquote_complete kb kt Hk). rewrite (skip_spaces b _ Hb). change (skip_ws (T ":" ++ c ++ s ++ d ++ T "}" ++ r)) with (58%N :: c ++ s ++ d ++ T "}" ++ r). change (N.eqb 58 c_colon) with true. cbv iota.
    rewrite (skip_spaces c _ Hc). destruct (value_head s v Hv) as (x & t' & Es & Hw & _). assert (K : skip_ws (s ++ d ++ T "}" ++ r) = s ++ d ++ T "}" ++ r) by (rewrite Es; apply skip_head; exact Hw).
    rewrite K, E, (skip_spaces d _ Hd). reflexivity.
  - intros a k kt b c s d v r0 l Ha Hb Hc Hd (kb & -> & Hk) Hv IHv Hl IHl r. destruct (IHv (d ++ T "," ++ r0 ++ T "}" ++ r)) as (f & E); [apply space_stops; [exact Hd|reflexivity]|]. destruct (IHl r) as (g & E2).
    exists (S (max f g)). rewrite parse_members_S.
    rewrite <- !app_assoc, (skip_spaces a _ Ha). cbn [app]. rewrite (skip_head 34%N) by reflexivity. change (N.eqb 34 c_dquote) with true. cbv iota.
    rewrite (unquote_complete kb kt Hk). rewrite (skip_spaces b _ Hb). change (skip_ws (T ":" ++ c ++ s ++ d ++ T "," ++ r0 ++ T "}" ++ r)) with (58%N :: c ++ s ++ d ++ T "," ++ r0 ++ T "}" ++ r). change (N.eqb 58 c_colon) with true. cbv iota.
    rewrite (skip_spaces c _ Hc). destruct (value_head s v Hv) as (x & t' & Es & Hw & _). assert (K : skip_ws (s ++ d ++ T "," ++ r0 ++ T "}" ++ r) = s ++ d ++ T "," ++ r0 ++ T "}" ++ r) by (rewrite Es; apply skip_head; exact Hw).
    apply (proj1 (mono f (max f g) (Nat.le_max_l _ _))) in E. apply (proj2 (proj2 (mono g (max f g) (Nat.le_max_r _ _)))) in E2.
    rewrite K, E, (skip_spaces d _ Hd). change (skip_ws (T "," ++ r0 ++ T "}" ++ r)) with (44%N :: r0 ++ T "}" ++ r). change (N.eqb 44 44) with true. cbv iota. rewrite E2. reflexivity.
Qed.
Lemma parse_json_iff : forall s v, parse_json s = Some v <-> json_text s v.
Proof.
  intros s v. unfold parse_json, json_text. split.
  - destruct (parse_value _ (skip_ws s)) as [[w r]|] eqn:E; [|discriminate]. apply (proj1 (parse_sound _)) in E. destruct E as (t & E & Hv). destruct (skip_ws r) eqn:Er; [|discriminate]. intro H. injection H as <-.
    destruct (skip_split s) as (a & Ha & Es). exists a, t, r. split; [exact Ha|]. split; [apply spaces_nil; exact Er|]. split; [rewrite <- E; exact Es|exact Hv].
  - intros (a & t & b & Ha & Hb & -> & Hv). destruct (proj1 parse_complete t v Hv b) as (f & E); [rewrite <- (app_nil_r b); apply space_stops; [exact Hb|exact I]|].
    destruct (value_head t v Hv) as (c & t' & Et & Hw & _). assert (K : skip_ws (a ++ t ++ b) = t ++ b) by (rewrite (skip_spaces a _ Ha), Et; apply skip_head; exact Hw).
    set (n := 2 * length (a ++ t ++ b) + 2). apply (proj1 (mono f (max f n) (Nat.le_max_l _ _))) in E. rewrite <- K in E. rewrite (parse_json_fuel (a ++ t ++ b)) in E by (unfold n; lia). fold n in E. rewrite E.
    pose proof (skip_spaces b [] Hb) as B. rewrite app_nil_r in B. rewrite B. reflexivity.
Qed.
