(** Proofs about the JSON model. *)
From Verif Require Import GoStr GoStrProofs GoMap GenHttp Json.

Definition fix_rune (c : N) : N := if (1114112 <=? c)%N then rune_error else c.

Lemma hex_lower_val : forall n, (n < 16)%N -> hex_digit_val (hex_lower n) = Some n.
Proof.
  intros n H. assert (E : n = 0%N \/ n = 1%N \/ n = 2%N \/ n = 3%N \/ n = 4%N \/ n = 5%N \/ n = 6%N \/ n = 7%N \/ n = 8%N \/ n = 9%N \/ n = 10%N \/ n = 11%N \/ n = 12%N \/ n = 13%N \/ n = 14%N \/ n = 15%N) by lia.
  repeat destruct E as [->|E]; try reflexivity. subst n. reflexivity.
Qed.
Lemma unquote_u : forall c r, (c < 65536)%N -> lead c = false -> trail c = false ->
  json_unquote (u_escape c ++ r) = push_rune c (json_unquote r).
Proof.
  intros c r H Hl Ht. unfold u_escape. cbn [T map list_ascii_of_string app json_unquote].
  change (N_of_ascii "\"%char) with 92%N. change (N_of_ascii "u"%char) with 117%N.
  cbn [N.eqb c_dquote c_backslash Pos.eqb]. change ((92 <? 32)%N) with false. cbv iota.
  unfold hex4. rewrite !hex_lower_val by (apply N.mod_lt; lia).
  assert (E : (c / 4096 mod 16 * 4096 + c / 256 mod 16 * 256 + c / 16 mod 16 * 16 + c mod 16)%N = c).
  { pose proof (N.div_mod c 16 ltac:(lia)) as E1. pose proof (N.div_mod (c / 16) 16 ltac:(lia)) as E2. pose proof (N.div_mod (c / 16 / 16) 16 ltac:(lia)) as E3.
    rewrite !N.div_div in * by lia. change (16 * 16)%N with 256%N in *. change (256 * 16)%N with 4096%N in *.
    assert (c / 4096 < 16)%N by (apply N.div_lt_upper_bound; lia). rewrite (N.mod_small (c / 4096) 16) by lia. lia. }
  rewrite E, Hl, Ht. reflexivity.
Qed.
Lemma unquote_rune : forall c r, json_unquote (quote_rune c ++ r) = push_rune (fix_rune c) (json_unquote r).
Proof.
  intros c r. unfold quote_rune, fix_rune.
  destruct (N.eqb c c_dquote || N.eqb c c_backslash) eqn:E1.
  { apply orb_true_iff in E1. destruct E1 as [E1|E1]; apply N.eqb_eq in E1; subst c; reflexivity. }
  apply orb_false_iff in E1. destruct E1 as [E1 E1'].
  destruct (N.eqb_spec c 10) as [->|]; [reflexivity|]. destruct (N.eqb_spec c 13) as [->|]; [reflexivity|]. destruct (N.eqb_spec c 9) as [->|]; [reflexivity|].
  assert (Hlt : forall k, lead k = true \/ trail k = true -> (55296 <= k <= 57343)%N).
  { intros k [K|K]; [unfold lead in K|unfold trail in K]; apply in_range_spec in K; lia. }
  assert (Hlow : (c < 10000)%N -> lead c = false /\ trail c = false).
  { intro K. split; [destruct (lead c) eqn:El|destruct (trail c) eqn:El]; try reflexivity; specialize (Hlt c); rewrite El in Hlt; exfalso; assert (55296 <= c <= 57343)%N by auto; lia. }
  destruct ((c <? 32)%N || N.eqb c 60 || N.eqb c 62 || N.eqb c 38) eqn:E2.
  { assert (c < 63)%N. { rewrite !orb_true_iff, N.ltb_lt, !N.eqb_eq in E2. lia. }
    rewrite unquote_u by (try apply Hlow; lia). destruct (N.leb_spec 1114112 c); [lia|reflexivity]. }
  destruct (N.eqb c 8232 || N.eqb c 8233) eqn:E3.
  { assert (c < 8234)%N. { rewrite !orb_true_iff, !N.eqb_eq in E3. lia. }
    rewrite unquote_u by (try apply Hlow; lia). destruct (N.leb_spec 1114112 c); [lia|reflexivity]. }
  destruct (N.leb_spec 1114112 c) as [H|H]; [reflexivity|].
  cbn [app json_unquote]. rewrite E1, E1'. rewrite !orb_false_iff in E2. destruct E2 as [[[E2 _] _] _]. rewrite E2.
  destruct (N.leb_spec 1114112 c); [lia|reflexivity].
Qed.
Lemma unquote_quoted : forall s r, json_unquote (flat_map quote_rune s ++ c_dquote :: r) = Some (map fix_rune s, r).
Proof.
  induction s as [|c s IH]; intro r; [reflexivity|]. cbn [flat_map map]. rewrite <- app_assoc, unquote_rune, IH. reflexivity.
Qed.
(** The round trip of the error text. *)
Lemma error_round_trip : forall s, unmarshal_error (marshal_error s) = Some (map fix_rune s).
Proof.
  intro s. unfold unmarshal_error, parse_json.
  assert (E : forall f, parse_value (S (S (S f))) (marshal_error s) = Some (JObj [(T "error", JStr (map fix_rune s))], [])).
  { intro f. unfold marshal_error, json_quote. cbn [parse_value parse_members].
    change (T "{" ++ ([c_dquote] ++ flat_map quote_rune (T "error") ++ [c_dquote]) ++ T ":" ++ ([c_dquote] ++ flat_map quote_rune s ++ [c_dquote]) ++ T "}")
      with (c_lbrace :: c_dquote :: flat_map quote_rune (T "error") ++ (c_dquote :: c_colon :: c_dquote :: (flat_map quote_rune s ++ [c_dquote]) ++ [c_rbrace])).
    change (N.eqb c_lbrace c_dquote) with false. change (N.eqb c_lbrace 91) with false. change (N.eqb c_lbrace c_lbrace) with true. cbv iota.
    cbn [skip_ws]. change (json_ws c_dquote) with false. cbv iota. change (N.eqb c_dquote c_rbrace) with false. cbv iota.
    change (N.eqb c_dquote c_dquote) with true. cbv iota. rewrite unquote_quoted.
    cbn [skip_ws]. change (json_ws c_colon) with false. cbv iota. change (N.eqb c_colon c_colon) with true. cbv iota. cbn [skip_ws]. change (json_ws c_dquote) with false. cbv iota.
    change (N.eqb c_dquote c_dquote) with true. cbv iota. rewrite <- app_assoc. cbn [app]. rewrite unquote_quoted.
    reflexivity. }
  replace (skip_ws (marshal_error s)) with (marshal_error s) by reflexivity.
  destruct (2 * length (marshal_error s) + 2) as [|[|[|n]]] eqn:El; [lia|lia|exfalso; cbn in El; lia|].
  rewrite E. reflexivity.
Qed.
Lemma fix_valid : forall s, Forall (fun c => (c < 1114112)%N) s -> map fix_rune s = s.
Proof.
  intros s H. rewrite <- (map_id s) at 2. apply map_ext_in. intros c Hc. rewrite Forall_forall in H. specialize (H c Hc). unfold fix_rune.
  destruct (N.leb_spec 1114112 c); [lia|reflexivity].
Qed.

(** ** The fuel of the parser is enough: more of it changes nothing. *)
Lemma skip_ws_len : forall s, length (skip_ws s) <= length s.
Proof. induction s as [|c s IH]; [auto|]. cbn [skip_ws]. destruct (json_ws c); cbn [length]; lia. Qed.
Lemma span_len : forall p s, length (fst (span p s)) + length (snd (span p s)) = length s.
Proof. intros p. induction s as [|c s IH]; [reflexivity|]. cbn [span]. destruct (p c); [|reflexivity]. destruct (span p s) as [a b]. cbn in *. lia. Qed.
Lemma push_some : forall c o t r, push_rune c o = Some (t, r) -> exists t', o = Some (t', r).
Proof. intros c [[a b]|] t r H; [|discriminate]. injection H as <- <-. exists a. reflexivity. Qed.
Lemma unquote_len : forall n s t r, length s <= n -> json_unquote s = Some (t, r) -> length r < length s.
Proof.
  induction n as [|n IH]; intros s t r Hn H; [destruct s; [discriminate|cbn in Hn; lia]|].
  destruct s as [|c s1]; [discriminate|]. cbn [json_unquote] in H. cbn [length] in *.
  destruct (N.eqb c c_dquote); [injection H as <- <-; lia|]. destruct (c <? 32)%N; [discriminate|].
  assert (Q : forall k s', length s' <= length s1 -> push_rune k (json_unquote s') = Some (t, r) -> length r < S (length s1)).
  { intros k s' Hl Hp. apply push_some in Hp. destruct Hp as [t' Hp]. apply IH in Hp; lia. }
  destruct (N.eqb c c_backslash); [|exact (Q _ s1 (le_n _) H)].
  destruct s1 as [|d s2]; [discriminate|]. cbn [length] in *. destruct (N.eqb d 117).
  2: { destruct (simple_escape d); [|discriminate]. apply (Q _ s2) in H; lia. }
  destruct s2 as [|a [|b [|e [|f s3]]]]; try discriminate. cbn [length] in *. destruct (hex4 a b e f) as [k|]; [|discriminate].
  assert (Q3 : forall k, push_rune k (json_unquote s3) = Some (t, r) -> length r < S (S (S (S (S (S (length s3))))))) by (intros k0 Hp; apply (Q k0 s3) in Hp; lia).
  destruct (lead k || trail k); [|exact (Q3 _ H)].
  destruct s3 as [|x [|y [|a2 [|b2 [|e2 [|f2 s4]]]]]]; try exact (Q3 _ H).
  destruct (if N.eqb x c_backslash && N.eqb y 117 then hex4 a2 b2 e2 f2 else None) as [k2|]; [|exact (Q3 _ H)].
  destruct (lead k && trail k2); [|exact (Q3 _ H)]. apply (Q _ s4) in H; cbn [length] in *; lia.
Qed.
Lemma unquote_short : forall s t r, json_unquote s = Some (t, r) -> length r < length s.
Proof. intros s t r. apply (unquote_len (length s)). auto. Qed.
Lemma num_nonempty : forall s, json_number (fst (span num_char s)) = true -> length (snd (span num_char s)) < length s.
Proof.
  intros s H. pose proof (span_len num_char s) as L. destruct (fst (span num_char s)); [discriminate|]. cbn [length] in L. lia.
Qed.
Lemma consumes : forall f,
  (forall s v r, parse_value f s = Some (v, r) -> length r < length s) /\
  (forall s v r, parse_elems f s = Some (v, r) -> length r < length s) /\
  (forall s v r, parse_members f s = Some (v, r) -> length r < length s).
Proof.
  induction f as [|f (IHv & IHe & IHm)]; [repeat split; intros; discriminate|]. split; [|split]; intros s v r H.
  - destruct s as [|c s1]; [discriminate|]. cbn [parse_value] in H. pose proof (skip_ws_len s1) as Hw. cbn [length].
    destruct (N.eqb c c_dquote). { destruct (json_unquote s1) as [[t r']|] eqn:E; [|discriminate]. injection H as <- <-. apply unquote_short in E. lia. }
    destruct (N.eqb c 91).
    { destruct (skip_ws s1) as [|d r'] eqn:Ew; [discriminate|]. cbn [length] in Hw. destruct (N.eqb d 93); [injection H as <- <-; lia|].
      destruct (parse_elems f (d :: r')) as [[l t]|] eqn:E; [|discriminate]. injection H as <- <-. apply IHe in E. cbn [length] in E. lia. }
    destruct (N.eqb c c_lbrace).
    { destruct (skip_ws s1) as [|d r'] eqn:Ew; [discriminate|]. cbn [length] in Hw. destruct (N.eqb d c_rbrace); [injection H as <- <-; lia|].
      destruct (parse_members f (d :: r')) as [[l t]|] eqn:E; [|discriminate]. injection H as <- <-. apply IHm in E. cbn [length] in E. lia. }
    assert (K : forall k, length (skipn (S k) (c :: s1)) < S (length s1)) by (intro k; rewrite skipn_length; cbn [length]; lia).
    destruct (has_prefix (c :: s1) (T "null")); [injection H as <- <-; exact (K 3)|].
    destruct (has_prefix (c :: s1) (T "true")); [injection H as <- <-; exact (K 3)|].
    destruct (has_prefix (c :: s1) (T "false")); [injection H as <- <-; exact (K 4)|].
    pose proof (num_nonempty (c :: s1)) as Hn. destruct (span num_char (c :: s1)) as [lit t]. cbn [fst snd] in Hn. destruct (json_number lit); [|discriminate]. injection H as <- <-. apply Hn. reflexivity.
  - cbn [parse_elems] in H. destruct (parse_value f s) as [[w t]|] eqn:E; [|discriminate]. apply IHv in E. pose proof (skip_ws_len t) as Hw.
    destruct (skip_ws t) as [|c r']; [discriminate|]. cbn [length] in Hw. destruct (N.eqb c 44).
    + destruct (parse_elems f (skip_ws r')) as [[l t']|] eqn:E2; [|discriminate]. injection H as <- <-. apply IHe in E2. pose proof (skip_ws_len r'). lia.
    + destruct (N.eqb c 93); [injection H as <- <-; lia|discriminate].
  - cbn [parse_members] in H. destruct s as [|q s1]; [discriminate|]. destruct (N.eqb q c_dquote); [|discriminate]. cbn [length].
    destruct (json_unquote s1) as [[k t]|] eqn:E; [|discriminate]. apply unquote_short in E. pose proof (skip_ws_len t) as Hw.
    destruct (skip_ws t) as [|c r1]; [discriminate|]. cbn [length] in Hw. destruct (N.eqb c c_colon); [|discriminate].
    destruct (parse_value f (skip_ws r1)) as [[w r2]|] eqn:E2; [|discriminate]. apply IHv in E2. pose proof (skip_ws_len r1). pose proof (skip_ws_len r2) as Hw2.
    destruct (skip_ws r2) as [|d r3]; [discriminate|]. cbn [length] in Hw2. destruct (N.eqb d 44).
    + destruct (parse_members f (skip_ws r3)) as [[l t']|] eqn:E3; [|discriminate]. injection H as <- <-. apply IHm in E3. pose proof (skip_ws_len r3). lia.
    + destruct (N.eqb d c_rbrace); [injection H as <- <-; lia|discriminate].
Qed.
Lemma parse_value_S : forall fuel s, parse_value (S fuel) s =
      match s with
      | [] => None
      | c :: r =>
          if N.eqb c c_dquote then match json_unquote r with Some (t, r') => Some (JStr t, r') | None => None end
          else if N.eqb c 91 then
            match skip_ws r with
            | d :: r' => if N.eqb d 93 then Some (JArr [], r')
                         else match parse_elems fuel (skip_ws r) with Some (l, t) => Some (JArr l, t) | None => None end
            | [] => None
            end
          else if N.eqb c c_lbrace then
            match skip_ws r with
            | d :: r' => if N.eqb d c_rbrace then Some (JObj [], r')
                         else match parse_members fuel (skip_ws r) with Some (l, t) => Some (JObj l, t) | None => None end
            | [] => None
            end
          else if has_prefix s (T "null") then Some (JNull, skipn 4 s)
          else if has_prefix s (T "true") then Some (JBool true, skipn 4 s)
          else if has_prefix s (T "false") then Some (JBool false, skipn 5 s)
          else let (lit, t) := span num_char s in if json_number lit then Some (JNum lit, t) else None
      end.
Proof. reflexivity. Qed.
Lemma parse_elems_S : forall fuel s, parse_elems (S fuel) s =
      match parse_value fuel s with
      | None => None
      | Some (v, r) =>
          match skip_ws r with
          | c :: r' =>
              if N.eqb c 44 then match parse_elems fuel (skip_ws r') with Some (l, t) => Some (v :: l, t) | None => None end
              else if N.eqb c 93 then Some ([v], r') else None
          | [] => None
          end
      end.
Proof. reflexivity. Qed.
Lemma parse_members_S : forall fuel s, parse_members (S fuel) s =
      match s with
      | q :: s1 =>
          if N.eqb q c_dquote then
            match json_unquote s1 with
            | None => None
            | Some (k, r) =>
                match skip_ws r with
                | c :: r1 =>
                    if N.eqb c c_colon then
                      match parse_value fuel (skip_ws r1) with
                      | None => None
                      | Some (v, r2) =>
                          match skip_ws r2 with
                          | d :: r3 =>
                              if N.eqb d 44
                              then match parse_members fuel (skip_ws r3) with Some (l, t) => Some ((k, v) :: l, t) | None => None end
                              else if N.eqb d c_rbrace then Some ([(k, v)], r3) else None
                          | [] => None
                          end
                      end
                    else None
                | [] => None
                end
            end
          else None
      | [] => None
      end.
Proof. reflexivity. Qed.
Lemma stable : forall f,
  (forall s, 2 * length s < f -> parse_value (S f) s = parse_value f s) /\
  (forall s, 2 * length s + 1 < f -> parse_elems (S f) s = parse_elems f s) /\
  (forall s, 2 * length s + 1 < f -> parse_members (S f) s = parse_members f s).
Proof.
  induction f as [|f (IHv & IHe & IHm)]; [repeat split; intros; lia|]. split; [|split]; intros s Hs.
  - destruct s as [|c s1]; [reflexivity|]. cbn [length] in Hs. rewrite (parse_value_S (S f)), (parse_value_S f).
    destruct (N.eqb c c_dquote); [reflexivity|]. pose proof (skip_ws_len s1) as Hw. destruct (N.eqb c 91).
    { destruct (skip_ws s1) as [|d r']; [reflexivity|]. destruct (N.eqb d 93); [reflexivity|]. rewrite IHe by lia. reflexivity. }
    destruct (N.eqb c c_lbrace); [|reflexivity]. destruct (skip_ws s1) as [|d r']; [reflexivity|]. destruct (N.eqb d c_rbrace); [reflexivity|]. rewrite IHm by lia. reflexivity.
  - rewrite (parse_elems_S (S f)), (parse_elems_S f). rewrite IHv by lia.
    destruct (parse_value f s) as [[w t]|] eqn:E; [|reflexivity]. apply (proj1 (consumes f)) in E. pose proof (skip_ws_len t) as Hw.
    destruct (skip_ws t) as [|c r']; [reflexivity|]. cbn [length] in Hw. pose proof (skip_ws_len r'). destruct (N.eqb c 44); [|reflexivity]. rewrite IHe by lia. reflexivity.
  - rewrite (parse_members_S (S f)), (parse_members_S f). destruct s as [|q s1]; [reflexivity|]. cbn [length] in Hs.
    destruct (N.eqb q c_dquote); [|reflexivity]. destruct (json_unquote s1) as [[k t]|] eqn:E; [|reflexivity]. apply unquote_short in E. pose proof (skip_ws_len t) as Hw.
    destruct (skip_ws t) as [|c r1]; [reflexivity|]. cbn [length] in Hw. destruct (N.eqb c c_colon); [|reflexivity]. pose proof (skip_ws_len r1).
    rewrite IHv by lia. destruct (parse_value f (skip_ws r1)) as [[w r2]|] eqn:E2; [|reflexivity]. apply (proj1 (consumes f)) in E2. pose proof (skip_ws_len r2) as Hw2.
    destruct (skip_ws r2) as [|d r3]; [reflexivity|]. cbn [length] in Hw2. pose proof (skip_ws_len r3). destruct (N.eqb d 44); [|reflexivity]. rewrite IHm by lia. reflexivity.
Qed.
Lemma parse_json_fuel : forall s f, 2 * length s + 2 <= f -> parse_value f (skip_ws s) = parse_value (2 * length s + 2) (skip_ws s).
Proof.
  intros s f H. induction H as [|f H IH]; [reflexivity|]. rewrite (proj1 (stable f)); [exact IH|]. pose proof (skip_ws_len s). lia.
Qed.
