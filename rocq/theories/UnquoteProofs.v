(** strconv.Unquote, as modelled, is the meaning of a literal. *)
From Verif Require Import GoStr GoStrProofs Unquote UnquoteSpec.

Lemma in_range_iff : forall lo hi c, in_range lo hi c = true <-> (lo <= c /\ c <= hi)%N.
Proof. intros lo hi c. unfold in_range. rewrite andb_true_iff, !N.leb_le. reflexivity. Qed.
Lemma hex_val_iff : forall c d, hex_val c = Some d <-> hexdigit c d.
Proof.
  intros c d. unfold hex_val. split.
  - destruct (in_range 48 57 c) eqn:E1; [|destruct (in_range 97 102 c) eqn:E2; [|destruct (in_range 65 70 c) eqn:E3; [|discriminate]]]; intros [= <-].
    + apply in_range_iff in E1. replace c with (48 + (c - 48))%N at 1 by lia. apply HDigit. lia.
    + apply in_range_iff in E2. replace c with (97 + (c - 97))%N at 1 by lia. replace (c - 97 + 10)%N with (10 + (c - 97))%N by lia. apply HLower. lia.
    + apply in_range_iff in E3. replace c with (65 + (c - 65))%N at 1 by lia. replace (c - 65 + 10)%N with (10 + (c - 65))%N by lia. apply HUpper. lia.
  - assert (R : forall lo hi x, (x < lo \/ hi < x)%N -> in_range lo hi x = false) by (intros lo hi x H; destruct (in_range lo hi x) eqn:E; [apply in_range_iff in E; lia|reflexivity]).
    intro H. destruct H as [d H|d H|d H].
    + rewrite (proj2 (in_range_iff 48 57 (48 + d))) by lia. f_equal. lia.
    + rewrite R by lia. rewrite (proj2 (in_range_iff 97 102 (97 + d))) by lia. f_equal. lia.
    + rewrite R by lia. rewrite R by lia. rewrite (proj2 (in_range_iff 65 70 (65 + d))) by lia. f_equal. lia.
Qed.
Lemma hex_digits_iff : forall n s acc v rest, hex_digits n s acc = Some (v, rest) <->
  exists cs ds, s = cs ++ rest /\ Forall2 hexdigit cs ds /\ length ds = n /\ v = (acc * 16 ^ N.of_nat n + number 16 ds)%N.
Proof.
  induction n as [|n IH]; intros s acc v rest; cbn [hex_digits].
  - split.
    + intros [= <- <-]. exists [], []. split; [reflexivity|]. split; [constructor|]. split; [reflexivity|]. cbn. lia.
    + intros (cs & ds & -> & H & L & ->). destruct ds; [|discriminate]. inversion H; subst. cbn [app]. do 2 f_equal. cbn. lia.
  - destruct s as [|c s].
    + split; [discriminate|]. intros (cs & ds & E & H & L & _). destruct ds as [|d ds]; [discriminate|]. inversion H; subst. discriminate.
    + destruct (hex_val c) as [d|] eqn:Ed.
      * rewrite IH. split.
        -- intros (cs & ds & -> & H & L & ->). exists (c :: cs), (d :: ds). split; [reflexivity|]. split; [constructor; [apply hex_val_iff; exact Ed|exact H]|]. split; [cbn; lia|].
           cbn [number]. rewrite L, Nat2N.inj_succ, N.pow_succ_r'. lia.
        -- intros (cs & ds & E & H & L & ->). destruct ds as [|d' ds]; [discriminate|]. inversion H as [|c' d'' cs' ds' Hc Hcs]; subst. cbn [app] in E. injection E as <- ->.
           apply hex_val_iff in Hc. rewrite Ed in Hc. injection Hc as <-. exists cs', ds. split; [reflexivity|]. split; [exact Hcs|]. cbn [length] in L. injection L as L. split; [exact L|].
           cbn [number]. rewrite L, Nat2N.inj_succ, N.pow_succ_r'. lia.
      * split; [discriminate|]. intros (cs & ds & E & H & L & _). destruct ds as [|d' ds]; [discriminate|]. inversion H as [|c' d'' cs' ds' Hc Hcs]; subst. cbn [app] in E. injection E as <- ->. apply hex_val_iff in Hc. congruence.
Qed.
Lemma byte_rune_char : forall b, byte_rune b = byte_char b.
Proof. reflexivity. Qed.
Lemma oct_digit : forall c, in_range 48 55 c = true <-> octdigit c (c - 48).
Proof.
  intro c. rewrite in_range_iff. split.
  - intro H. replace c with (48 + (c - 48))%N at 1 by lia. constructor. lia.
  - intro H. inversion H. lia.
Qed.
Lemma octdigit_val : forall c d, octdigit c d -> d = (c - 48)%N.
Proof. intros c d H. inversion H. lia. Qed.
Lemma number4 : forall ds, Forall (fun d => (d < 16)%N) ds -> length ds = 4 -> (number 16 ds <= 1114111)%N.
Proof.
  intros ds H L. destruct ds as [|a [|b [|c [|d [|e ds]]]]]; try discriminate. repeat match goal with H : Forall _ (_ :: _) |- _ => inversion H; clear H; subst end. cbn. lia.
Qed.
Lemma hexdigit_small : forall cs ds, Forall2 hexdigit cs ds -> Forall (fun d => (d < 16)%N) ds.
Proof. intros cs ds H. induction H as [|c d cs ds H _ IH]; constructor; [destruct H; lia|exact IH]. Qed.
Lemma code_rune_iff : forall v r, code_rune v = Some r <-> (v <= 1114111)%N /\ r = code_char v.
Proof.
  intros v r. unfold code_rune. destruct (N.ltb_spec 1114111 v) as [H|H].
  - split; [discriminate|]. intros [K _]. lia.
  - split; [intros [= <-]; split; [exact H|reflexivity]|intros [_ ->]; reflexivity].
Qed.

Theorem unquote_escape_iff : forall c s r rest, unquote_escape c s = Some (r, rest) <-> exists e, c :: s = e ++ rest /\ escape e r.
Proof.
  intros c s r rest. split.
  - unfold unquote_escape. intro H.
    repeat match type of H with
    | (if N.eqb c ?k then Some _ else _) = _ => destruct (N.eqb_spec c k) as [->|?]; [injection H as <- <-; eexists [_]; split; [reflexivity|]; apply EscLetter; cbn; tauto|]
    end.
    destruct (N.eqb_spec c 120) as [->|?].
    { destruct (hex_digits 2 s 0) as [[v s']|] eqn:E; [|discriminate]. injection H as <- <-. apply hex_digits_iff in E. destruct E as (cs & ds & -> & H & L & ->). exists (120%N :: cs). split; [reflexivity|].
      rewrite byte_rune_char. rewrite N.mul_0_l, N.add_0_l. apply EscHex; assumption. }
    destruct (N.eqb_spec c 117) as [->|?].
    { destruct (hex_digits 4 s 0) as [[v s']|] eqn:E; [|discriminate]. destruct (code_rune v) as [r'|] eqn:Er; [|discriminate]. injection H as <- <-. apply hex_digits_iff in E. destruct E as (cs & ds & -> & H & L & ->). exists (117%N :: cs). split; [reflexivity|].
      rewrite N.mul_0_l, N.add_0_l in Er. apply code_rune_iff in Er. destruct Er as [_ ->]. apply EscU4; assumption. }
    destruct (N.eqb_spec c 85) as [->|?].
    { destruct (hex_digits 8 s 0) as [[v s']|] eqn:E; [|discriminate]. destruct (code_rune v) as [r'|] eqn:Er; [|discriminate]. injection H as <- <-. apply hex_digits_iff in E. destruct E as (cs & ds & -> & H & L & ->). exists (85%N :: cs). split; [reflexivity|].
      rewrite N.mul_0_l, N.add_0_l in Er. apply code_rune_iff in Er. destruct Er as [Er ->]. apply EscU8; assumption. }
    destruct (in_range 48 55 c) eqn:Ec.
    { destruct s as [|d1 [|d2 s]]; try discriminate. destruct (in_range 48 55 d1 && in_range 48 55 d2) eqn:E12; [|discriminate]. apply andb_prop in E12. destruct E12 as [E1 E2]. cbv zeta in H.
      destruct (N.ltb_spec 255 ((c - 48) * 64 + (d1 - 48) * 8 + (d2 - 48))) as [K|K]; [discriminate|]. injection H as <- <-. exists [c; d1; d2]. split; [reflexivity|].
      replace ((c - 48) * 64 + (d1 - 48) * 8 + (d2 - 48))%N with (number 8 [c - 48; d1 - 48; d2 - 48]%N) in * by (cbn; lia). rewrite byte_rune_char. apply EscOct; [|reflexivity|exact K].
      constructor; [apply oct_digit; exact Ec|]. constructor; [apply oct_digit; exact E1|]. constructor; [apply oct_digit; exact E2|constructor]. }
    destruct (N.eqb_spec c c_backslash) as [->|?]; [injection H as <- <-; eexists [_]; split; [reflexivity|]; apply EscLetter; cbn; tauto|].
    destruct (N.eqb_spec c c_dquote) as [->|?]; [injection H as <- <-; eexists [_]; split; [reflexivity|]; apply EscLetter; cbn; tauto|]. discriminate.
  - intros (e & E & H). destruct H as [k v H|cs ds H L|cs ds H L Hv|cs ds H L|cs ds H L Hv].
    + cbn [app] in E. injection E as -> ->. cbn in H. repeat destruct H as [H|H]; try contradiction; injection H as <- <-; reflexivity.
    + cbn [app] in E. injection E as -> ->. unfold unquote_escape. cbn [N.eqb Pos.eqb].
      rewrite (proj2 (hex_digits_iff 2 (cs ++ rest) 0 (number 16 ds) rest)); [reflexivity|]. exists cs, ds. split; [reflexivity|]. split; [exact H|]. split; [exact L|]. lia.
    + destruct ds as [|a [|b [|d [|y ds]]]]; try discriminate. inversion H as [|x0 a' l1 m1 H0 G1]; subst. inversion G1 as [|x1 b' l2 m2 H1 G2]; subst. inversion G2 as [|x2 d' l3 m3 H2 G3]; subst. inversion G3; subst.
      cbn [app] in E. injection E as -> ->. pose proof (octdigit_val _ _ H0). pose proof (octdigit_val _ _ H1). pose proof (octdigit_val _ _ H2). subst a b d.
      pose proof (proj1 (in_range_iff _ _ _) (proj2 (oct_digit _) H0)) as R. assert (Q : forall k, (55 < k)%N -> N.eqb x0 k = false) by (intros k Hk; apply N.eqb_neq; lia).
      unfold unquote_escape. rewrite (Q 97%N), (Q 98%N), (Q 102%N), (Q 110%N), (Q 114%N), (Q 116%N), (Q 118%N), (Q 120%N), (Q 117%N), (Q 85%N) by lia.
      rewrite (proj2 (oct_digit _) H0), (proj2 (oct_digit _) H1), (proj2 (oct_digit _) H2). cbn [andb]. cbv zeta.
      replace ((x0 - 48) * 64 + (x1 - 48) * 8 + (x2 - 48))%N with (number 8 [x0 - 48; x1 - 48; x2 - 48]%N) by (cbn; lia). destruct (N.ltb_spec 255 (number 8 [x0 - 48; x1 - 48; x2 - 48]%N)) as [K|K]; [lia|]. reflexivity.
    + cbn [app] in E. injection E as -> ->. unfold unquote_escape. cbn [N.eqb Pos.eqb].
      rewrite (proj2 (hex_digits_iff 4 (cs ++ rest) 0 (number 16 ds) rest)); [|exists cs, ds; split; [reflexivity|]; split; [exact H|]; split; [exact L|]; lia].
      rewrite (proj2 (code_rune_iff _ _) (conj (number4 ds (hexdigit_small _ _ H) L) eq_refl)). reflexivity.
    + cbn [app] in E. injection E as -> ->. unfold unquote_escape. cbn [N.eqb Pos.eqb].
      rewrite (proj2 (hex_digits_iff 8 (cs ++ rest) 0 (number 16 ds) rest)); [|exists cs, ds; split; [reflexivity|]; split; [exact H|]; split; [exact L|]; lia].
      rewrite (proj2 (code_rune_iff _ _) (conj Hv eq_refl)). reflexivity.
Qed.
Lemma unquote_escape_shorter : forall c s r rest, unquote_escape c s = Some (r, rest) -> length rest <= length s.
Proof.
  intros c s r rest H. apply unquote_escape_iff in H. destruct H as (e & E & H). assert (K : 1 <= length e).
  { destruct H as [| | cs ds H L _| |]; cbn; try lia. destruct H; [discriminate|cbn; lia]. }
  assert (length (c :: s) = length (e ++ rest)) by (rewrite E; reflexivity). rewrite app_length in *. cbn [length] in *. lia.
Qed.
Lemma unquote_body_iff : forall fuel s v, length s < fuel -> (unquote_body fuel s = Some v <-> denotes s v).
Proof.
  induction fuel as [|fuel IH]; intros s v Hl; [lia|]. cbn [unquote_body]. destruct s as [|c s].
  - split; [intros [= <-]; constructor|]. intro H. inversion H. reflexivity.
  - cbn [length] in Hl. destruct (N.eqb_spec c c_nl) as [->|N1]; [split; [discriminate|]; intro H; inversion H; subst; unfold c_nl, c_dquote, c_backslash in *; congruence|].
    destruct (N.eqb_spec c c_dquote) as [->|N2]; [split; [discriminate|]; intro H; inversion H; subst; unfold c_nl, c_dquote, c_backslash in *; congruence|].
    destruct (N.eqb_spec c c_backslash) as [->|N3].
    + destruct s as [|d s].
      * split; [discriminate|]. intro H. inversion H as [|c' s' v' K1 K2 K3|e r s' v' He Hs E1]; subst; [exfalso; apply K3; reflexivity|]. apply app_eq_nil in E1. destruct E1 as [-> _]. inversion He; subst. destruct ds; [discriminate|]. inversion H0.
      * split.
        -- intro H. destruct (unquote_escape d s) as [[r rest]|] eqn:E; [|discriminate]. destruct (unquote_body fuel rest) as [w|] eqn:E2; [|discriminate]. injection H as <-.
           pose proof (unquote_escape_shorter _ _ _ _ E) as Ls. apply unquote_escape_iff in E. destruct E as (e & -> & He). constructor; [exact He|]. apply IH; [cbn [length] in Hl; lia|exact E2].
        -- intro H. inversion H as [|c' s' v' K1 K2 K3|e r s' v' He Hs E1]; subst; [exfalso; apply K3; reflexivity|].
           assert (E : unquote_escape d s = Some (r, s')) by (apply unquote_escape_iff; exists e; split; [symmetry; assumption|exact He]). rewrite E. pose proof (unquote_escape_shorter _ _ _ _ E) as Ls.
           rewrite (proj2 (IH s' v' ltac:(cbn [length] in Hl; lia)) Hs). reflexivity.
    + split.
      * intro H. destruct (unquote_body fuel s) as [w|] eqn:E; [|discriminate]. injection H as <-. apply IH in E; [|lia]. constructor; assumption.
      * intro H. inversion H as [|c' s' v' K1 K2 K3 Hs|e r s' v' He Hs E1]; subst; [|exfalso; apply N3; reflexivity]. rewrite (proj2 (IH s v' ltac:(lia)) Hs). reflexivity.
Qed.
(** A literal has a value exactly if it is a double-quoted body that denotes it. *)
Theorem unquote_iff : forall s v, unquote s = Some v <-> exists body, s = [c_dquote] ++ body ++ [c_dquote] /\ denotes body v.
Proof.
  intros s v. unfold unquote. split.
  - destruct s as [|q rest]; [discriminate|]. destruct (N.eqb_spec q c_dquote) as [->|?]; [|discriminate]. destruct (rev rest) as [|q2 b] eqn:E; [discriminate|]. destruct (N.eqb_spec q2 c_dquote) as [->|?]; [|discriminate].
    intro H. exists (rev b). split; [rewrite <- (rev_involutive rest), E; reflexivity|]. apply unquote_body_iff in H; [exact H|]. rewrite rev_length. lia.
  - intros (body & -> & H). cbn [app]. rewrite N.eqb_refl. rewrite rev_app_distr. cbn [rev app]. rewrite N.eqb_refl, rev_involutive. apply unquote_body_iff; [rewrite rev_length; lia|exact H].
Qed.
