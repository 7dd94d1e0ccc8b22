From Verif Require Import GoStr GoStrProofs GoMap Decimals SvcTypes Strs HttpSpec HttpTransport HttpTypes Url GenHttp GenHttpSpec GenHttpProofs2 DecodeSpec.

(** ** Texts *)
Lemma digits_val_some : forall s acc n, digits_val acc s = Some n <-> Forall (fun c => (48 <= c <= 57)%N) s /\ fold_left (fun a c => (10 * a + (Z.of_N c - 48))%Z) s (Z.of_N acc) = Z.of_N n.
Proof.
  induction s as [|c s IH]; intros acc n; cbn [digits_val fold_left].
  - split; [intros [= ->]; split; [constructor|reflexivity]|]. intros [_ H]. apply N2Z.inj in H. congruence.
  - destruct (is_digit c) eqn:E.
    + unfold is_digit, in_range in E. apply andb_true_iff in E. destruct E as [E1 E2]. apply N.leb_le in E1, E2. rewrite IH.
      replace (Z.of_N (10 * acc + (c - 48))) with (10 * Z.of_N acc + (Z.of_N c - 48))%Z by lia. split; intros [H1 H2].
      * split; [constructor; [split; assumption|exact H1]|exact H2].
      * inversion H1; subst. split; assumption.
    + split; [discriminate|]. intros [H _]. inversion H as [|x y [A B] _]; subst. unfold is_digit, in_range in E. apply andb_false_iff in E.
      destruct E as [E|E]; apply N.leb_gt in E; lia.
Qed.
Lemma fold_nonneg : forall s a, (0 <= a)%Z -> Forall (fun c => (48 <= c <= 57)%N) s -> (0 <= fold_left (fun a c => (10 * a + (Z.of_N c - 48))%Z) s a)%Z.
Proof. induction s as [|c s IH]; intros a Ha H; [exact Ha|]. inversion H; subst. cbn [fold_left]. apply IH; [lia|assumption]. Qed.
Lemma dec_nonneg : forall d, digits d -> (0 <= dec_value d)%Z.
Proof. intros d [_ H]. apply fold_nonneg; [lia|exact H]. Qed.
Lemma parse_uint_iff : forall bits s z, parse_uint bits s = Some z <-> digits s /\ z = dec_value s /\ (z < 2 ^ Z.of_nat bits)%Z.
Proof.
  intros bits s z. unfold parse_uint. destruct s as [|c s]; [split; [discriminate|intros [[H _] _]; congruence]|]. set (t := c :: s). fold t.
  assert (Ht : t <> []) by discriminate.
  assert (Hb : Z.of_N (2 ^ N.of_nat bits) = (2 ^ Z.of_nat bits)%Z) by (rewrite N2Z.inj_pow, nat_N_Z; reflexivity).
  destruct (digits_val 0 t) as [n|] eqn:E.
  - apply digits_val_some in E. destruct E as [E1 E2]. change (Z.of_N 0) with 0%Z in E2. fold (dec_value t) in E2. destruct (N.ltb_spec n (2 ^ N.of_nat bits)) as [L|L].
    + split; [intros [= <-]; split; [split; assumption|]; split; [symmetry; exact E2|lia]|]. intros (_ & -> & _). rewrite E2. reflexivity.
    + split; [discriminate|]. intros (_ & -> & H). rewrite E2 in H. lia.
  - split; [discriminate|]. intros ([_ H] & -> & _). exfalso. pose proof (fold_nonneg t 0 ltac:(lia) H) as P.
    assert (K : digits_val 0 t = Some (Z.to_N (dec_value t))) by (apply digits_val_some; split; [exact H|]; rewrite Z2N.id by exact P; reflexivity). congruence.
Qed.
Lemma digits_sign : forall d c, digits (c :: d) -> c <> c_dash /\ c <> 43%N.
Proof. intros d c [_ H]. inversion H; subst. change c_dash with 45%N. lia. Qed.
Lemma parse_int_iff : forall bits s z, 0 < bits <= 64 -> (parse_int bits s = Some z <-> signed s z /\ (- 2 ^ (Z.of_nat bits - 1) <= z < 2 ^ (Z.of_nat bits - 1))%Z).
Proof.
  intros bits s z Hb. assert (Hp : (0 < 2 ^ (Z.of_nat bits - 1) <= 2 ^ 63)%Z) by (split; [apply Z.pow_pos_nonneg; lia|apply Z.pow_le_mono_r; lia]).
  assert (H63 : (2 ^ 63 < 2 ^ Z.of_nat 64)%Z) by reflexivity. set (B := (2 ^ (Z.of_nat bits - 1))%Z) in *.
  destruct s as [|c s]; [split; [discriminate|]; intros [H _]; inversion H as [d Hd| |]; subst; destruct Hd; congruence|].
  unfold parse_int. destruct (N.eqb_spec c c_dash) as [->|N1]; cbn [orb].
  - destruct (parse_uint 64 s) as [n|] eqn:E.
    + apply parse_uint_iff in E. destruct E as (D & -> & L). pose proof (dec_nonneg s D). fold B. destruct (Z.leb_spec (dec_value s) B) as [L2|L2].
      * split; [intros [= <-]; split; [exact (SgMinus s D)|lia]|]. intros [H1 _]. inversion H1 as [d Hd E1 E2|d Hd E1 E2|d Hd E1 E2]; subst; [|reflexivity].
        exfalso. destruct (digits_sign _ _ Hd). congruence.
      * split; [discriminate|]. intros [H1 H2]. inversion H1 as [d Hd E1 E2|d Hd E1 E2|d Hd E1 E2]; subst; [|lia]. exfalso. destruct (digits_sign _ _ Hd). congruence.
    + split; [discriminate|]. intros [H1 H2]. inversion H1 as [d Hd E1 E2|d Hd E1 E2|d Hd E1 E2]; subst; [exfalso; destruct (digits_sign _ _ Hd); congruence|].
      exfalso. assert (K : parse_uint 64 s = Some (dec_value s)) by (apply parse_uint_iff; split; [exact Hd|]; split; [reflexivity|lia]). congruence.
  - destruct (N.eqb_spec c 43) as [->|N2].
    + destruct (parse_uint 64 s) as [n|] eqn:E.
      * apply parse_uint_iff in E. destruct E as (D & -> & L). pose proof (dec_nonneg s D). fold B. destruct (Z.ltb_spec (dec_value s) B) as [L2|L2].
        -- split; [intros [= <-]; split; [exact (SgPlus s D)|lia]|]. intros [H1 _]. inversion H1 as [d Hd E1 E2|d Hd E1 E2|d Hd E1 E2]; subst; [|reflexivity].
           exfalso. destruct (digits_sign _ _ Hd). congruence.
        -- split; [discriminate|]. intros [H1 H2]. inversion H1 as [d Hd E1 E2|d Hd E1 E2|d Hd E1 E2]; subst; [|lia]. exfalso. destruct (digits_sign _ _ Hd). congruence.
      * split; [discriminate|]. intros [H1 H2]. inversion H1 as [d Hd E1 E2|d Hd E1 E2|d Hd E1 E2]; subst; [exfalso; destruct (digits_sign _ _ Hd); congruence|].
        exfalso. assert (K : parse_uint 64 s = Some (dec_value s)) by (apply parse_uint_iff; split; [exact Hd|]; split; [reflexivity|lia]). congruence.
    + destruct (parse_uint 64 (c :: s)) as [n|] eqn:E.
      * apply parse_uint_iff in E. destruct E as (D & -> & L). pose proof (dec_nonneg _ D). fold B. destruct (Z.ltb_spec (dec_value (c :: s)) B) as [L2|L2].
        -- split; [intros [= <-]; split; [exact (SgNone _ D)|lia]|]. intros [H1 _]. inversion H1 as [d Hd E1 E2|d Hd E1 E2|d Hd E1 E2]; subst; [reflexivity|exfalso; apply N2; reflexivity|exfalso; apply N1; reflexivity].
        -- split; [discriminate|]. intros [H1 H2]. inversion H1 as [d Hd E1 E2|d Hd E1 E2|d Hd E1 E2]; subst; [lia|exfalso; apply N2; reflexivity|exfalso; apply N1; reflexivity].
      * split; [discriminate|]. intros [H1 H2]. inversion H1 as [d Hd E1 E2|d Hd E1 E2|d Hd E1 E2]; subst; [|exfalso; apply N2; reflexivity|exfalso; apply N1; reflexivity].
        exfalso. assert (K : parse_uint 64 (c :: s) = Some (dec_value (c :: s))) by (apply parse_uint_iff; split; [exact Hd|]; split; [reflexivity|lia]). congruence.
Qed.
Lemma existsb_In : forall s l, existsb (str_eqb s) l = true <-> In s l.
Proof.
  intros s l. rewrite existsb_exists. split; [intros (x & Hx & E); apply str_eqb_eq in E; subst; exact Hx|]. intro H. exists s. split; [exact H|apply str_eqb_refl].
Qed.
Lemma parse_scalar_reads : forall K n p s v, scalar_table n = Some p -> (parse_scalar K p s = Some v <-> reads K n s v).
Proof.
  intros K n p s v H. unfold scalar_table in H.
  destruct (str_eqb_spec n (T "uint32")) as [->|_]; [injection H as <-|destruct (str_eqb_spec n (T "uint64")) as [->|_]; [injection H as <-|
  destruct (str_eqb_spec n (T "int32")) as [->|_]; [injection H as <-|destruct (str_eqb_spec n (T "int64")) as [->|_]; [injection H as <-|
  destruct (str_eqb_spec n (T "bool")) as [->|_]; [injection H as <-|destruct (str_eqb_spec n (T "float32")) as [->|_]; [injection H as <-|
  destruct (str_eqb_spec n (T "float64")) as [->|_]; [injection H as <-|destruct (str_eqb_spec n (T "string")) as [->|_]; [injection H as <-|discriminate]]]]]]]];
  cbn [parse_scalar].
  - split.
    + intro E. destruct (parse_uint 32 s) as [z|] eqn:Ez; [|discriminate]. injection E as <-. apply parse_uint_iff in Ez. destruct Ez as (D & -> & L). apply RdU32; assumption.
    + intro E. inversion E; subst; try discriminate. match goal with D : digits ?x |- _ => assert (Q : parse_uint 32 x = Some (dec_value x)) by (apply parse_uint_iff; split; [exact D|]; split; [reflexivity|assumption]) end. rewrite Q. reflexivity.
  - split.
    + intro E. destruct (parse_uint 64 s) as [z|] eqn:Ez; [|discriminate]. injection E as <-. apply parse_uint_iff in Ez. destruct Ez as (D & -> & L). apply RdU64; assumption.
    + intro E. inversion E; subst; try discriminate. match goal with D : digits ?x |- _ => assert (Q : parse_uint 64 x = Some (dec_value x)) by (apply parse_uint_iff; split; [exact D|]; split; [reflexivity|assumption]) end. rewrite Q. reflexivity.
  - split.
    + intro E. destruct (parse_int 32 s) as [z|] eqn:Ez; [|discriminate]. injection E as <-. apply parse_int_iff in Ez; [|lia]. destruct Ez as (D & L). apply RdI32; assumption.
    + intro E. inversion E; subst; try discriminate. match goal with D : signed ?x ?z |- _ => assert (Q : parse_int 32 x = Some z) by (apply parse_int_iff; [lia|]; split; assumption) end. rewrite Q. reflexivity.
  - split.
    + intro E. destruct (parse_int 64 s) as [z|] eqn:Ez; [|discriminate]. injection E as <-. apply parse_int_iff in Ez; [|lia]. destruct Ez as (D & L). apply RdI64; assumption.
    + intro E. inversion E; subst; try discriminate. match goal with D : signed ?x ?z |- _ => assert (Q : parse_int 64 x = Some z) by (apply parse_int_iff; [lia|]; split; assumption) end. rewrite Q. reflexivity.
  - split.
    + intro E. destruct (existsb _ _) eqn:E1 in E.
      * injection E as <-. apply existsb_In in E1. apply RdTrue. cbn [In] in *. tauto.
      * destruct (existsb _ _) eqn:E2 in E; [|discriminate]. injection E as <-. apply existsb_In in E2. apply RdFalse. cbn [In] in *. tauto.
    + intro E. inversion E as [| | | |s' Hs|s' Hs| | |]; subst; try discriminate.
      * cbn [In] in Hs. repeat destruct Hs as [<-|Hs]; try reflexivity. contradiction.
      * cbn [In] in Hs. repeat destruct Hs as [<-|Hs]; try reflexivity. contradiction.
  - split.
    + intro E. destruct (fl_parse K 32 s) as [z|] eqn:Ez; [|discriminate]. injection E as <-. apply RdF32. exact Ez.
    + intro E. inversion E as [| | | | | |s' f Hf|s' f Hf|]; subst; try discriminate. rewrite Hf. reflexivity.
  - split.
    + intro E. destruct (fl_parse K 64 s) as [z|] eqn:Ez; [|discriminate]. injection E as <-. apply RdF64. exact Ez.
    + intro E. inversion E as [| | | | | |s' f Hf|s' f Hf|]; subst; try discriminate. rewrite Hf. reflexivity.
  - split.
    + intros [= <-]. apply RdStr.
    + intro E. inversion E; subst; try discriminate. reflexivity.
Qed.

(** ** One field *)
Lemma table_base : forall n, In n go_base_types -> exists p, scalar_table n = Some p.
Proof. intros n H. cbn [go_base_types In] in H. repeat destruct H as [<-|H]; try (eexists; reflexivity). contradiction. Qed.
Lemma run_scalar : forall K f p arr s shadow err v e, hf_conv f = CvScalar p -> (p = PCopy \/ hf_check f = true) -> run_convert K f arr s shadow err = CVal v e ->
  parse_scalar K p s = Some v.
Proof.
  intros K f p arr s shadow err v e Hc Hk H. unfold run_convert in H. rewrite Hc in H. destruct p; try (injection H as <- _; reflexivity);
  (destruct Hk as [Hk|Hk]; [discriminate Hk|]); destruct (parse_scalar K _ s) eqn:E; try (rewrite Hk in H; discriminate); injection H as <- _; reflexivity.
Qed.
(** What the generator makes of a single scalar or enum. *)
Lemma scalar_hfield : forall meth p n, one_scalar (fd_type (pm_field p)) n ->
  exists q, scalar_table n = Some q /\ hf_conv (new_hfield meth p) = CvScalar q /\ (q = PCopy \/ hf_check (new_hfield meth p) = true)
  /\ forall v w, run_tconv (new_hfield meth p) (hf_tconv (new_hfield meth p)) v = Some w -> w = stored (fd_type (pm_field p)) v.
Proof.
  intros meth p n H. destruct (fd_type (pm_field p)) as [tn te tm tr to ts ta] eqn:Et. unfold new_hfield, field_shape. rewrite Et. cbn [ft_name ft_star ft_msg ft_enum ft_map ft_array hf_conv hf_check hf_tconv].
  inversion H as [n0 star Hn|n0 i Hn]; subst.
  - assert (Hb : is_go_base_type n = true) by (apply existsb_In; exact Hn). rewrite Hb. destruct (table_base n Hn) as (q & Eq). exists q. split; [exact Eq|].
    unfold create_decode_convert. cbn [sh_enum sh_rep sh_base sh_gotype negb andb orb]. rewrite Eq. split; [destruct q; reflexivity|]. split; [destruct q; auto|].
    intros v w. unfold create_decode_tconv. cbn [sh_rep sh_gotype sh_enum sh_base sh_star]. rewrite orb_false_r. unfold stored. cbn [ft_star].
    destruct ts; cbn [andb]; destruct (existsb _ _); cbn [run_tconv]; congruence.
  - exists (PInt 32). split; [reflexivity|]. unfold create_decode_convert. cbn [sh_enum sh_rep negb andb fst snd]. split; [reflexivity|]. split; [auto|].
    intros v w. unfold create_decode_tconv. cbn [sh_rep sh_gotype sh_enum sh_base sh_star]. rewrite orb_true_r. unfold stored. cbn [ft_star]. cbn [andb run_tconv]. congruence.
Qed.

(** ** The loops *)
Lemma assign_ok : forall f c r r' e, assign f c r = DOk r' e -> exists v w, c = CVal v e /\ run_tconv f (hf_tconv f) v = Some w /\ r' = upd r (hf_camel f) w.
Proof.
  intros f c r r' e H. destruct c as [v err| |]; try discriminate. cbn [assign] in H. destruct (run_tconv f (hf_tconv f) v) as [w|] eqn:E; [|discriminate].
  injection H as <- <-. exists v, w. auto.
Qed.
Lemma decode_field_other : forall K vars q f r err r' e x, decode_field K vars q f r err = DOk r' e -> x <> hf_camel f -> r' x = r x.
Proof.
  intros K vars q f r err r' e x H Hx.
  assert (U : forall w, upd r (hf_camel f) w x = r x) by (intro w; unfold upd; apply str_eqb_neq in Hx; rewrite Hx; reflexivity).
  unfold decode_field in H. destruct (str_eqb (hf_loc f) (T "path")).
  - apply assign_ok in H. destruct H as (v & w & _ & _ & ->). apply U.
  - destruct (mget q (hf_query f)) as [[|s arr]|]; [discriminate| |injection H as <- _; reflexivity]. apply assign_ok in H. destruct H as (v & w & _ & _ & ->). apply U.
Qed.
Lemma decode_fields_ok : forall K vars q fs r0 e0 r e, NoDup (map hf_camel fs) -> decode_fields K vars q fs r0 e0 = DOk r e ->
  (forall x, ~ In x (map hf_camel fs) -> r x = r0 x) /\
  forall f, In f fs -> (hf_loc f = T "body" -> r (hf_camel f) = r0 (hf_camel f)) /\
    (hf_loc f <> T "body" -> exists r1 e1 r2 e2, decode_field K vars q f r1 e1 = DOk r2 e2 /\ r1 (hf_camel f) = r0 (hf_camel f) /\ r (hf_camel f) = r2 (hf_camel f)).
Proof.
  intros K vars q. induction fs as [|f fs IH]; intros r0 e0 r e Hnd H; cbn [decode_fields] in H.
  - injection H as <- _. split; [reflexivity|intros f []].
  - cbn [map] in Hnd. inversion Hnd as [|x y Hf Hfs]; subst. destruct (str_eqb_spec (hf_loc f) (T "body")) as [Eb|Nb].
    + destruct (IH _ _ _ _ Hfs H) as [A B]. split.
      * intros x Hx. apply A. intro K1. apply Hx. right. exact K1.
      * intros g [<-|Hg].
        -- split; [intros _; apply A; exact Hf|contradiction].
        -- apply B. exact Hg.
    + destruct (decode_field K vars q f r0 e0) as [r1 e1| |] eqn:Ed; try discriminate. destruct (IH _ _ _ _ Hfs H) as [A B]. split.
      * intros x Hx. rewrite A by (intro K1; apply Hx; right; exact K1). eapply decode_field_other; [exact Ed|]. intros ->. apply Hx. left. reflexivity.
      * intros g [<-|Hg].
        -- split; [intro; contradiction|]. intros _. exists r0, e0, r1, e1. split; [exact Ed|]. split; [reflexivity|]. apply A. exact Hf.
        -- assert (Hne : hf_camel g <> hf_camel f) by (intros E; apply Hf; rewrite <- E; apply in_map; exact Hg).
           destruct (B g Hg) as [B1 B2]. pose proof (decode_field_other _ _ _ _ _ _ _ _ _ Ed Hne) as Eo. split.
           ++ intro Hb. rewrite B1 by exact Hb. exact Eo.
           ++ intro Hb. destruct (B2 Hb) as (ra & ea & rb & eb & P1 & P2 & P3). exists ra, ea, rb, eb. split; [exact P1|]. split; [congruence|exact P3].
Qed.

(** Options of a oneof all assign the field of the oneof. *)
Definition oneof_camel (c : str) (o : honeof) : Prop := Forall (fun h => hf_camel h = c) (ho_options o).
Lemma decode_oneof_other : forall K q o c r err r' e x, oneof_camel c o -> decode_oneof K q o r err = DOk r' e -> x <> c -> r' x = r x.
Proof.
  intros K q o c r err r' e x Hc H Hx. unfold decode_oneof in H.
  destruct (filter _ (ho_options o)) as [|h [|h2 l]] eqn:Ef; [injection H as <- _; reflexivity| |discriminate].
  assert (Hh : In h (ho_options o)) by (eapply proj1; apply filter_In; rewrite Ef; left; reflexivity).
  unfold oneof_camel in Hc. rewrite Forall_forall in Hc. pose proof (Hc h Hh) as Eh.
  destruct (mget q (hf_query h)) as [[|s arr]|]; try discriminate. apply assign_ok in H. destruct H as (v & w & _ & _ & ->). unfold upd. rewrite Eh.
  apply str_eqb_neq in Hx. rewrite Hx. reflexivity.
Qed.
Lemma decode_oneofs_ok : forall K q os cs r0 e0 r e, Forall2 oneof_camel cs os -> NoDup cs -> decode_oneofs K q os r0 e0 = DOk r e ->
  (forall x, ~ In x cs -> r x = r0 x) /\
  forall c o, In (c, o) (combine cs os) -> (ho_loc o <> T "query" -> r c = r0 c) /\
    (ho_loc o = T "query" -> exists r1 e1 r2 e2, decode_oneof K q o r1 e1 = DOk r2 e2 /\ r1 c = r0 c /\ r c = r2 c).
Proof.
  intros K q. induction os as [|o os IH]; intros cs r0 e0 r e H2 Hnd H; inversion H2 as [|c o' cs' os' Hc Hcs]; subst; cbn [decode_oneofs] in H.
  - injection H as <- _. split; [reflexivity|intros c o []].
  - inversion Hnd as [|x y Hx Hy]; subst. destruct (str_eqb_spec (ho_loc o) (T "query")) as [Eq|Nq].
    + destruct (decode_oneof K q o r0 e0) as [r1 e1| |] eqn:Ed; try discriminate. destruct (IH _ _ _ _ _ Hcs Hy H) as [A B]. split.
      * intros x Hx1. rewrite A by (intro K1; apply Hx1; right; exact K1). eapply decode_oneof_other; [exact Hc|exact Ed|]. intros ->. apply Hx1. left. reflexivity.
      * intros c' o' [E|Hin].
        -- injection E as <- <-. split; [intro; contradiction|]. intros _. exists r0, e0, r1, e1. split; [exact Ed|]. split; [reflexivity|]. apply A. exact Hx.
        -- assert (Hne : c' <> c) by (intros ->; apply Hx; eapply in_combine_l; exact Hin). pose proof (decode_oneof_other _ _ _ _ _ _ _ _ _ Hc Ed Hne) as Eo.
           destruct (B c' o' Hin) as [B1 B2]. split.
           ++ intro Hb. rewrite B1 by exact Hb. exact Eo.
           ++ intro Hb. destruct (B2 Hb) as (ra & ea & rb & eb & P1 & P2 & P3). exists ra, ea, rb, eb. split; [exact P1|]. split; [congruence|exact P3].
    + destruct (IH _ _ _ _ _ Hcs Hy H) as [A B]. split.
      * intros x Hx1. apply A. intro K1. apply Hx1. right. exact K1.
      * intros c' o' [E|Hin].
        -- injection E as <- <-. split; [intros _; apply A; exact Hx|intro; contradiction].
        -- apply B. exact Hin.
Qed.

(** ** What the generator makes of the parameters *)
Definition is_oneof (p : hparam) : bool := match ft_oneof (fd_type (pm_field p)) with Some _ => true | None => false end.
Lemma new_option_camel : forall ms meth fd o h, new_option ms meth fd o = Ret h -> hf_camel h = go_camel_case (fd_name fd) /\ hf_query h = fd_pbname o /\ hf_name h = fd_name o.
Proof. intros ms meth fd o h H. unfold new_option in H. destruct (ft_msg _); [|discriminate]. injection H as <-. auto. Qed.
Lemma new_options_camel : forall ms meth fd os xs, new_options ms meth fd os = Ret xs -> Forall (fun h => hf_camel h = go_camel_case (fd_name fd)) xs /\ Forall2 (fun o h => new_option ms meth fd o = Ret h) os xs.
Proof.
  induction os as [|o os IH]; intros xs H; cbn [new_options] in H; [injection H as <-; split; constructor|].
  destruct (new_option ms meth fd o) as [x| |] eqn:E; try discriminate. destruct (new_options ms meth fd os) as [ys| |] eqn:E2; try discriminate. injection H as <-.
  destruct (IH ys eq_refl) as [A B]. split; constructor; try assumption. exact (proj1 (new_option_camel _ _ _ _ _ E)).
Qed.
Lemma oneof_loop_camels : forall ms meth ps os, oneof_loop ms meth ps = Ret os -> Forall2 oneof_camel (map camel_of (filter is_oneof ps)) os
  /\ forall p fs, In p ps -> ft_oneof (fd_type (pm_field p)) = Some fs -> exists xs, new_options ms meth (pm_field p) fs = Ret xs /\
       In (camel_of p, mkHOneof (fd_name (pm_field p)) (pm_loc p) xs) (combine (map camel_of (filter is_oneof ps)) os).
Proof.
  intros ms meth. induction ps as [|p ps IH]; intros os H; cbn [oneof_loop] in H; [injection H as <-; split; [constructor|intros p fs []]|].
  cbn [filter]. destruct (ft_oneof (fd_type (pm_field p))) as [fs|] eqn:Eo.
  - assert (Ei : is_oneof p = true) by (unfold is_oneof; rewrite Eo; reflexivity). rewrite Ei. destruct (new_options ms meth (pm_field p) fs) as [xs| |] eqn:Ex; try discriminate. destruct (oneof_loop ms meth ps) as [r| |] eqn:Er; try discriminate. injection H as <-.
    destruct (IH r eq_refl) as [A B]. cbn [map]. split.
    + constructor; [|exact A]. exact (proj1 (new_options_camel _ _ _ _ _ Ex)).
    + intros p' fs' [<-|Hp] Ef; [exists xs; split; [congruence|left; reflexivity]|]. destruct (B p' fs' Hp Ef) as (ys & Ey & Hin). exists ys. split; [exact Ey|right; exact Hin].
  - assert (Ei : is_oneof p = false) by (unfold is_oneof; rewrite Eo; reflexivity). rewrite Ei. destruct (IH os H) as [A B]. split; [exact A|]. intros p' fs' [<-|Hp] Ef; [congruence|]. exact (B p' fs' Hp Ef).
Qed.
Lemma nodup_sub : forall (f : hparam -> bool) ps, NoDup (map camel_of ps) -> NoDup (map camel_of (filter f ps)).
Proof.
  intros f. induction ps as [|p ps IH]; intro H; [constructor|]. cbn [map] in H. inversion H as [|x y Hx Hy]; subst. cbn [filter]. destruct (f p); [|apply IH; exact Hy].
  cbn [map]. constructor; [|apply IH; exact Hy]. intro K. apply Hx. apply in_map_iff in K. destruct K as (z & E & Hz). apply filter_In in Hz. rewrite <- E. apply in_map. apply Hz.
Qed.
Definition plain_field (p : hparam) : bool := negb (is_oneof p) && negb (str_eqb (ft_name (fd_type (pm_field p))) []).
Lemma field_loop_plain : forall meth ps, field_loop meth ps = map (new_hfield meth) (filter plain_field ps).
Proof.
  intros meth. induction ps as [|p ps IH]; [reflexivity|]. unfold field_loop in *. cbn [flat_map filter]. unfold plain_field at 1, is_oneof.
  destruct (ft_oneof _); [exact IH|]. destruct (str_eqb _ []); cbn [negb andb app map]; [exact IH|]. f_equal. exact IH.
Qed.
Lemma same_param : forall ps p p', NoDup (map camel_of ps) -> In p ps -> In p' ps -> camel_of p = camel_of p' -> p = p'.
Proof.
  induction ps as [|a l IH]; intros p p' Hnd Hp Hp' E; [destruct Hp|]. cbn [map] in Hnd. inversion Hnd as [|x y Hx Hy]; subst.
  destruct Hp as [->|Hp], Hp' as [->|Hp']; [reflexivity| | |apply IH; assumption].
  - destruct Hx. rewrite E. apply in_map. exact Hp'.
  - destruct Hx. rewrite <- E. apply in_map. exact Hp.
Qed.
