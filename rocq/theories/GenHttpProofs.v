(** Proofs about the generated client and server. *)
From Verif Require Import GoStr GoStrProofs GoMap SplitJoin Decimals SvcTypes Strs HttpSpec HttpTransport HttpTypes HttpProofs HttpTypesProofs
  Url UrlProofs GenHttp GenHttpSpec.

(** ** Text of numbers *)
Lemma digit_small : forall c, is_digit c = true -> (48 <= c <= 57)%N.
Proof. intros c H. unfold is_digit, in_range in H. apply andb_true_iff in H. destruct H as [H1 H2]. apply N.leb_le in H1, H2. lia. Qed.
Lemma digit_num : forall c, is_digit c = true -> num_char c = true.
Proof. intros c H. unfold num_char. rewrite H. reflexivity. Qed.
Lemma itoa_chars : forall z, Forall (fun c => num_char c = true) (itoa z).
Proof.
  intro z. unfold itoa. destruct (Z.to_int z); [|apply Forall_cons; [reflexivity|]];
  (eapply Forall_impl; [|apply digit_text_digits]); apply digit_num.
Qed.
Lemma num_small : forall c, num_char c = true -> (32 < c < 127)%N.
Proof.
  intros c H. unfold num_char in H. repeat (apply orb_true_iff in H; destruct H as [H|H]);
  [apply digit_small in H; lia|..]; apply N.eqb_eq in H; subst c; unfold c_dash, c_dot; lia.
Qed.
Lemma num_bytes : forall s, Forall (fun c => num_char c = true) s -> bytes s.
Proof. intros s H. eapply Forall_impl; [|exact H]. intros c Hc. apply num_small in Hc. lia. Qed.
Lemma span_all : forall p s t, Forall (fun c => p c = true) s -> (forall c u, t = c :: u -> p c = false) -> span p (s ++ t) = (s, t).
Proof.
  intros p s t H Ht. induction H as [|c s Hc Hs IH]; cbn [app span].
  - destruct t as [|c u]; [reflexivity|]. cbn [span]. rewrite (Ht c u eq_refl). reflexivity.
  - rewrite Hc, IH. reflexivity.
Qed.
Lemma span_all_nil : forall p s, Forall (fun c => p c = true) s -> span p s = (s, []).
Proof. intros p s H. rewrite <- (app_nil_r s) at 1. apply span_all; [exact H|discriminate]. Qed.
Lemma no_leading_zero : forall n s, digit_text (N.to_uint n) = 48%N :: s -> s = [].
Proof.
  intros n s H. destruct n as [|p]; [cbn in H; injection H as <-; reflexivity|]. exfalso.
  cbn in H. pose proof (DecimalPos.Unsigned.to_uint_nonnil p) as Hn. pose proof (DecimalPos.Unsigned.to_uint_nonzero p) as Hz.
  pose proof (DecimalPos.Unsigned.to_of (Pos.to_uint p)) as E. rewrite DecimalPos.Unsigned.of_to in E. cbn [N.to_uint] in E.
  destruct (Pos.to_uint p) as [|d| | | | | | | | |] eqn:Ep; try discriminate H.
  apply (f_equal Decimal.nb_digits) in E. unfold Decimal.unorm in E. cbn [Decimal.nzhead] in E.
  assert (L : forall d, Decimal.nb_digits (Decimal.nzhead d) <= Decimal.nb_digits d).
  { induction d0; cbn; lia. }
  specialize (L d). destruct (Decimal.nzhead d) eqn:En; cbn in *; try lia.
  apply Hz. f_equal. destruct d; cbn in E; try lia; reflexivity.
Qed.
Lemma itoa_of_abs : forall z, itoa z = digit_text (N.to_uint (Z.abs_N z)) \/ (z < 0)%Z /\ itoa z = c_dash :: digit_text (N.to_uint (Z.abs_N z)).
Proof. intros [|p|p]; [left; reflexivity|left; reflexivity|right; split; [lia|reflexivity]]. Qed.
Lemma itoa_ne : forall z, itoa z <> [].
Proof. intro z. destruct (itoa_of_abs z) as [E|[_ E]]; rewrite E; [apply to_uint_ne|discriminate]. Qed.
Lemma digits_json : forall n, exists c s, digit_text (N.to_uint n) = c :: s /\ (negb (N.eqb c 48) || match s with [] => true | _ => false end) = true /\ c <> c_dash.
Proof.
  intro n. destruct (digit_text (N.to_uint n)) as [|c s] eqn:E; [destruct (to_uint_ne n E)|]. exists c, s. split; [reflexivity|]. split.
  - destruct (N.eqb_spec c 48) as [->|]; [|reflexivity]. apply no_leading_zero in E. subst s. reflexivity.
  - pose proof (digit_text_digits (N.to_uint n)) as H. rewrite E in H. inversion H as [|x l Hc Hl]; subst. intros ->. discriminate.
Qed.
Lemma json_number_itoa : forall z, json_number (itoa z) = true.
Proof.
  intro z. destruct (digits_json (Z.abs_N z)) as (c & s & E & Hz & Hd).
  assert (Hs : span is_digit (c :: s) = (c :: s, [])) by (apply span_all_nil; rewrite <- E; apply digit_text_digits).
  destruct (itoa_of_abs z) as [E2|[_ E2]]; rewrite E2, E; unfold json_number.
  - apply N.eqb_neq in Hd. rewrite Hd, Hs, Hz. reflexivity.
  - rewrite N.eqb_refl, Hs, Hz. reflexivity.
Qed.

(** ** Scalars *)
Section R.
Variable K : codecs.
Lemma scalar_rt : forall n v, scalar_val K n v -> exists p, scalar_table n = Some p /\ parse_scalar K p (sprint K n v) = Some v
  /\ bytes (sprint K n v) /\ In n go_base_types /\ contains n (T "[]byte") = false
  /\ (forall s, p = PCopy -> v = VS s -> sprint K n v = s) /\ (p = PCopy <-> n = T "string").
Proof.
  intros n v H. assert (Hn : In n go_base_types) by (destruct H; unfold go_base_types; cbn [In]; auto 10).
  assert (Hc : contains n (T "[]byte") = false) by (apply no_byte; exact Hn).
  destruct H as [z H|z H|z H|z H|b|f H1 H2|f H1 H2|s H]; eexists; (split; [reflexivity|]).
  - cbn [parse_scalar sprint]. rewrite <- (Z2N.id z) by lia. rewrite parse_uint_itoa by (apply N2Z.inj_lt; rewrite Z2N.id by lia; exact (proj2 H)).
    split; [reflexivity|]. split; [apply num_bytes, itoa_chars|]. split; [exact Hn|]. split; [exact Hc|]. split; [discriminate|]. split; discriminate.
  - cbn [parse_scalar sprint]. rewrite <- (Z2N.id z) by lia. rewrite parse_uint_itoa by (apply N2Z.inj_lt; rewrite Z2N.id by lia; exact (proj2 H)).
    split; [reflexivity|]. split; [apply num_bytes, itoa_chars|]. split; [exact Hn|]. split; [exact Hc|]. split; [discriminate|]. split; discriminate.
  - cbn [parse_scalar sprint]. rewrite parse_int_itoa by (try exact H; lia).
    split; [reflexivity|]. split; [apply num_bytes, itoa_chars|]. split; [exact Hn|]. split; [exact Hc|]. split; [discriminate|]. split; discriminate.
  - cbn [parse_scalar sprint]. rewrite parse_int_itoa by (try exact H; lia).
    split; [reflexivity|]. split; [apply num_bytes, itoa_chars|]. split; [exact Hn|]. split; [exact Hc|]. split; [discriminate|]. split; discriminate.
  - split; [destruct b; reflexivity|]. split; [destruct b; cbn; repeat (apply Forall_cons; [reflexivity|]); apply Forall_nil|].
    split; [exact Hn|]. split; [exact Hc|]. split; [discriminate|]. split; discriminate.
  - cbn [parse_scalar sprint]. change (width (T "float32")) with 32. rewrite H1.
    split; [reflexivity|]. split; [exact H2|]. split; [exact Hn|]. split; [exact Hc|]. split; [discriminate|]. split; discriminate.
  - cbn [parse_scalar sprint]. change (width (T "float64")) with 64. rewrite H1.
    split; [reflexivity|]. split; [exact H2|]. split; [exact Hn|]. split; [exact Hc|]. split; [discriminate|]. split; discriminate.
  - cbn [parse_scalar sprint]. split; [reflexivity|]. split; [exact H|]. split; [exact Hn|]. split; [exact Hc|]. split; [congruence|]. split; reflexivity.
Qed.
Lemma enum_rt : forall z, (- 2 ^ 31 <= z < 2 ^ 31)%Z -> parse_scalar K (PInt 32) (itoa z) = Some (VZ z).
Proof. intros z H. cbn [parse_scalar]. rewrite parse_int_itoa by (try exact H; lia). reflexivity. Qed.

(** A lone number in a repeated field: the bare text is no JSON array, the bracketed text is. *)
Lemma skip_ws_num : forall s t, s <> [] -> Forall (fun c => num_char c = true) s -> skip_ws (s ++ t) = s ++ t.
Proof.
  intros [|c s] t Hne H; [congruence|]. inversion H as [|x l Hc Hs]; subst. cbn [app skip_ws].
  apply num_small in Hc. unfold json_ws.
  assert (N.eqb c 32 = false) as -> by (apply N.eqb_neq; lia). assert (N.eqb c 9 = false) as -> by (apply N.eqb_neq; lia).
  assert (N.eqb c 10 = false) as -> by (apply N.eqb_neq; lia). assert (N.eqb c 13 = false) as -> by (apply N.eqb_neq; lia). reflexivity.
Qed.
Lemma num_not : forall c s k, Forall (fun c => num_char c = true) (c :: s) -> num_char k = false -> N.eqb c k = false.
Proof. intros c s k H Hk. inversion H as [|x l Hc Hs]; subst. apply N.eqb_neq. intros ->. congruence. Qed.
Lemma num_no_null : forall s t, s <> [] -> Forall (fun c => num_char c = true) s -> has_prefix (s ++ t) (T "null") = false.
Proof.
  intros [|c s] t Hne H; [congruence|]. change (T "null") with [110; 117; 108; 108]%N. cbn [app has_prefix]. rewrite N.eqb_sym. rewrite (num_not _ _ 110 H eq_refl). reflexivity.
Qed.
Lemma bare_num : forall p s, s <> [] -> Forall (fun c => num_char c = true) s -> json_slice K p s = None.
Proof.
  intros p s Hne H. unfold json_slice. rewrite <- (app_nil_r s). rewrite skip_ws_num by assumption.
  pose proof (num_no_null s [] Hne H) as Hn. rewrite app_nil_r in *. destruct s as [|c s]; [congruence|].
  rewrite (num_not _ _ 91 H eq_refl). rewrite Hn. reflexivity.
Qed.
Lemma lone_slice : forall p s v, s <> [] -> Forall (fun c => num_char c = true) s ->
  json_elem K p (s ++ [93%N]) = Some (v, [93%N]) -> json_slice K p ([91%N] ++ s ++ [93%N]) = Some [v].
Proof.
  intros p s v Hne H He. cbn [app]. unfold json_slice. change (skip_ws (91%N :: s ++ [93%N])) with (91%N :: s ++ [93%N]).
  change (N.eqb 91 91) with true. cbn iota. rewrite skip_ws_num by assumption.
  destruct (s ++ [93%N]) as [|d r] eqn:E; [destruct s; discriminate|].
  assert (N.eqb d 93 = false) as ->.
  { destruct s as [|c s]; [congruence|]. cbn in E. injection E as -> _. exact (num_not _ _ 93 H eq_refl). }
  cbn [json_elems length]. rewrite <- E in *. rewrite skip_ws_num by assumption. rewrite He. reflexivity.
Qed.
Lemma elem_num : forall p s v, s <> [] -> Forall (fun c => num_char c = true) s -> json_number s = true ->
  parse_scalar K p s = Some v -> (match p with PBool | PCopy => False | _ => True end) -> json_elem K p (s ++ [93%N]) = Some (v, [93%N]).
Proof.
  intros p s v Hne H Hj Hp Hk. unfold json_elem. rewrite num_no_null by assumption.
  assert (Hs : span num_char (s ++ [93%N]) = (s, [93%N])) by (apply span_all; [exact H|]; intros c u E; injection E as <- <-; reflexivity).
  destruct p; try destruct Hk; rewrite Hs, Hj; cbn [parse_scalar] in Hp;
  [destruct (parse_uint _ _)|destruct (parse_int _ _)|destruct (fl_parse _ _ _)]; try discriminate Hp; cbn in Hp; injection Hp as <-; reflexivity.
Qed.
Lemma json_number_ne : forall s, json_number s = true -> s <> [].
Proof. intros s H ->. discriminate. Qed.
Lemma lone_rt : forall n v p, scalar_val K n v -> lone_ok K n v -> scalar_table n = Some p ->
  json_slice K p (sprint K n v) = None /\ json_slice K p ([91%N] ++ sprint K n v ++ [93%N]) = Some [v].
Proof.
  intros n v p H Hl Hp. destruct (scalar_rt n v H) as (p' & Ep & Er & _). rewrite Hp in Ep. injection Ep as <-.
  assert (Num : forall s, json_number s = true -> Forall (fun c => num_char c = true) s -> parse_scalar K p s = Some v ->
            (match p with PBool | PCopy => False | _ => True end) ->
            json_slice K p s = None /\ json_slice K p ([91%N] ++ s ++ [93%N]) = Some [v]).
  { intros s Hj Hs Hps Hk. pose proof (json_number_ne _ Hj) as Hne. split; [apply bare_num; assumption|].
    apply lone_slice; [exact Hne|exact Hs|]. apply elem_num; assumption. }
  destruct H as [z H|z H|z H|z H|b|f H1 H2|f H1 H2|s H]; cbn in Hl; try destruct Hl as [Hl1 Hl2]; try (injection Hp as <-).
  - apply Num; [apply json_number_itoa|apply itoa_chars|exact Er|exact I].
  - apply Num; [apply json_number_itoa|apply itoa_chars|exact Er|exact I].
  - apply Num; [apply json_number_itoa|apply itoa_chars|exact Er|exact I].
  - apply Num; [apply json_number_itoa|apply itoa_chars|exact Er|exact I].
  - destruct b; split; reflexivity.
  - apply Num; [exact Hl1|exact Hl2|exact Er|exact I].
  - apply Num; [exact Hl1|exact Hl2|exact Er|exact I].
  - destruct Hl.
Qed.
Lemma parse_each_rt : forall n p l, Forall (scalar_val K n) l -> scalar_table n = Some p ->
  parse_each K p false (map (sprint K n) l) = Some l.
Proof.
  intros n p l H Hp. induction H as [|v l Hv Hl IH]; [reflexivity|]. cbn [map parse_each].
  destruct (scalar_rt n v Hv) as (p' & Ep & Er & _). rewrite Hp in Ep. injection Ep as <-.
  rewrite IH. destruct p; try (rewrite Er; reflexivity). cbn in Er |- *. injection Er as ->. reflexivity.
Qed.
(** ** One field in the query *)
Definition delivered (f : hfield) (v : gval) (l : list str) : Prop :=
  match l with
  | [] => unsent v
  | s :: arr => forall r, assign f (run_convert K f (Some l) s true false) r = DOk (upd r (hf_camel f) v) false
  end.
Lemma base_of : forall n, In n go_base_types -> is_go_base_type n = true.
Proof. intros n H. apply base_name. exact H. Qed.
Lemma query_field : forall meth p req, query_value K (fd_type (pm_field p)) (req (camel_of p)) ->
  exists l, field_values K req (new_hfield meth p) = Some l /\ Forall bytes l /\ delivered (new_hfield meth p) (req (camel_of p)) l.
Proof.
  intros meth [[nm pb t] loc] req H. unfold camel_of in *. cbn [pm_field fd_type fd_name] in *.
  unfold field_values. set (f := new_hfield meth (mkParam (mkFld nm pb t) loc)).
  change (hf_camel f) with (go_camel_case nm). remember (req (go_camel_case nm)) as w eqn:Ew. clear Ew.
  inversion H as [n v Hv Et Ev|n Hn Et Ev|n v Hn Hv Et Ev|n i z Hz Et Ev|n l Hn Hl Hlone Et Ev|n i v Hn Hj Et Ev|n r v Hn Hj Et Ev|n r l Hn Hj Et Ev|n v Hn Hj Et Ev]; subst t; try subst w.
  - (* a scalar *)
    destruct (scalar_rt n v Hv) as (p & Ep & Er & Hb & Hn & _). pose proof (base_of n Hn) as Hbase.
    assert (Ef : hf_base f = true) by exact Hbase. assert (Er' : hf_rep f = false) by reflexivity. assert (Es : hf_star f = false) by reflexivity.
    rewrite Ef, Er', Es. cbn [andb negb orb]. exists [sprint K n v]. split; [reflexivity|]. split; [apply Forall_cons; [exact Hb|apply Forall_nil]|].
    intro r. assert (Ec : hf_conv f = CvScalar p).
    { unfold f, new_hfield. cbn [hf_conv pm_field fd_type]. unfold field_shape. cbn [ft_name ft_star ft_msg ft_enum ft_map ft_array].
      unfold create_decode_convert. cbn [sh_enum sh_base sh_rep sh_gotype negb andb orb]. rewrite Hbase. cbn [negb orb]. rewrite Ep. destruct p; reflexivity. }
    assert (Et : run_tconv f (hf_tconv f) v = Some v).
    { unfold f, new_hfield. cbn [hf_tconv pm_field fd_type]. unfold field_shape, create_decode_tconv. cbn [ft_name ft_star ft_msg ft_enum ft_map ft_array sh_rep sh_base sh_star sh_enum sh_gotype].
      rewrite andb_false_r. destruct (existsb _ _ || false); reflexivity. }
    unfold run_convert. rewrite Ec. rewrite Er.
    destruct p; cbn [assign]; rewrite ?Et; try reflexivity. cbn [parse_scalar] in Er. injection Er as ->. rewrite Et. reflexivity.
  - (* a missing optional *)
    assert (Hn' : In n go_base_types) by (unfold go_base_types; cbn [In] in *; intuition auto 10).
    pose proof (base_of n Hn') as Hbase.
    assert (Ef : hf_base f = true) by exact Hbase. assert (Er' : hf_rep f = false) by reflexivity. assert (Es : hf_star f = true) by reflexivity.
    rewrite Ef, Er', Es. cbn [andb negb orb]. exists []. split; [reflexivity|]. split; [apply Forall_nil|]. left. reflexivity.
  - (* an optional *)
    destruct (scalar_rt n v Hv) as (p & Ep & Er & Hb & Hn' & _). pose proof (base_of n Hn') as Hbase.
    assert (Ef : hf_base f = true) by exact Hbase. assert (Er' : hf_rep f = false) by reflexivity. assert (Es : hf_star f = true) by reflexivity.
    rewrite Ef, Er', Es. cbn [andb negb orb]. exists [sprint K n v]. split; [reflexivity|]. split; [apply Forall_cons; [exact Hb|apply Forall_nil]|].
    intro r. assert (Ec : hf_conv f = CvScalar p).
    { unfold f, new_hfield. cbn [hf_conv pm_field fd_type]. unfold field_shape. cbn [ft_name ft_star ft_msg ft_enum ft_map ft_array].
      unfold create_decode_convert. cbn [sh_enum sh_base sh_rep sh_gotype negb andb orb]. rewrite Hbase. cbn [negb orb]. rewrite Ep. destruct p; reflexivity. }
    assert (Et : run_tconv f (hf_tconv f) v = Some (VSome v)).
    { unfold f, new_hfield. cbn [hf_tconv pm_field fd_type]. unfold field_shape, create_decode_tconv. cbn [ft_name ft_star ft_msg ft_enum ft_map ft_array sh_rep sh_base sh_star sh_enum sh_gotype].
      rewrite Hbase. cbn [andb]. cbn [In] in Hn. repeat (destruct Hn as [<-|Hn]; [reflexivity|]). destruct Hn. }
    unfold run_convert. rewrite Ec. rewrite Er.
    destruct p; cbn [assign]; rewrite ?Et; try reflexivity. cbn [parse_scalar] in Er. injection Er as ->. rewrite Et. reflexivity.
  - (* an enum *)
    assert (Ef : hf_base f = false) by reflexivity. rewrite Ef. assert (Er' : hf_rep f = false) by reflexivity. rewrite Er'. cbn [andb negb orb json_marshal].
    exists [itoa z]. split; [reflexivity|]. split; [apply Forall_cons; [apply num_bytes, itoa_chars|apply Forall_nil]|].
    intro r. assert (Ec : hf_conv f = CvScalar (PInt 32)) by reflexivity.
    assert (Et : run_tconv f (hf_tconv f) (VZ z) = Some (VZ z)).
    { unfold f, new_hfield. cbn [hf_tconv pm_field fd_type]. unfold field_shape, create_decode_tconv. cbn [ft_name ft_star ft_msg ft_enum ft_map ft_array sh_rep sh_base sh_star sh_enum sh_gotype].
      cbn [andb]. rewrite orb_true_r. reflexivity. }
    unfold run_convert. rewrite Ec. rewrite enum_rt by exact Hz. cbn [assign]. rewrite Et. reflexivity.
  - (* repeated scalars *)
    pose proof (base_of n Hn) as Hbase.
    assert (Ef : hf_base f = true) by exact Hbase. assert (Er' : hf_rep f = true) by reflexivity. rewrite Ef, Er'. cbn [andb].
    exists (map (sprint K n) l). split; [reflexivity|]. split.
    { apply Forall_forall. intros s Hs. apply in_map_iff in Hs. destruct Hs as (v & <- & Hv). rewrite Forall_forall in Hl.
      destruct (scalar_rt n v (Hl v Hv)) as (p & _ & _ & Hb & _). exact Hb. }
    destruct l as [|v l]; [right; left; reflexivity|]. cbn [map delivered].
    assert (Hv : scalar_val K n v) by (inversion Hl; assumption).
    destruct (scalar_rt n v Hv) as (p & Ep & Er & Hb & _ & Hby & _).
    assert (Ec : exists nr, hf_conv f = CvRepeated (Some p) nr (negb (str_eqb n (T "string")))).
    { unfold f, new_hfield. cbn [hf_conv pm_field fd_type]. unfold field_shape. cbn [ft_name ft_star ft_msg ft_enum ft_map ft_array].
      unfold create_decode_convert. cbn [sh_enum sh_base sh_rep sh_gotype negb andb orb]. rewrite Hbase. cbn [negb orb andb fst]. rewrite Hby. cbn [negb]. rewrite Ep. eexists. reflexivity. }
    destruct Ec as [nr Ec]. intro r. unfold run_convert. rewrite Ec. destruct l as [|v2 l].
    + cbn [map length Nat.ltb Nat.leb]. destruct (lone_rt n v p Hv (Hlone v eq_refl) Ep) as [E1 E2]. rewrite E1, E2. reflexivity.
    + cbn [map length Nat.ltb Nat.leb]. change (sprint K n v :: sprint K n v2 :: map (sprint K n) l) with (map (sprint K n) (v :: v2 :: l)).
      rewrite (parse_each_rt n p _ Hl Ep). rewrite andb_false_r. reflexivity.
  - (* repeated enums *)
    assert (Ef : hf_base f = false) by reflexivity. rewrite Ef. cbn [andb negb orb]. rewrite andb_false_r.
    destruct Hj as (t & E1 & Hb & Hnn & E2). cbn [json_marshal]. rewrite E1. exists [t]. split; [reflexivity|]. split; [apply Forall_cons; [exact Hb|apply Forall_nil]|].
    intro r. assert (Ec : exists nr, hf_conv f = CvRepeated None nr (negb (str_eqb n (T "string")))) by (eexists; reflexivity).
    destruct Ec as [nr Ec]. unfold run_convert. rewrite Ec. change (hf_gotype f) with n. rewrite E2. reflexivity.
  - (* a message *)
    assert (Ef : hf_base f = false) by reflexivity. rewrite Ef. cbn [andb negb orb]. rewrite andb_false_r.
    destruct Hj as (t & E1 & Hb & Hnn & E2). cbn [json_marshal]. rewrite E1. exists [t]. split; [reflexivity|]. split; [apply Forall_cons; [exact Hb|apply Forall_nil]|].
    intro r0. assert (Ec : hf_conv f = CvSingle) by reflexivity. unfold run_convert. rewrite Ec. change (hf_gotype f) with n. change (hf_star f) with true. cbn [negb].
    apply str_eqb_neq in Hnn. rewrite Hnn, E2. cbn [assign].
    assert (Et : hf_tconv f = TcVar).
    { unfold f, new_hfield. cbn [hf_tconv pm_field fd_type]. unfold field_shape, create_decode_tconv. cbn [ft_name ft_star ft_msg ft_enum ft_map ft_array sh_rep sh_base sh_star sh_enum sh_gotype andb].
      rewrite not_narrow by exact Hn. reflexivity. }
    rewrite Et. reflexivity.
  - (* repeated messages *)
    assert (Ef : hf_base f = false) by reflexivity. rewrite Ef. cbn [andb negb orb]. rewrite andb_false_r.
    destruct Hj as (t & E1 & Hb & Hnn & E2). cbn [json_marshal]. rewrite E1. exists [t]. split; [reflexivity|]. split; [apply Forall_cons; [exact Hb|apply Forall_nil]|].
    intro r0. assert (Ec : exists nr, hf_conv f = CvRepeated None nr (negb (str_eqb n (T "string")))) by (eexists; reflexivity).
    destruct Ec as [nr Ec]. unfold run_convert. rewrite Ec. change (hf_gotype f) with n. rewrite E2. reflexivity.
  - (* bytes *)
    assert (Ef : hf_base f = false) by (destruct Hn as [<-|[<-|[]]]; reflexivity). rewrite Ef. cbn [andb negb orb]. rewrite andb_false_r.
    destruct Hj as (t & E1 & Hb & Hnn & E2). cbn [json_marshal]. rewrite E1. exists [t]. split; [reflexivity|]. split; [apply Forall_cons; [exact Hb|apply Forall_nil]|].
    intro r0. assert (Ec : exists nr, hf_conv f = CvRepeated None nr (negb (str_eqb n (T "string")))).
    { destruct Hn as [<-|[<-|[]]]; eexists; reflexivity. }
    destruct Ec as [nr Ec]. unfold run_convert. rewrite Ec. change (hf_gotype f) with n. rewrite E2. reflexivity.
Qed.

(** ** One field in the path *)
Lemma path_field : forall meth p v, path_value K (fd_type (pm_field p)) v ->
  let f := new_hfield meth p in
  (forall r, assign f (run_convert K f None (sprint K (hf_gotype f) v) false false) r = DOk (upd r (hf_camel f) v) false)
  /\ path_safe (sprint K (hf_gotype f) v) /\ (hf_enum f = true -> exists z, v = VZ z).
Proof.
  intros meth [[nm pb t] loc] v H f. cbn [pm_field fd_type] in H. inversion H as [n w Hv Hs Et Ew|n i z Hz Et Ew]; subst t; try subst w; try subst v.
  - change (hf_gotype f) with n. split; [|split; [exact Hs|discriminate]].
    destruct (scalar_rt n v Hv) as (p & Ep & Er & Hb & Hn & _). pose proof (base_of n Hn) as Hbase. intro r.
    assert (Ec : hf_conv f = CvScalar p).
    { unfold f, new_hfield. cbn [hf_conv pm_field fd_type]. unfold field_shape. cbn [ft_name ft_star ft_msg ft_enum ft_map ft_array].
      unfold create_decode_convert. cbn [sh_enum sh_base sh_rep sh_gotype negb andb orb]. rewrite Hbase. cbn [negb orb]. rewrite Ep. destruct p; reflexivity. }
    assert (Et : run_tconv f (hf_tconv f) v = Some v).
    { unfold f, new_hfield. cbn [hf_tconv pm_field fd_type]. unfold field_shape, create_decode_tconv. cbn [ft_name ft_star ft_msg ft_enum ft_map ft_array sh_rep sh_base sh_star sh_enum sh_gotype].
      rewrite andb_false_r. destruct (existsb _ _ || false); reflexivity. }
    unfold run_convert. rewrite Ec. rewrite Er.
    destruct p; cbn [assign]; rewrite ?Et; try reflexivity. cbn [parse_scalar] in Er. injection Er as ->. rewrite Et. reflexivity.
  - cbn [sprint]. split; [|split; [|intros _; exists z; reflexivity]].
    + intro r. assert (Ec : hf_conv f = CvScalar (PInt 32)) by reflexivity.
      assert (Et : run_tconv f (hf_tconv f) (VZ z) = Some (VZ z)).
      { unfold f, new_hfield. cbn [hf_tconv pm_field fd_type]. unfold field_shape, create_decode_tconv. cbn [ft_name ft_star ft_msg ft_enum ft_map ft_array sh_rep sh_base sh_star sh_enum sh_gotype].
        cbn [andb]. rewrite orb_true_r. reflexivity. }
      unfold run_convert. rewrite Ec. rewrite enum_rt by exact Hz. cbn [assign]. rewrite Et. reflexivity.
    + assert (Hne : forall z, itoa z <> T "." /\ itoa z <> T "..").
      { intro y. pose proof (json_number_itoa y) as Hj. split; intro E; rewrite E in Hj; discriminate. }
      split; [apply itoa_ne|]. split; [apply Hne|]. split; [apply Hne|].
      eapply Forall_impl; [|apply itoa_chars]. intros c Hc. unfold url_plain.
      assert (N1 : forall k, num_char k = false -> c <> k) by (intros k Hk ->; congruence).
      split; [apply N1; reflexivity|]. split; [apply N1; reflexivity|]. split; [apply N1; reflexivity|]. split; [apply N1; reflexivity|].
      apply num_small in Hc. lia.
Qed.
End R.
