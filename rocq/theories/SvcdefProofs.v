(** Proofs about struct tags, field types and the resolution of types. *)
From Coq Require Import Permutation.
From Verif Require Import GoStr GoStrProofs GoMap Unquote SplitJoin SvcTypes HttpTypes Svcdef SvcdefSpec.

Lemma span_name_key : forall k r, Forall (fun c => (32 < c)%N /\ c <> c_colon /\ c <> c_dquote /\ c <> 127%N) k -> span_name (k ++ c_colon :: r) = (k, c_colon :: r).
Proof.
  induction k as [|c k IH]; intros r H; [reflexivity|]. inversion H as [|x y Hc Hk]; subst. cbn [app span_name].
  assert (E : name_char c = true).
  { destruct Hc as (H1 & H2 & H3 & H4). unfold name_char. apply N.ltb_lt in H1. rewrite H1. apply N.eqb_neq in H2, H3, H4. rewrite H2, H3, H4. reflexivity. }
  rewrite E, (IH r Hk). reflexivity.
Qed.
Lemma span_quoted_literal : forall b, literal_body b -> forall r, span_quoted (b ++ c_dquote :: r) = Some (b, r).
Proof.
  induction 1 as [|c s H1 H2 H IH|d s H IH]; intro r.
  - reflexivity.
  - cbn [app span_quoted]. apply N.eqb_neq in H1, H2. rewrite H1, H2, IH. reflexivity.
  - cbn [app span_quoted]. change (N.eqb c_backslash c_dquote) with false. change (N.eqb c_backslash c_backslash) with true. cbn iota. rewrite IH. reflexivity.
Qed.
Lemma tag_get_step : forall fuel k b rest key, tag_key k -> literal_body b ->
  tag_get (S fuel) (k ++ [c_colon; c_dquote] ++ b ++ c_dquote :: rest) key =
  if str_eqb k key then match unquote (c_dquote :: b ++ [c_dquote]) with Some v => v | None => [] end else tag_get fuel rest key.
Proof.
  intros fuel k b rest key [Hne Hk] Hb. cbn [tag_get]. destruct k as [|c k]; [contradiction|].
  assert (Ec : N.eqb c c_space = false) by (apply N.eqb_neq; intros ->; inversion Hk as [|x y [K _] _]; subst; discriminate).
  change ((c :: k) ++ [c_colon; c_dquote] ++ b ++ c_dquote :: rest) with (c :: k ++ c_colon :: c_dquote :: b ++ c_dquote :: rest).
  cbn [trim_left1]. rewrite Ec. cbv beta iota.
  change (c :: k ++ c_colon :: c_dquote :: b ++ c_dquote :: rest) with ((c :: k) ++ c_colon :: c_dquote :: b ++ c_dquote :: rest). rewrite (span_name_key _ _ Hk). cbv beta iota.
  change (N.eqb c_colon c_colon && N.eqb c_dquote c_dquote) with true. cbn iota. rewrite (span_quoted_literal b Hb). reflexivity.
Qed.
Lemma tag_get_space : forall fuel tag key, tag_get fuel (c_space :: tag) key = tag_get fuel tag key.
Proof. intros [|fuel] tag key; reflexivity. Qed.
Lemma tag_get_pairs : forall ps key fuel, good_tag ps -> length ps < fuel ->
  tag_get fuel (tag_text ps) key = match first_literal ps key with Some b => match unquote (c_dquote :: b ++ [c_dquote]) with Some v => v | None => [] end | None => [] end.
Proof.
  induction ps as [|[k b] ps IH]; intros key fuel Hg Hf.
  - destruct fuel; reflexivity.
  - inversion Hg as [|x y [Hk Hb] Hp]; subst. cbn [fst snd] in *. destruct fuel as [|fuel]; [cbn in Hf; lia|]. cbn [length] in Hf.
    unfold first_literal. cbn [find fst]. destruct ps as [|p ps].
    + change (tag_text [(k, b)]) with (k ++ [c_colon; c_dquote] ++ b ++ c_dquote :: []). rewrite (tag_get_step fuel k b [] key Hk Hb). destruct (str_eqb k key); [reflexivity|]. destruct fuel; reflexivity.
    + assert (E : tag_text ((k, b) :: p :: ps) = k ++ [c_colon; c_dquote] ++ b ++ c_dquote :: c_space :: tag_text (p :: ps)).
      { unfold tag_text. cbn [map join]. unfold tag_pair at 1. cbn [fst snd]. rewrite <- !app_assoc. reflexivity. }
      rewrite E, (tag_get_step fuel k b _ key Hk Hb). destruct (str_eqb k key); [reflexivity|]. rewrite tag_get_space. apply IH; [exact Hp|lia].
Qed.
Lemma tag_text_length : forall ps, good_tag ps -> length ps <= length (tag_text ps).
Proof.
  induction ps as [|[k b] ps IH]; intro Hg; [reflexivity|]. inversion Hg as [|x y [Hk Hb] Hp]; subst. specialize (IH Hp). destruct ps as [|p ps].
  - unfold tag_text. cbn [map join]. unfold tag_pair. cbn [fst snd]. rewrite !app_length. cbn. lia.
  - unfold tag_text in *. cbn [map join] in *. unfold tag_pair at 1. cbn [fst snd]. rewrite !app_length in *. cbn [length] in *. lia.
Qed.
(** reflect's StructTag.Get finds the first literal with the key. *)
Theorem struct_tag_get_spec : forall ps key, good_tag ps ->
  struct_tag_get (tag_text ps) key = match first_literal ps key with Some b => match unquote (c_dquote :: b ++ [c_dquote]) with Some v => v | None => [] end | None => [] end.
Proof. intros ps key H. apply tag_get_pairs; [exact H|]. pose proof (tag_text_length ps H). lia. Qed.

Lemma after_eq_name : forall n, after_eq (T "name=" ++ n) = Some n.
Proof. reflexivity. Qed.
Lemma pb_entry_name : forall kind num card packed name more, no_comma kind -> no_comma num -> no_comma card -> no_comma name -> Forall no_comma more ->
  match split1 44 (pb_entry kind num card packed name more) with
  | _ :: _ :: _ :: s3 :: rest =>
      match after_eq s3 with
      | Some n => n = name
      | None => exists s4 rest', rest = s4 :: rest' /\ after_eq s4 = Some name
      end
  | _ => False
  end.
Proof.
  intros kind num card packed name more H1 H2 H3 H4 H5. unfold pb_entry. rewrite split_join.
  - cbn [app]. destruct packed; cbn [app].
    + change (after_eq (T "packed")) with (@None str). eexists _, _. split; reflexivity.
    + rewrite after_eq_name. reflexivity.
  - discriminate.
  - assert (HN : ~ In 44%N (T "name=" ++ name)) by (intro K; apply in_app_or in K; destruct K as [K|K]; [vm_compute in K; repeat destruct K as [K|K]; discriminate || contradiction|exact (H4 K)]).
    constructor; [exact H1|]. constructor; [exact H2|]. constructor; [exact H3|]. apply Forall_app. split.
    + destruct packed; [|constructor]. constructor; [|constructor]. intro K. vm_compute in K. repeat destruct K as [K|K]; discriminate || contradiction.
    + constructor; [exact HN|exact H5].
Qed.

(** ** Field types *)
Lemma follow_plain : forall ofs e, plain_type e -> exists t, follow ofs e empty_ft = Some t /\ Some (field_gty t) = expr_type e.
Proof.
  intros ofs e H. destruct H as [e H|e H|e H|e H]; destruct H as [n|p s]; cbn [follow]; eexists; (split; [reflexivity|]); unfold field_gty, maybe_ptr, empty_ft; cbn [ft_array ft_star ft_name expr_type option_map app]; rewrite <- ?app_assoc; try reflexivity.
Qed.

(** ** Resolution *)
Lemma add_msgs_spec : forall ms i m k,
  mget (add_msgs i ms m) k = match mget (add_msgs i ms []) k with Some b => Some b | None => mget m k end.
Proof.
  induction ms as [|x ms IH]; intros i m k; cbn [add_msgs]; [reflexivity|]. rewrite (IH (S i) (mset m _ _)), (IH (S i) (mset [] _ _)).
  destruct (mget (add_msgs (S i) ms []) k) as [b|]; [reflexivity|]. rewrite !mget_mset. destruct (str_eqb k (ms_name x)); reflexivity.
Qed.
Lemma last_index_cons : forall n x l i, last_index n l i -> last_index n (x :: l) (S i).
Proof. intros n x l i [H1 H2]. split; [exact H1|]. intros [|j] Hj; [lia|]. apply H2. lia. Qed.
Lemma msgs_index : forall ms i k,
  match mget (add_msgs i ms []) k with
  | Some (BMsg j) => exists d, j = i + d /\ last_index k (map ms_name ms) d
  | Some (BEnum _) => False
  | None => ~ In k (map ms_name ms)
  end.
Proof.
  induction ms as [|x ms IH]; intros i k; cbn [add_msgs map]; [intros []|]. rewrite add_msgs_spec. specialize (IH (S i) k).
  destruct (mget (add_msgs (S i) ms []) k) as [[j|j]|] eqn:E.
  - destruct IH as (d & -> & H). exists (S d). split; [lia|]. apply last_index_cons. exact H.
  - exact IH.
  - cbn [mset mget]. destruct (str_eqb_spec k (ms_name x)) as [->|N1].
    + exists 0. split; [lia|]. split; [reflexivity|]. intros [|j] Hj; [lia|]. cbn. intro K. apply IH. apply nth_error_In in K. exact K.
    + intros [K|K]; [congruence|contradiction].
Qed.
Lemma add_enums_spec : forall es i m k,
  mget (add_enums i es m) k = match mget (add_enums i es []) k with Some b => Some b | None => mget m k end.
Proof.
  induction es as [|x es IH]; intros i m k; cbn [add_enums]; [reflexivity|]. rewrite (IH (S i) (mset m _ _)), (IH (S i) (mset [] _ _)).
  destruct (mget (add_enums (S i) es []) k) as [b|]; [reflexivity|]. rewrite !mget_mset. destruct (str_eqb k x); reflexivity.
Qed.
Lemma enums_index : forall es i k,
  match mget (add_enums i es []) k with
  | Some (BEnum j) => exists d, j = i + d /\ last_index k es d
  | Some (BMsg _) => False
  | None => ~ In k es
  end.
Proof.
  induction es as [|x es IH]; intros i k; cbn [add_enums]; [intros []|]. rewrite add_enums_spec. specialize (IH (S i) k).
  destruct (mget (add_enums (S i) es []) k) as [[j|j]|] eqn:E.
  - exact IH.
  - destruct IH as (d & -> & H). exists (S d). split; [lia|]. apply last_index_cons. exact H.
  - cbn [mset mget]. destruct (str_eqb_spec k x) as [->|N1].
    + exists 0. split; [lia|]. split; [reflexivity|]. intros [|j] Hj; [lia|]. cbn. intro K. apply IH. apply nth_error_In in K. exact K.
    + intros [K|K]; [congruence|contradiction].
Qed.
Lemma box_type_spec : forall sd t, names_type (map ms_name (sd_messages sd)) (sd_enums sd) t (box_type (new_type_map sd) t).
Proof.
  intros sd t. unfold box_type, new_type_map. rewrite add_enums_spec. pose proof (enums_index (sd_enums sd) 0 (ft_name t)) as HE. pose proof (msgs_index (sd_messages sd) 0 (ft_name t)) as HM.
  destruct (mget (add_enums 0 (sd_enums sd) []) (ft_name t)) as [[j|j]|].
  - contradiction.
  - destruct HE as (d & -> & H). apply NTEnum. exact H.
  - destruct (mget (add_msgs 0 (sd_messages sd) []) (ft_name t)) as [[j|j]|].
    + destruct HM as (d & -> & H). apply NTMsg; assumption.
    + contradiction.
    + apply NTNone; assumption.
Qed.
Lemma set_type_spec : forall sd t, resolved (map ms_name (sd_messages sd)) (sd_enums sd) t (set_type (new_type_map sd) t).
Proof.
  intros sd t. unfold set_type. destruct (ft_map t) as [[k v]|] eqn:Em.
  - destruct (ft_star v) eqn:Es; [eapply RMap; [exact Em|exact Es|apply box_type_spec]|]. apply RName; [intros k' v' E; congruence|apply box_type_spec].
  - apply RName; [intros k' v' E; congruence|apply box_type_spec].
Qed.
Lemma Forall2_map_r : forall (A B : Type) (R : A -> B -> Prop) (f : A -> B) l, (forall x, In x l -> R x (f x)) -> Forall2 R l (map f l).
Proof. induction l as [|x l IH]; intro H; constructor; [apply H; left; reflexivity|apply IH; intros y Hy; apply H; right; exact Hy]. Qed.
