(** Property theorems C27, C28, C31, C50: what is computed for the HTTP transport
    (gengokit/httptransport). *)
From Verif Require Import GoStr GoStrProofs GoMap SplitJoin Decimals Strs SvcTypes HttpSpec HttpTransport HttpTypes
  HttpProofs HttpTypesProofs.

(** C27: the numbers in labels are the English words of the decimal digits ... *)
Theorem c27_english : forall n ds, decimal n ds -> english_number (Z.of_N n) = concat (map digit_word ds).
Proof. exact english_words. Qed.
Print Assumptions c27_english.
(** ... every number has such digits ... *)
Theorem c27_digits : forall n, exists ds, decimal n ds.
Proof. intro n. eexists. apply dl_decimal. Qed.
(** ... and different numbers have different words. *)
Theorem c27_injective : forall i j, (0 <= i)%Z -> (0 <= j)%Z -> english_number i = english_number j -> i = j.
Proof.
  intros i j Hi Hj E. rewrite <- (Z2N.id i Hi), <- (Z2N.id j Hj) in E. apply english_inj in E.
  rewrite <- (Z2N.id i Hi), <- (Z2N.id j Hj), E. reflexivity.
Qed.
Print Assumptions c27_injective.

Lemma new_bindings_labels : forall ms m is bs, new_bindings ms m is = Ret bs ->
  map hb_label bs = map (fun i => sm_name m ++ english_number (Z.of_nat i)) is.
Proof.
  induction is as [|i is IH]; intros bs H; cbn [new_bindings] in H; [injection H as <-; reflexivity|].
  destruct (new_binding ms i m) as [b| |] eqn:Eb; try discriminate. destruct (new_bindings ms m is) as [bs2| |]; try discriminate.
  injection H as <-. cbn [map]. rewrite (IH bs2 eq_refl). f_equal. unfold new_binding in Eb.
  destruct (nth_error _ _); try discriminate. destruct (oneof_loop _ _ _); try discriminate. injection Eb as <-. reflexivity.
Qed.
(** The labels of a method: its name and the number of the binding, all different. *)
Theorem c27_labels : forall ms m h, new_method ms m = Ret h ->
  map hb_label (hm_binds h) = map (fun i => sm_name m ++ english_number (Z.of_nat i)) (seq 0 (length (sm_bindings m)))
  /\ NoDup (map hb_label (hm_binds h)).
Proof.
  intros ms m h H. unfold new_method in H. destruct (new_bindings _ _ _) as [bs| |] eqn:E; try discriminate. injection H as <-.
  cbn [hm_binds]. apply new_bindings_labels in E. split; [exact E|]. rewrite E. clear E.
  assert (K : forall n k, NoDup (map (fun i => sm_name m ++ english_number (Z.of_nat i)) (seq k n))).
  { induction n as [|n IH]; intro k; cbn [seq map]; constructor; [|apply IH].
    intro Hin. apply in_map_iff in Hin. destruct Hin as (j & Ej & Hj). apply app_inv_head in Ej.
    apply c27_injective in Ej; try lia. apply Nat2Z.inj in Ej. subst. apply in_seq in Hj. lia. }
  apply K.
Qed.
Print Assumptions c27_labels.
(** Across methods, labels clash only if one method's name is the other's followed by whole number
    words. *)
Theorem c27_across_methods : forall m m' i j, m ++ english_number (Z.of_N i) = m' ++ english_number (Z.of_N j) ->
  exists ds, Forall (fun d => d < 10) ds /\ (m' = m ++ concat (map digit_word ds) \/ m = m' ++ concat (map digit_word ds)).
Proof.
  assert (P : forall m r i j, english_number (Z.of_N i) = r ++ english_number (Z.of_N j) ->
    exists ds, Forall (fun d => d < 10) ds /\ m ++ r = m ++ concat (map digit_word ds)).
  { intros m r i j E. pose proof (dl_decimal i) as Di. pose proof (dl_decimal j) as Dj.
    rewrite (english_words _ _ Di), (english_words _ _ Dj) in E.
    destruct Di as (Hi & _). destruct Dj as (Hj & _ & Hne & _).
    destruct (words_suffix _ _ _ Hi Hj Hne E) as (ds1 & E1 & ->). exists ds1. split; [|reflexivity].
    rewrite E1 in Hi. apply Forall_app in Hi. tauto. }
  intros m m' i j E.
  assert (K : (exists r, m' = m ++ r) \/ (exists r, m = m' ++ r)).
  { clear P. revert m' E. induction m as [|c m IH]; intros m' E; [left; exists m'; reflexivity|].
    destruct m' as [|c' m']; [right; exists (c :: m); reflexivity|]. injection E as -> E.
    destruct (IH m' E) as [[r ->]|[r ->]]; [left|right]; exists r; reflexivity. }
  destruct K as [[r ->]|[r ->]].
  - rewrite <- app_assoc in E. apply app_inv_head in E. destruct (P m r i j E) as (ds & Hd & E2). exists ds. auto.
  - rewrite <- app_assoc in E. apply app_inv_head in E. symmetry in E. destruct (P m' r j i E) as (ds & Hd & E2). exists ds. auto.
Qed.
Print Assumptions c27_across_methods.
(** They do clash: Foo's binding 10 and FooOne's binding 0. *)
Theorem c27_clash : T "Foo" ++ english_number 10 = T "FooOne" ++ english_number 0.
Proof. reflexivity. Qed.
Example c27_ex : english_number 48 = T "FourEight" /\ decimal 48 [4; 8].
Proof. split; [reflexivity|]. split; [repeat (apply Forall_cons; [lia|]); apply Forall_nil|]. split; [reflexivity|]. split; [discriminate|]. discriminate. Qed.

(** C28: PathParams fails exactly on a different number of parts, never panics, and otherwise gives for
    every parameter the URL's part at the (last) place of the parameter, and nothing else. *)
Theorem c28_path_params : forall url tmpl us ts, parts_of url us -> parts_of tmpl ts ->
  (path_params url tmpl = Ret None /\ ~ (exists n, counted us n /\ counted ts n)) \/
  exists m, path_params url tmpl = Ret (Some m) /\ (exists n, counted us n /\ counted ts n)
    /\ (forall k v, mget m k = Some v <-> exists j, named_at ts k j /\ nth_error us j = Some v).
Proof. exact path_params_char. Qed.
Print Assumptions c28_path_params.
Theorem c28_never_panics : forall url tmpl, exists r, path_params url tmpl = Ret r.
Proof.
  intros url tmpl. destruct (path_params_char url tmpl (split1 c_slash url) (split1 c_slash tmpl)) as [[E _]|(m & E & _)];
    [apply parts_of_split; reflexivity|apply parts_of_split; reflexivity|eexists; exact E|eexists; exact E].
Qed.
Print Assumptions c28_never_panics.

Lemma plain_not_names : forall k s, plain s -> ~ names k s.
Proof. intros k s (_ & H1 & H2) [[H|H] _]; auto. Qed.
Lemma strip_plain : forall s, plain s -> filter (fun c => negb (N.eqb c c_lbrace) && negb (N.eqb c c_rbrace)) s = s.
Proof.
  induction s as [|c s IH]; intros (H0 & H1 & H2); [reflexivity|]. cbn [filter].
  destruct (N.eqb_spec c c_lbrace) as [->|_]; [destruct H1; left; reflexivity|].
  destruct (N.eqb_spec c c_rbrace) as [->|_]; [destruct H2; left; reflexivity|]. cbn. f_equal. apply IH.
  split; [|split]; intro; [apply H0|apply H1|apply H2]; right; assumption.
Qed.
Lemma names_var : forall k n, plain n -> (names k (write_part (TVar n)) <-> k = n).
Proof.
  intros k n H. unfold names, write_part. cbn [filter]. rewrite N.eqb_refl. cbn [negb andb].
  rewrite filter_app, strip_plain by exact H. cbn. rewrite app_nil_r. split; [tauto|]. intros ->. split; [left; left; reflexivity|reflexivity].
Qed.
Lemma names_part : forall k p, tpart_ok p -> (names k (write_part p) <-> p = TVar k).
Proof.
  intros k [s|n] H; cbn in H.
  - split; [intro K; destruct (plain_not_names _ _ H K)|discriminate].
  - rewrite (names_var k n H). split; [intros ->; reflexivity|intros [= ->]; reflexivity].
Qed.
Lemma vars_in : forall ts n, In n (template_vars ts) <-> In (TVar n) ts.
Proof.
  intros ts n. unfold template_vars. rewrite in_flat_map. split.
  - intros ([s|m] & H & K); [destruct K|]. destruct K as [->|[]]. exact H.
  - intro H. exists (TVar n). split; [exact H|left; reflexivity].
Qed.
(** For a template written as literal parts and {name} parts, and the URL made by putting non-empty
    values without slashes for the names, PathParams gives back exactly those values. *)
Theorem c28_round_trip : forall ts env, ts <> [] -> Forall tpart_ok ts ->
  (forall n, In n (template_vars ts) -> env n <> [] /\ ~ In c_slash (env n)) ->
  exists m, path_params (fill_template env ts) (write_template ts) = Ret (Some m)
    /\ forall n, mget m n = if in_dec str_eq_dec n (template_vars ts) then Some (env n) else None.
Proof.
  intros ts env Hne Hok Henv.
  assert (Hpu : parts_of (fill_template env ts) (map (fill_part env) ts)).
  { split; [destruct ts; [contradiction|discriminate]|]. split; [|reflexivity].
    apply Forall_forall. intros p Hp. apply in_map_iff in Hp. destruct Hp as ([s|n] & <- & Hin); cbn.
    - rewrite Forall_forall in Hok. apply Hok in Hin. apply Hin.
    - apply Henv. apply vars_in. exact Hin. }
  assert (Hpt : parts_of (write_template ts) (map write_part ts)).
  { split; [destruct ts; [contradiction|discriminate]|]. split; [|reflexivity].
    apply Forall_forall. intros p Hp. apply in_map_iff in Hp. rewrite Forall_forall in Hok. destruct Hp as ([s|n] & <- & Hin); apply Hok in Hin; cbn in *.
    - apply Hin.
    - intros [E|H]; [discriminate|]. apply in_app_or in H. destruct H as [H|[E|[]]]; [exact (proj1 Hin H)|discriminate]. }
  assert (Hemp : forall ts, (forall n, In n (template_vars ts) -> env n <> []) ->
    length (drop_trailing (map (fill_part env) ts)) = length (drop_trailing (map write_part ts))).
  { clear. intros ts. induction ts as [|p ts IH] using rev_ind; intro H; [reflexivity|]. rewrite !map_app. cbn [map]. rewrite !drop_trailing_snoc.
    assert (Hts : forall n, In n (template_vars ts) -> env n <> []).
    { intros n Hn. apply H. apply vars_in. apply vars_in in Hn. apply in_or_app. auto. }
    destruct p as [s|n]; cbn [fill_part write_part].
    - destruct s; [apply IH; exact Hts|]. rewrite !app_length, !map_length. reflexivity.
    - assert (K : env n <> []) by (apply H; apply vars_in; apply in_or_app; right; left; reflexivity).
      destruct (env n); [contradiction|]. rewrite !app_length, !map_length. reflexivity. }
  assert (Hc : exists n, counted (map (fill_part env) ts) n /\ counted (map write_part ts) n).
  { exists (Nat.max 1 (length (drop_trailing (map write_part ts)))). rewrite !counted_iff. split; [|reflexivity].
    rewrite Hemp; [reflexivity|]. intros n Hn. apply Henv. exact Hn. }
  destruct (c28_path_params _ _ _ _ Hpu Hpt) as [[_ Hno]|(m & Em & _ & Hm)]; [contradiction|].
  exists m. split; [exact Em|]. intro n.
  assert (Hlast : forall l, In (TVar n) l -> Forall tpart_ok l -> exists j, named_at (map write_part l) n j /\ nth_error (map (fill_part env) l) j = Some (env n)).
  { clear. induction l as [|p l IH]; intros Hin Hok; [destruct Hin|]. inversion Hok as [|x y Hp Hl]; subst.
    destruct (in_dec (fun a b : tpart => ltac:(decide equality; apply str_eq_dec) : {a = b} + {a <> b}) (TVar n) l) as [Hi|Hni].
    - destruct (IH Hi Hl) as (j & [(q & Hq & Hn) Hlast] & Hf). exists (S j). split; [|exact Hf]. split; [exists q; auto|].
      intros [|j'] p' Hlt E; [lia|]. apply (Hlast j' p'); [lia|exact E].
    - destruct Hin as [->|Hin]; [|contradiction]. exists 0. split; [|reflexivity]. split.
      + eexists. split; [reflexivity|]. apply (names_part n (TVar n) Hp). reflexivity.
      + intros [|j'] p' Hlt E; [lia|]. cbn in E. apply nth_error_In in E. apply in_map_iff in E. destruct E as (q & <- & Hq).
        rewrite Forall_forall in Hl. rewrite (names_part n q (Hl q Hq)). intros ->. contradiction. }
  destruct (in_dec str_eq_dec n (template_vars ts)) as [Hi|Hni].
  - apply Hm. apply Hlast; [apply vars_in; exact Hi|exact Hok].
  - destruct (mget m n) as [v|] eqn:Ev; [|reflexivity]. exfalso. apply Hm in Ev. destruct Ev as (j & [(p & Hp & Hn) _] & _).
    apply nth_error_In in Hp. apply in_map_iff in Hp. destruct Hp as (q & <- & Hq). rewrite Forall_forall in Hok.
    apply (names_part n q (Hok q Hq)) in Hn. subst q. apply Hni. apply vars_in. exact Hq.
Qed.
Print Assumptions c28_round_trip.
(** An empty value at the end of the URL is an error; literal parts are not compared. *)
Theorem c28_empty_value_lost : path_params (T "/a/") (T "/a/{x}") = Ret None.
Proof. reflexivity. Qed.
Theorem c28_literals_ignored : path_params (T "/zzz/7") (T "/users/{id}") = Ret (Some [(T "id", T "7")]).
Proof. reflexivity. Qed.
Example c28_ex : let ts := [TLit []; TLit (T "v1"); TVar (T "a"); TVar (T "b"); TLit []] in
  let env := fun n => if str_eqb n (T "a") then T "x" else T "yz" in
  Forall tpart_ok ts /\ write_template ts = T "/v1/{a}/{b}/" /\ fill_template env ts = T "/v1/x/yz/"
  /\ path_params (fill_template env ts) (write_template ts) = Ret (Some [(T "a", T "x"); (T "b", T "yz")]).
Proof.
  cbv zeta. split; [|split; [reflexivity|split; reflexivity]].
  repeat (apply Forall_cons; [cbn; unfold plain; cbn; repeat split; intuition discriminate|]). apply Forall_nil.
Qed.

(** C31: the assignment generated for a field of any type protoc-gen-go writes has the type of the
    struct field - except for optional int32, uint32, float32 and enum fields, where it never has. *)
Theorem c31_assignments : forall enums meth p, protoc_type enums (fd_type (pm_field p)) ->
  (assignment_ok enums (new_hfield meth p) (field_gty (fd_type (pm_field p))) <-> ~ narrow_optional (fd_type (pm_field p))).
Proof. exact assignment_iff. Qed.
Print Assumptions c31_assignments.
(** The generated assignment for an optional int32 is [&int32(x)], which is not Go. *)
Theorem c31_optional_int32_broken : let t := mkFT (T "int32") None None None None true false in
  protoc_type [] t /\ hf_tconv (new_hfield (T "M") (mkParam (mkFld (T "A") (T "a") t) (T "query"))) = TcAddrCast (T "int32")
  /\ ~ assignment_ok [] (new_hfield (T "M") (mkParam (mkFld (T "A") (T "a") t) (T "query"))) (field_gty t).
Proof.
  cbv zeta. split; [apply PtScalar; unfold scalar_name, go_base_types; cbn [In]; auto|]. split; [reflexivity|].
  intros (x & _ & H). inversion H.
Qed.
Theorem c31_optional_enum_broken : let t := mkFT (T "E") (Some 0) None None None true false in
  protoc_type [T "E"] t /\ ~ assignment_ok [T "E"] (new_hfield (T "M") (mkParam (mkFld (T "A") (T "a") t) (T "query"))) (field_gty t).
Proof.
  cbv zeta. split; [apply PtEnum; [reflexivity|]; intro H; repeat (destruct H as [H|H]; [discriminate H|]); destruct H|].
  intros (x & _ & H). inversion H.
Qed.

(** The comparison of a oneof option with its zero value type-checks for scalars and bytes, and for no
    enum and no message. *)
Theorem c31_oneof_scalars : forall ms enums meth parent o h n star, fd_type o = mkFT n None None (ft_msg (fd_type o)) None star false ->
  scalar_name n -> new_option ms meth parent o = Ret h -> comparable enums (GName n) (hf_zero h).
Proof.
  intros ms enums meth parent o h n star Et Hs H. unfold new_option in H. rewrite Et in H. cbn [ft_name ft_enum ft_map ft_array ft_msg] in H.
  destruct (ft_msg (fd_type o)); [|discriminate]. injection H as <-. cbn [hf_zero]. clear Et.
  unfold scalar_name, go_base_types in Hs. cbn [In] in Hs.
  repeat (destruct Hs as [<-|Hs]); try destruct Hs; unfold get_zero_value; cbn -[T numeric];
    first [apply CpBool | apply CpStr | apply CpNum; left; unfold numeric; cbn [In]; auto 10].
Qed.
Print Assumptions c31_oneof_scalars.
Theorem c31_oneof_enum_broken : forall ms enums meth parent o h n i star r, fd_type o = mkFT n (Some i) None (Some r) None star false ->
  new_option ms meth parent o = Ret h -> ~ comparable enums (GName n) (hf_zero h).
Proof.
  intros ms enums meth parent o h n i star r Et H. unfold new_option in H. rewrite Et in H. cbn in H. injection H as <-. cbn.
  intro K. inversion K; subst; discriminate.
Qed.
Theorem c31_oneof_message_broken : forall ms enums meth parent o h n r, fd_type o = mkFT n None None (Some r) None true false ->
  ~ scalar_name n -> new_option ms meth parent o = Ret h -> ~ comparable enums (GPtr (GName n)) (hf_zero h).
Proof.
  intros ms enums meth parent o h n r Et Hn H. unfold new_option in H. rewrite Et in H. cbn [ft_name ft_enum ft_map ft_array ft_msg] in H.
  injection H as <-. cbn [hf_zero]. unfold get_zero_value. cbn [sh_base sh_rep sh_star sh_gotype negb orb].
  destruct (str_eqb_spec n (T "bool")) as [->|_]; [exfalso; apply Hn; unfold scalar_name, go_base_types; cbn [In]; auto 10|].
  destruct (str_eqb_spec n (T "string")) as [->|_]; [exfalso; apply Hn; unfold scalar_name, go_base_types; cbn [In]; auto 10|].
  intro K. inversion K.
Qed.
Print Assumptions c31_oneof_message_broken.

(** The assignment of an option type-checks exactly if the option's field is no pointer, for scalars and enums; a message is
    a pointer: the generated text then lacks the address. *)
Theorem c31_oneof_assignments : forall ms enums meth parent o h n e r star, fd_type o = mkFT n e None (Some r) None star false ->
  (e = None /\ scalar_name n) \/ (exists i, e = Some i /\ nth_error enums i = Some n) -> new_option ms meth parent o = Ret h ->
  (option_assignment_ok enums h (mref_name ms r) (go_camel_case (fd_name o)) (GName n) <-> star = false).
Proof.
  intros ms enums meth parent o h n e r star Et He H. unfold new_option in H. rewrite Et in H. cbn [ft_name ft_enum ft_map ft_array ft_msg ft_star] in H.
  injection H as <-. unfold option_assignment_ok. cbn [hf_tconv hf_conv hf_gotype hf_star]. split.
  - intros (inner & x & E & _). injection E as E _. destruct star; [discriminate|reflexivity].
  - intros ->. cbn [negb]. unfold create_decode_convert, create_decode_tconv. cbn [sh_gotype sh_star sh_base sh_enum sh_rep negb orb andb].
    destruct He as [[-> Hs]|(i & -> & Hi)].
    + rewrite orb_false_r. unfold scalar_name, go_base_types in Hs. cbn [In] in Hs.
      repeat (destruct Hs as [<-|Hs]); try destruct Hs; cbn -[T numeric]; (eexists; eexists; split; [reflexivity|]; split; [apply DcScalar|]); cbn -[T numeric]; first [apply EtVar | eapply EtCast; [reflexivity|num|left; num]].
    + rewrite orb_true_r. cbn [fst]. eexists. eexists. split; [reflexivity|]. split; [apply DcScalar|]. eapply EtCast; [reflexivity|num|]. right. eapply nth_error_In. exact Hi.
Qed.
Print Assumptions c31_oneof_assignments.
Theorem c31_oneof_message_assignment_broken : forall ms enums meth parent o h n r t, fd_type o = mkFT n None None (Some r) None true false -> new_option ms meth parent o = Ret h ->
  ~ option_assignment_ok enums h (mref_name ms r) (go_camel_case (fd_name o)) t.
Proof.
  intros ms enums meth parent o h n r t Et H. unfold new_option in H. rewrite Et in H. cbn [ft_name ft_enum ft_map ft_array ft_msg ft_star] in H. injection H as <-.
  intros (inner & x & E & _). discriminate.
Qed.

(** C50: the helper has the methods that have bindings, in order, each with its request and response type and its bindings. *)
Theorem c50_methods : forall ms svc hs, new_helper ms svc = Ret hs ->
  map (fun h => (hm_name h, hm_req h, hm_resp h, length (hm_binds h))) hs =
  map (fun m => (sm_name m, ft_name (sm_req m), ft_name (sm_resp m), length (sm_bindings m))) (filter (fun m => match sm_bindings m with [] => false | _ => true end) svc).
Proof.
  intros ms. induction svc as [|m svc IH]; intros hs H; cbn [new_helper filter] in *; [injection H as <-; reflexivity|].
  destruct (sm_bindings m) as [|b bs] eqn:Eb; [apply IH; exact H|]. destruct (new_method ms m) as [h| |] eqn:Em; try discriminate.
  destruct (new_helper ms svc) as [hs2| |]; try discriminate. injection H as <-. cbn [map]. rewrite (IH hs2 eq_refl). f_equal.
  pose proof (c27_labels ms m h Em) as [L _]. apply (f_equal (@length str)) in L. rewrite !map_length, seq_length in L.
  unfold new_method in Em. destruct (new_bindings _ _ _); try discriminate. injection Em as <-. cbn [hm_name hm_req hm_resp hm_binds] in *. rewrite L. reflexivity.
Qed.
Print Assumptions c50_methods.
(** A binding's fields are exactly the parameters that are no oneof and have a type name, in
    order, each with its own names, place and type; its oneofs exactly the oneof parameters. *)
Definition usable (p : hparam) : bool :=
  match ft_oneof (fd_type (pm_field p)) with
  | Some _ => false
  | None => match ft_name (fd_type (pm_field p)) with [] => false | _ => true end
  end.
Definition is_oneof (p : hparam) : bool := match ft_oneof (fd_type (pm_field p)) with Some _ => true | None => false end.
Definition field_facts (f : hfield) := (hf_name f, hf_query f, hf_loc f, hf_gotype f, hf_star f, hf_rep f, hf_enum f).
Definition param_facts (p : hparam) :=
  let t := fd_type (pm_field p) in
  (fd_name (pm_field p), fd_pbname (pm_field p), pm_loc p, ft_name t, ft_star t, ft_array t, match ft_enum t with Some _ => true | None => false end).
Lemma oneof_loop_names : forall ms meth ps os, oneof_loop ms meth ps = Ret os ->
  map (fun o => (ho_name o, ho_loc o)) os = map (fun p => (fd_name (pm_field p), pm_loc p)) (filter is_oneof ps).
Proof.
  induction ps as [|p ps IH]; intros os H; cbn [oneof_loop filter] in *; [injection H as <-; reflexivity|].
  unfold is_oneof at 1. destruct (ft_oneof (fd_type (pm_field p))) as [l|]; [|apply IH; exact H].
  destruct (new_options _ _ _ _); try discriminate. destruct (oneof_loop ms meth ps) as [r| |]; try discriminate.
  injection H as <-. cbn. f_equal. apply IH. reflexivity.
Qed.
Theorem c50_binding : forall ms i m b h, nth_error (sm_bindings m) i = Some b -> new_binding ms i m = Ret h ->
  hb_path h = sb_path b /\ hb_verb h = sb_verb b
  /\ map field_facts (hb_fields h) = map param_facts (filter usable (sb_params b))
  /\ map (fun o => (ho_name o, ho_loc o)) (hb_oneofs h) = map (fun p => (fd_name (pm_field p), pm_loc p)) (filter is_oneof (sb_params b)).
Proof.
  intros ms i m b h Hb H. unfold new_binding in H. rewrite Hb in H. destruct (oneof_loop _ _ _) as [os| |] eqn:E; try discriminate.
  injection H as <-. cbn [hb_path hb_verb hb_fields hb_oneofs]. split; [reflexivity|]. split; [reflexivity|]. split; [|eapply oneof_loop_names; exact E].
  clear E Hb. unfold field_loop. induction (sb_params b) as [|p ps IH]; [reflexivity|]. cbn [flat_map filter].
  unfold usable at 1. destruct (ft_oneof (fd_type (pm_field p))); [exact IH|].
  destruct (ft_name (fd_type (pm_field p))) as [|c n] eqn:En; cbn [str_eqb]; [exact IH|]. cbn [app map]. rewrite IH. reflexivity.
Qed.
Print Assumptions c50_binding.
(** The literal part of a path before its first parameter: BasePath. *)
Theorem c50_base_path : forall p q, ~ In c_lbrace p -> base_path (p ++ c_lbrace :: q) = p /\ base_path p = p.
Proof.
  intros p q H. unfold base_path. rewrite (split1_app c_lbrace p q H), (split1_one c_lbrace p H). auto.
Qed.
Print Assumptions c50_base_path.
Example c50_ex : exists h, new_binding [] 0 (mkSMeth (T "Sum") (mkFT (T "R") None None None None true false) (mkFT (T "R") None None None None true false)
    [mkSBind (T "get") (T "/sum/{a}") [mkParam (mkFld (T "A") (T "a") (mkFT (T "int64") None None None None false false)) (T "path");
                                      mkParam (mkFld (T "M") (T "m") (mkFT [] None None None (Some (mkFT (T "string") None None None None false false, mkFT (T "string") None None None None false false)) false false)) (T "query")]]) = Ret h
  /\ map hf_local (hb_fields h) = [T "ASum"] /\ hb_label h = T "SumZero" /\ hb_base h = T "/sum/".
Proof. eexists. split; [reflexivity|]. split; [reflexivity|]. split; reflexivity. Qed.
