(** C79: a list of scalars in one query value. *)
From Coq Require Import Lia String.
From Verif Require Import GoStr GoStrProofs GoMap Decimals SvcTypes Strs HttpSpec HttpTransport HttpTypes Url GenHttp GenHttpSpec GenHttpProofs GenHttpProofs2 GenHttpProofs4 DecodeSpec DecodeProofs PropGenHttp PropDecode ListSpec.

Section C79.
  Variable K : codecs.
  Notation ws w := (Forall (fun c => json_ws c = true) w).
  Lemma skip_white : forall w t, ws w -> skip_ws (w ++ t) = skip_ws t.
  Proof. intros w t H. induction H as [|c w Hc H IH]; [reflexivity|]. cbn [app skip_ws]. rewrite Hc. exact IH. Qed.
  Lemma skip_all : forall w, ws w -> skip_ws w = [].
  Proof. intros w H. rewrite <- (app_nil_r w). rewrite skip_white by exact H. reflexivity. Qed.
  Lemma inside_string : forall s t, inside s -> json_string (s ++ c_dquote :: t) = Some (s, t).
  Proof.
    intros s t H. induction H as [|c s H1 H2 H3 H IH|c s H IH]; [reflexivity| |].
    - cbn [app json_string]. rewrite (proj2 (N.eqb_neq _ _) H2), (proj2 (N.eqb_neq _ _) H3). assert ((c <? 32)%N = false) as -> by (apply N.ltb_ge; exact H1). rewrite IH. reflexivity.
    - cbn [app json_string]. change (N.eqb c_backslash c_dquote) with false. change (c_backslash <? 32)%N with false. change (N.eqb c_backslash c_backslash) with true. cbn iota. rewrite IH. reflexivity.
  Qed.
  (** The text of an item starts with something that is no white space, no bracket and not null. *)
  Definition starts (s : str) : Prop := exists c r, s = c :: r /\ json_ws c = false /\ c <> 91%N /\ c <> 93%N /\ c <> 110%N.
  Lemma num_starts : forall s, s <> [] -> Forall (fun c => num_char c = true) s -> starts s.
  Proof.
    intros [|c s] Hne H; [congruence|]. exists c, s. split; [reflexivity|]. assert (Hc : num_char c = true) by (inversion H; assumption). split.
    - pose proof (skip_ws_num (c :: s) [] Hne H) as E. rewrite app_nil_r in E. cbn [skip_ws] in E. destruct (json_ws c) eqn:Ew; [|reflexivity]. exfalso.
      assert (L : forall x, length (skip_ws x) <= length x) by (induction x as [|y x IH]; [apply le_n|cbn [skip_ws length]; destruct (json_ws y); [lia|apply le_n]]).
      pose proof (L s) as L1. rewrite E in L1. cbn [length] in L1. lia.
    - split; [|split]; intros ->; discriminate.
  Qed.
  Lemma itoa_starts : forall z, starts (itoa z).
  Proof. intro z. apply num_starts; [apply json_number_ne, json_number_itoa|apply itoa_chars]. Qed.
  Lemma item_starts : forall n s v, item K n s v -> starts s.
  Proof.
    intros n s v H. destruct H as [z H|z H|z H|z H| | |s f H1 H2 H3|s f H1 H2 H3|s t H1 H2]; try apply itoa_starts; try (apply num_starts; [apply json_number_ne; assumption|assumption]).
    - exists 116%N, (T "rue"). repeat split; discriminate.
    - exists 102%N, (T "alse"). repeat split; discriminate.
    - eexists _, _. split; [reflexivity|]. repeat split; discriminate.
  Qed.
  Lemma starts_skip : forall s t, starts s -> skip_ws (s ++ t) = s ++ t.
  Proof. intros s t (c & r & -> & H & _). cbn [app skip_ws]. rewrite H. reflexivity. Qed.
  Lemma starts_no_null : forall s t, starts s -> has_prefix (s ++ t) (T "null") = false.
  Proof. intros s t (c & r & -> & _ & _ & _ & H). change (T "null") with [110; 117; 108; 108]%N. cbn [app has_prefix]. assert (N.eqb 110 c = false) as E by (apply N.eqb_neq; congruence). rewrite ?E, ?(N.eqb_sym c 110), ?E. reflexivity. Qed.
  Definition ends (t : str) : Prop := forall c u, t = c :: u -> num_char c = false.
  Lemma number_elem : forall p s v t, s <> [] -> Forall (fun c => num_char c = true) s -> json_number s = true -> parse_scalar K p s = Some v -> (match p with PBool | PCopy => False | _ => True end) -> ends t ->
    json_elem K p (s ++ t) = Some (v, t).
  Proof.
    intros p s v t Hne H Hj Hp Hk He. unfold json_elem. rewrite num_no_null by assumption. assert (Hs : span num_char (s ++ t) = (s, t)) by (apply span_all; [exact H|exact He]).
    destruct p; try destruct Hk; rewrite Hs, Hj; cbn [parse_scalar] in Hp; [destruct (parse_uint _ _)|destruct (parse_int _ _)|destruct (fl_parse _ _ _)]; try discriminate Hp; cbn in Hp; injection Hp as <-; reflexivity.
  Qed.
  Lemma item_elem : forall n p s v t, scalar_table n = Some p -> item K n s v -> ends t -> json_elem K p (s ++ t) = Some (v, t).
  Proof.
    intros n p s v t Hp H He.
    assert (Z : forall n z, scalar_val K n (VZ z) -> scalar_table n = Some p -> (match p with PBool | PCopy => False | _ => True end) -> json_elem K p (itoa z ++ t) = Some (VZ z, t)).
    { intros n' z Hv Hp' Hk. destruct (scalar_rt K n' (VZ z) Hv) as (p' & Ep & Er & _). rewrite Hp' in Ep. injection Ep as <-. apply number_elem; [apply json_number_ne, json_number_itoa|apply itoa_chars|apply json_number_itoa|exact Er|exact Hk|exact He]. }
    destruct H as [z H|z H|z H|z H| | |s f H1 H2 H3|s f H1 H2 H3|s t0 H1 H2].
    - apply (Z (T "uint32") z); [apply SvU32; exact H|exact Hp|]. cbn in Hp. injection Hp as <-. exact I.
    - apply (Z (T "uint64") z); [apply SvU64; exact H|exact Hp|]. cbn in Hp. injection Hp as <-. exact I.
    - apply (Z (T "int32") z); [apply SvI32; exact H|exact Hp|]. cbn in Hp. injection Hp as <-. exact I.
    - apply (Z (T "int64") z); [apply SvI64; exact H|exact Hp|]. cbn in Hp. injection Hp as <-. exact I.
    - cbn in Hp. injection Hp as <-. unfold json_elem. cbn. destruct t; reflexivity.
    - cbn in Hp. injection Hp as <-. unfold json_elem. cbn. destruct t; reflexivity.
    - cbn in Hp. injection Hp as <-. apply number_elem; [apply json_number_ne; exact H1|exact H2|exact H1|cbn [parse_scalar]; rewrite H3; reflexivity|exact I|exact He].
    - cbn in Hp. injection Hp as <-. apply number_elem; [apply json_number_ne; exact H1|exact H2|exact H1|cbn [parse_scalar]; rewrite H3; reflexivity|exact I|exact He].
    - cbn in Hp. injection Hp as <-. unfold json_elem. change (has_prefix ((T """" ++ s ++ T """") ++ t) (T "null")) with false. cbn iota.
      change ((T """" ++ s ++ T """") ++ t) with (c_dquote :: (s ++ [c_dquote]) ++ t). cbn iota. change (N.eqb c_dquote c_dquote) with true. cbn iota. rewrite <- app_assoc. change ([c_dquote] ++ t) with (c_dquote :: t). rewrite (inside_string s t H1), H2. reflexivity.
  Qed.
  Lemma white_ends : forall w c u, ws w -> c = 44%N \/ c = 93%N -> ends (w ++ c :: u).
  Proof.
    intros w c u H Hc x y E. destruct H as [|d w Hd H].
    - cbn [app] in E. injection E as <- <-. destruct Hc as [-> | ->]; reflexivity.
    - cbn [app] in E. injection E as <- <-. unfold json_ws in Hd. apply orb_prop in Hd. destruct Hd as [Hd|Hd]; [apply orb_prop in Hd; destruct Hd as [Hd|Hd]; [apply orb_prop in Hd; destruct Hd as [Hd|Hd]|]|]; apply N.eqb_eq in Hd; subst d; reflexivity.
  Qed.
  Lemma spaced_elem : forall n p s v c u, scalar_table n = Some p -> spaced K n s v -> c = 44%N \/ c = 93%N ->
    exists r, json_elem K p (skip_ws (s ++ c :: u)) = Some (v, r) /\ skip_ws r = c :: u.
  Proof.
    intros n p s v c u Hp H Hc. assert (Sk : forall w2, ws w2 -> skip_ws (w2 ++ c :: u) = c :: u) by (intros w2 Hw; rewrite skip_white by exact Hw; destruct Hc as [-> | ->]; reflexivity).
    destruct H as [n w1 s w2 v Hw1 Hw2 Hi|n w1 w2 Hw1 Hw2]; exists (w2 ++ c :: u); (split; [|apply Sk; exact Hw2]); rewrite <- !app_assoc, skip_white by exact Hw1.
    - rewrite starts_skip by (eapply item_starts; exact Hi). apply (item_elem n); [exact Hp|exact Hi|apply white_ends; assumption].
    - change (skip_ws (T "null" ++ w2 ++ c :: u)) with (T "null" ++ w2 ++ c :: u). unfold json_elem. assert (has_prefix (T "null" ++ w2 ++ c :: u) (T "null") = true) as -> by (destruct (w2 ++ c :: u); reflexivity). cbn iota.
      change (skipn 4 (T "null" ++ w2 ++ c :: u)) with (w2 ++ c :: u). f_equal. f_equal. unfold scalar_table, zero_scalar in *.
      repeat match type of Hp with (if str_eqb n ?k then _ else _) = _ => let E := fresh in destruct (str_eqb n k) eqn:E; [apply str_eqb_eq in E; subst n; assert (J : forall a b : scalar_parse, Some a = Some b -> b = a) by (intros a b K1; congruence); rewrite (J _ _ Hp); reflexivity|] end. discriminate Hp.
  Qed.
  Lemma spaced_length : forall n s v, spaced K n s v -> 1 <= length s.
  Proof. intros n s v H. destruct H as [n w1 s w2 v Hw1 Hw2 Hi|n w1 w2 Hw1 Hw2]; rewrite !app_length; [destruct (item_starts _ _ _ Hi) as (c & r & -> & _); cbn [length]; lia|change (length (T "null")) with 4; lia]. Qed.
  Lemma elems : forall n p u, scalar_table n = Some p -> forall texts vs, Forall2 (spaced K n) texts vs -> texts <> [] -> forall fuel, length texts <= fuel ->
    json_elems K fuel p (join (T ",") texts ++ 93%N :: u) = Some (vs, u).
  Proof.
    intros n p u Hp texts vs H. induction H as [|s v texts vs Hs H IH]; [congruence|]. intros _ fuel Hf. destruct fuel as [|fuel]; [cbn [length] in Hf; lia|]. cbn [json_elems].
    destruct texts as [|s2 texts].
    - inversion H; subst. cbn [join]. destruct (spaced_elem n p s v 93%N u Hp Hs (or_intror eq_refl)) as (r & -> & ->). reflexivity.
    - change (join (T ",") (s :: s2 :: texts)) with (s ++ T "," ++ join (T ",") (s2 :: texts)). rewrite <- !app_assoc. change (T "," ++ join (T ",") (s2 :: texts) ++ 93%N :: u) with (44%N :: join (T ",") (s2 :: texts) ++ 93%N :: u).
      destruct (spaced_elem n p s v 44%N (join (T ",") (s2 :: texts) ++ 93%N :: u) Hp Hs (or_introl eq_refl)) as (r & -> & ->). change (N.eqb 44 44) with true. cbn iota.
      rewrite IH; [reflexivity|discriminate|cbn [length] in *; lia].
  Qed.
  Lemma join_length : forall n texts vs, Forall2 (spaced K n) texts vs -> length texts <= length (join (T ",") texts).
  Proof.
    intros n texts vs H. induction H as [|s v texts vs Hs H IH]; [apply le_n|]. pose proof (spaced_length _ _ _ Hs). destruct texts as [|s2 texts]; [cbn [join length]; lia|].
    change (join (T ",") (s :: s2 :: texts)) with (s ++ T "," ++ join (T ",") (s2 :: texts)). rewrite !app_length. cbn [length] in *. lia.
  Qed.
  Lemma join_starts : forall n texts vs u, Forall2 (spaced K n) texts vs -> texts <> [] -> exists c r, skip_ws (join (T ",") texts ++ u) = c :: r /\ c <> 93%N.
  Proof.
    intros n texts vs u H Hne. destruct H as [|s v texts vs Hs H]; [congruence|]. assert (E : exists t, join (T ",") (s :: texts) ++ u = s ++ t) by (destruct texts; [exists u; reflexivity|eexists; cbn [join]; rewrite <- !app_assoc; reflexivity]).
    destruct E as (t & ->). destruct Hs as [n w1 s w2 v Hw1 Hw2 Hi|n w1 w2 Hw1 Hw2]; rewrite <- !app_assoc, skip_white by exact Hw1.
    - rewrite starts_skip by (eapply item_starts; exact Hi). destruct (item_starts _ _ _ Hi) as (c & r & -> & _ & _ & H93 & _). exists c. eexists. split; [reflexivity|exact H93].
    - exists 110%N. eexists. split; [reflexivity|discriminate].
  Qed.
  Lemma array : forall n p w1 w2 texts vs, scalar_table n = Some p -> ws w1 -> ws w2 -> texts <> [] -> Forall2 (spaced K n) texts vs -> json_slice K p (w1 ++ T "[" ++ join (T ",") texts ++ T "]" ++ w2) = Some vs.
  Proof.
    intros n p w1 w2 texts vs Hp Hw1 Hw2 Hne H. unfold json_slice. rewrite skip_white by exact Hw1. change (T "[" ++ join (T ",") texts ++ T "]" ++ w2) with (91%N :: join (T ",") texts ++ 93%N :: w2).
    change (skip_ws (91%N :: join (T ",") texts ++ 93%N :: w2)) with (91%N :: join (T ",") texts ++ 93%N :: w2). cbn iota. change (N.eqb 91 91) with true. cbn iota.
    destruct (join_starts n texts vs (93%N :: w2) H Hne) as (c & r & E & Hc). rewrite E. rewrite (proj2 (N.eqb_neq _ _) Hc).
    rewrite (elems n p w2 Hp texts vs H Hne); [rewrite skip_all by exact Hw2; reflexivity|]. pose proof (join_length n texts vs H). rewrite app_length. lia.
  Qed.
  Lemma bare : forall n p w1 w2 s v texts, ws w1 -> item K n s v -> json_slice K p (join (T ",") ((w1 ++ s ++ w2) :: texts)) = None.
  Proof.
    intros n p w1 w2 s v texts Hw1 Hi. assert (E : exists t, join (T ",") ((w1 ++ s ++ w2) :: texts) = w1 ++ s ++ t) by (destruct texts; [exists w2; reflexivity|eexists; cbn [join]; rewrite <- !app_assoc; reflexivity]).
    destruct E as (t & ->). unfold json_slice. rewrite skip_white by exact Hw1. pose proof (item_starts _ _ _ Hi) as St. rewrite starts_skip by exact St. pose proof (starts_no_null s t St) as Hn.
    destruct St as (c & r & -> & _ & H91 & _). cbn [app] in *. rewrite (proj2 (N.eqb_neq _ _) H91), Hn. reflexivity.
  Qed.
  (** What the decoder makes of the one value. *)
  Lemma one_value : forall n p s vs, scalar_table n = Some p -> list_text K n s vs ->
    let s' := match json_slice K p s with Some _ => s | None => [91%N] ++ s ++ [93%N] end in json_slice K p s' = Some vs.
  Proof.
    intros n p s vs Hp H. destruct H as [n w1 w2 texts vs Hw1 Hw2 Hne H|n w1 w2 w3 Hw1 Hw2 Hw3|n w1 w2 s v texts vs Hw1 Hw2 Hi H]; cbv zeta.
    - rewrite (array n p w1 w2 texts vs Hp Hw1 Hw2 Hne H). exact (array n p w1 w2 texts vs Hp Hw1 Hw2 Hne H).
    - assert (E : json_slice K p (w1 ++ T "[" ++ w2 ++ T "]" ++ w3) = Some []).
      { unfold json_slice. rewrite skip_white by exact Hw1. change (T "[" ++ w2 ++ T "]" ++ w3) with (91%N :: w2 ++ 93%N :: w3). change (skip_ws (91%N :: w2 ++ 93%N :: w3)) with (91%N :: w2 ++ 93%N :: w3). cbn iota. change (N.eqb 91 91) with true. cbn iota.
        rewrite skip_white by exact Hw2. change (skip_ws (93%N :: w3)) with (93%N :: w3). cbn iota. change (N.eqb 93 93) with true. cbn iota. rewrite skip_all by exact Hw3. reflexivity. }
      rewrite E. exact E.
    - rewrite (bare n p w1 w2 s v texts Hw1 Hi). apply (array n p [] [] ((w1 ++ s ++ w2) :: texts) (v :: vs)); [exact Hp|apply Forall_nil|apply Forall_nil|discriminate|]. constructor; [|exact H]. apply SpItem; assumption.
  Qed.
  Lemma repeated_conv : forall meth p n, In n go_base_types -> fd_type (pm_field p) = mkFT n None None None None false true ->
    exists q nw ck, scalar_table n = Some q /\ hf_conv (new_hfield meth p) = CvRepeated (Some q) nw ck /\ hf_tconv (new_hfield meth p) = TcVar.
  Proof.
    intros meth p n Hn Et. destruct (table_base n Hn) as (q & Es). exists q. unfold new_hfield, field_shape. rewrite Et. cbn [ft_name ft_star ft_msg ft_enum ft_map ft_array hf_conv hf_tconv]. assert (Hbt : is_go_base_type n = true) by (apply existsb_In; exact Hn).
    rewrite Hbt. unfold create_decode_convert. cbn [sh_enum sh_rep sh_base sh_gotype negb andb orb fst].
    assert (Hby : contains n (T "[]byte") = false) by (cbn [go_base_types In] in Hn; repeat destruct Hn as [<-|Hn]; try reflexivity; contradiction).
    rewrite Hby. cbn [negb]. rewrite Es. eexists. eexists. split; [reflexivity|]. split; reflexivity.
  Qed.
  (** A repeated scalar in the query, with one value that is the text of a list: the decoding of that field succeeds with the list. *)
  Theorem c79_decoded : forall meth p n vars q s vs r e, In n go_base_types -> fd_type (pm_field p) = mkFT n None None None None false true -> pm_loc p = T "query" ->
    mget q (name_of p) = Some [s] -> list_text K n s vs -> decode_field K vars q (new_hfield meth p) r e = DOk (upd r (camel_of p) (VList vs)) false.
  Proof.
    intros meth p n vars q s vs r e Hn Et Hl Hq Ht. destruct (repeated_conv meth p n Hn Et) as (sp & nw & ck & Es & Ec & Ev). unfold decode_field. change (hf_loc (new_hfield meth p)) with (pm_loc p). rewrite Hl.
    change (str_eqb (T "query") (T "path")) with false. cbn iota. change (hf_query (new_hfield meth p)) with (name_of p). rewrite Hq. unfold run_convert. rewrite Ec. cbn [length Nat.ltb Nat.leb]. cbv zeta.
    pose proof (one_value n sp s vs Es Ht) as E. cbv zeta in E. rewrite E. cbn [assign]. rewrite Ev. reflexivity.
  Qed.
  (** So in every accepted request the field is that list. *)
  Theorem c79_list : forall ms i m sb b zero vars h r e p n s vs, nth_error (sm_bindings m) i = Some sb -> new_binding ms i m = Ret b -> NoDup (map camel_of (sb_params sb)) ->
    decode_request K zero b vars h = DOk r e -> In p (sb_params sb) -> In n go_base_types -> fd_type (pm_field p) = mkFT n None None None None false true -> pm_loc p = T "query" ->
    query_texts h (name_of p) = Some [s] -> list_text K n s vs -> r (camel_of p) = VList vs.
  Proof.
    intros ms i m sb b zero vars h r e p n s vs Hi Hb Hnd H Hp Hn Et Hl Hq Ht.
    assert (Hpl : plain_field p = true).
    { unfold plain_field, is_oneof. rewrite Et. cbn [ft_oneof ft_name negb andb]. cbn [go_base_types In] in Hn. repeat destruct Hn as [<-|Hn]; try reflexivity. contradiction. }
    destruct (field_part _ _ _ _ _ _ _ _ _ _ _ _ Hi Hb Hnd H Hp Hpl) as (r0 & _ & _ & Hrest). destruct Hrest as (r1 & e1 & r2 & e2 & Ed & E1 & E2); [rewrite Hl; discriminate|].
    rewrite (c79_decoded (sm_name m) p n vars (parse_query (rq_query h)) s vs r1 e1 Hn Et Hl Hq Ht) in Ed. injection Ed as <- <-. rewrite E2. apply upd_same.
  Qed.
End C79.
(** Cases: each text of the list 1, -2, 3, and a list of strings with a comma, a bracket and an escaped quote inside. *)
Section Cases.
  Variable K : codecs.
  Example c79_ints : list_text K (T "int32") (T "[1,-2, 3]") [VZ 1; VZ (-2); VZ 3] /\ list_text K (T "int32") (T "1,-2,3") [VZ 1; VZ (-2); VZ 3].
  Proof.
    assert (I : forall w s z, Forall (fun c => json_ws c = true) w -> s = itoa z -> (- 2 ^ 31 <= z < 2 ^ 31)%Z -> spaced K (T "int32") (w ++ s) (VZ z)).
    { intros w s z Hw -> H. rewrite <- (app_nil_r (itoa z)). apply SpItem; [exact Hw|apply Forall_nil|apply ItI32; exact H]. }
    split.
    - apply (LtArray K (T "int32") [] [] [T "1"; T "-2"; T " 3"]); [apply Forall_nil|apply Forall_nil|discriminate|].
      constructor; [apply (I []); [apply Forall_nil|reflexivity|lia]|]. constructor; [apply (I []); [apply Forall_nil|reflexivity|lia]|]. constructor; [apply (I (T " ")); [repeat (apply Forall_cons; [reflexivity|]); apply Forall_nil|reflexivity|lia]|constructor].
    - apply (LtBare K (T "int32") [] [] (T "1") (VZ 1) [T "-2"; T "3"]); [apply Forall_nil|apply Forall_nil|apply (ItI32 K 1); lia|].
      constructor; [apply (I []); [apply Forall_nil|reflexivity|lia]|]. constructor; [apply (I []); [apply Forall_nil|reflexivity|lia]|constructor].
  Qed.
  Example c79_strings : js_str K (T "a,]") = Some (T "a,]") -> js_str K (T "\""b") = Some (T """b") -> list_text K (T "string") (T """a,]"",""\""b""") [VS (T "a,]"); VS (T """b")].
  Proof.
    intros H1 H2. apply (LtBare K (T "string") [] [] (T """a,]""") (VS (T "a,]")) [T """\""b"""]); [apply Forall_nil|apply Forall_nil|apply (ItStr K (T "a,]")); [|exact H1]|].
    - repeat (apply InChar; [vm_compute; discriminate|discriminate|discriminate|]). apply InNil.
    - constructor; [|constructor]. apply (SpItem K (T "string") [] (T """\""b""") []); [apply Forall_nil|apply Forall_nil|]. apply (ItStr K (T "\""b")); [|exact H2]. apply InEsc. apply InChar; [vm_compute; discriminate|discriminate|discriminate|]. apply InNil.
  Qed.
End Cases.
Print Assumptions c79_decoded.
Print Assumptions c79_list.
