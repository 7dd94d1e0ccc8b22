(** Proofs about the generated client and server: the whole query, the path, the request. *)
From Coq Require Import Permutation.
From Verif Require Import GoStr GoStrProofs GoMap SplitJoin Decimals SvcTypes Strs HttpSpec HttpTransport HttpTypes HttpProofs HttpTypesProofs
  Url UrlProofs GenHttp GenHttpSpec GenHttpProofs GenHttpProofs2.

Section R.
Variable K : codecs.

(** ** The query *)
Definition in_query (f : hfield) : bool := str_eqb (hf_loc f) (T "query").
Definition o_in_query (o : honeof) : bool := str_eqb (ho_loc o) (T "query").
Definition f_entry (req : request) (f : hfield) : str * list str := (hf_query f, or_nil (field_values K req f)).
Definition o_entry (req : request) (h : hfield) : str * list str := (hf_query h, or_nil (option_values K req h)).
Definition add_entry (m : values) (e : str * list str) : values := add_all m (fst e) (snd e).

Lemma query_fields_fold : forall req fs m, (forall f, In f fs -> in_query f = true -> exists l, field_values K req f = Some l) ->
  query_fields K req fs m = Some (fold_left add_entry (map (f_entry req) (filter in_query fs)) m).
Proof.
  induction fs as [|f fs IH]; intros m H; [reflexivity|]. cbn [query_fields filter]. fold (in_query f). destruct (in_query f) eqn:E.
  - destruct (H f (or_introl eq_refl) E) as [l El]. rewrite El. cbn [map fold_left]. unfold f_entry at 2, add_entry at 2. rewrite El. cbn [fst snd or_nil].
    rewrite IH by (intros g Hg; apply H; right; exact Hg). reflexivity.
  - apply IH. intros g Hg. apply H. right. exact Hg.
Qed.
Lemma query_options_fold : forall req os m, (forall h, In h os -> exists l, option_values K req h = Some l) ->
  query_options K req os m = Some (fold_left add_entry (map (o_entry req) os) m).
Proof.
  induction os as [|h os IH]; intros m H; [reflexivity|]. cbn [query_options].
  destruct (H h (or_introl eq_refl)) as [l El]. rewrite El. cbn [map fold_left]. unfold o_entry at 2, add_entry at 2. rewrite El. cbn [fst snd or_nil].
  rewrite IH by (intros g Hg; apply H; right; exact Hg). reflexivity.
Qed.
Definition query_opts (os : list honeof) : list hfield := flat_map ho_options (filter o_in_query os).
Lemma query_oneofs_fold : forall req os m, (forall h, In h (query_opts os) -> exists l, option_values K req h = Some l) ->
  query_oneofs K req os m = Some (fold_left add_entry (map (o_entry req) (query_opts os)) m).
Proof.
  induction os as [|o os IH]; intros m H; [reflexivity|]. unfold query_opts in *. cbn [query_oneofs filter] in *. fold (o_in_query o). destruct (o_in_query o) eqn:E.
  - cbn [flat_map] in H |- *. rewrite query_options_fold by (intros h Hh; apply H; apply in_or_app; left; exact Hh).
    rewrite map_app, fold_left_app. apply IH. intros h Hh. apply H. apply in_or_app. right. exact Hh.
  - apply IH. exact H.
Qed.
Lemma fold_entries : forall es m, NoDup (map fst es) -> (forall k, In k (keys m) -> ~ In k (map fst es)) ->
  fold_left add_entry es m = m ++ nonempty_entries es.
Proof.
  induction es as [|[k l] es IH]; intros m Hnd Hd; [cbn; rewrite app_nil_r; reflexivity|]. cbn [map fst] in Hnd. inversion Hnd as [|x y Hx Hy]; subst.
  cbn [fold_left]. unfold add_entry at 2. cbn [fst snd]. rewrite add_all_new by (intro H; apply (Hd k H); left; reflexivity).
  cbn [nonempty_entries filter snd]. destruct l as [|v l].
  - apply IH; [exact Hy|]. intros k2 H2 H3. apply (Hd k2 H2). right. exact H3.
  - rewrite IH; [rewrite <- app_assoc; reflexivity|exact Hy|]. intros k2 H2 H3. unfold keys in H2. rewrite map_app in H2. apply in_app_or in H2.
    destruct H2 as [H2|[<-|[]]]; [apply (Hd k2 H2); right; exact H3|apply Hx; exact H3].
Qed.
Lemma nonempty_keys : forall m, NoDup (map fst m) -> NoDup (keys (nonempty_entries m)).
Proof.
  induction m as [|[k l] m IH]; intro H; [constructor|]. cbn [map fst] in H. inversion H as [|x y Hx Hy]; subst. cbn [nonempty_entries filter snd].
  destruct l; [apply IH; exact Hy|]. cbn [keys map fst]. constructor; [|apply IH; exact Hy].
  intro Hi. apply Hx. unfold keys in Hi. apply in_map_iff in Hi. destruct Hi as (e & E & Hi). apply filter_In in Hi. rewrite <- E. apply in_map. apply Hi.
Qed.
Lemma query_arrives : forall es, NoDup (map fst es) -> Forall (fun e => bytes (fst e) /\ Forall bytes (snd e)) es ->
  forall k l, In (k, l) es -> mget (parse_query (encode_values (fold_left add_entry es []))) k = opt_list l.
Proof.
  intros es Hnd Hb k l Hin. rewrite fold_entries by (try exact Hnd; intros k2 []). cbn [app]. rewrite query_round_trip.
  - rewrite mget_nonempty by exact Hnd. assert (E : mget es k = Some l) by (apply mget_in; assumption). rewrite E. destruct l; reflexivity.
  - unfold values_bytes, nonempty_entries. apply Forall_forall. intros e He. apply filter_In in He. rewrite Forall_forall in Hb. apply Hb. apply He.
  - apply nonempty_keys. exact Hnd.
Qed.

(** ** The path *)
Lemma plain_free : forall p, tpart_plain p -> ~ In c_slash (write_part p) .
Proof.
  intros [s|n] H; cbn in H |- *; [apply H|]. destruct H as (_ & (H & _) & _). intros [E|E]; [discriminate|].
  apply in_app_or in E. destruct E as [E|[E|[]]]; [apply H; exact E|discriminate].
Qed.
Lemma brace_plain : forall n, plain n -> has_brace n = false.
Proof. intros n (_ & H1 & H2). apply not_true_is_false. rewrite has_brace_in. tauto. Qed.
Lemma strip_plain' : forall s, plain s -> remove_braces s = s.
Proof.
  intros s (H0 & H1 & H2). rewrite remove_braces_filter. clear H0. induction s as [|c s IH]; [reflexivity|]. cbn [filter].
  destruct (N.eqb_spec c c_lbrace) as [->|_]; [destruct H1; left; reflexivity|].
  destruct (N.eqb_spec c c_rbrace) as [->|_]; [destruct H2; left; reflexivity|]. cbn. f_equal. apply IH; intro Hc; [apply H1|apply H2]; right; exact Hc.
Qed.
Lemma param_part_var : forall n, n <> [] -> plain n -> is_param_part (write_part (TVar n)) = true /\ remove_braces (write_part (TVar n)) = n.
Proof.
  intros n Hne Hp. split.
  - unfold is_param_part, write_part. cbn [hd length]. rewrite app_length. cbn [length]. destruct n as [|c n]; [congruence|]. cbn [length].
    replace (Nat.ltb 2 (S (S (length n) + 1))) with true by (symmetry; apply Nat.ltb_lt; lia). rewrite N.eqb_refl.
    change (c_lbrace :: (c :: n) ++ [c_rbrace]) with ((c_lbrace :: c :: n) ++ [c_rbrace]). rewrite last_last. reflexivity.
  - rewrite remove_braces_filter. unfold write_part. cbn [filter]. rewrite N.eqb_refl. cbn [negb andb]. rewrite filter_app.
    rewrite <- remove_braces_filter, (strip_plain' n Hp). cbn. apply app_nil_r.
Qed.
Lemma param_part_lit : forall s, plain s -> is_param_part s = false.
Proof.
  intros [|c s] (_ & H & _); [reflexivity|]. unfold is_param_part. cbn [hd]. destruct (N.eqb_spec c c_lbrace) as [->|_]; [destruct H; left; reflexivity|].
  rewrite andb_false_r. reflexivity.
Qed.
Lemma mux_part_var : forall n w, plain n -> ~ In c_colon n -> w <> [] -> mux_part (write_part (TVar n)) w = Some [(n, w)].
Proof.
  intros n w Hp Hc Hw. unfold mux_part, write_part.
  assert (E : has_brace (c_lbrace :: n ++ [c_rbrace]) = true) by (apply has_brace_in; left; left; reflexivity). rewrite E. clear E.
  change (cut_at c_lbrace (c_lbrace :: n ++ [c_rbrace])) with (@nil N, n ++ [c_rbrace]).
  cbv beta iota zeta. rewrite (cut_at_app c_rbrace n []) by apply Hp. rewrite (brace_plain n Hp). cbn [has_brace contains1 existsb orb].
  assert (contains1 n c_colon = false) as -> by (apply not_true_is_false; rewrite contains1_in; exact Hc).
  change (has_brace []) with false. cbn [orb].
  unfold has_suffix. change (rev (@nil N)) with (@nil N). destruct w as [|c w]; [congruence|].
  assert (Hp0 : forall s, has_prefix s [] = true) by (destruct s; reflexivity). rewrite !Hp0. cbn [length Nat.add Nat.ltb Nat.leb andb skipn].
  rewrite !Nat.sub_0_r. rewrite firstn_all2 by (cbn; lia). reflexivity.
Qed.
Lemma mux_part_lit : forall s, plain s -> mux_part s s = Some [].
Proof. intros s H. unfold mux_part. rewrite (brace_plain s H), str_eqb_refl. reflexivity. Qed.

Definition tpart_fine (p : tpart) : Prop := p = TLit [] \/ tpart_plain p.
Lemma fine_plain : forall ts, template_plain ts -> Forall tpart_fine ts.
Proof.
  intros ts (_ & us & H & [->| ->]).
  - eapply Forall_impl; [|exact H]. intros a Ha. right. exact Ha.
  - apply Forall_app. split; [eapply Forall_impl; [|exact H]; intros a Ha; right; exact Ha|]. apply Forall_cons; [left; reflexivity|apply Forall_nil].
Qed.
Definition var_pairs (env : str -> str) (ts : list tpart) : gomap str := map (fun n => (n, env n)) (template_vars ts).
Lemma mux_parts_fill : forall env ts, Forall tpart_fine ts -> (forall n, In (TVar n) ts -> path_safe (env n)) ->
  mux_parts (map write_part ts) (map (fill_part env) ts) = Some (var_pairs env ts).
Proof.
  induction ts as [|p ts IH]; intros H He; [reflexivity|]. inversion H as [|x y Hp Hts]; subst. cbn [map mux_parts].
  rewrite IH by (try exact Hts; intros n Hn; apply He; right; exact Hn). unfold var_pairs, template_vars. destruct p as [s|n]; cbn [fill_part flat_map app map].
  - cbn [write_part]. destruct Hp as [E|Hp]; [injection E as ->; reflexivity|]. rewrite mux_part_lit by apply Hp. reflexivity.
  - destruct Hp as [E|(Hn & Hpl & Hc)]; [discriminate|]. rewrite mux_part_var by (try assumption; apply He; left; reflexivity). reflexivity.
Qed.
Lemma var_get : forall env ts n, In (TVar n) ts -> mget (var_pairs env ts) n = Some (env n).
Proof.
  intros env ts n H. assert (Hi : In n (template_vars ts)).
  { unfold template_vars. apply in_flat_map. exists (TVar n). split; [exact H|left; reflexivity]. }
  unfold var_pairs. clear H. induction (template_vars ts) as [|m l IH]; [destruct Hi|]. cbn [map mget].
  destruct (str_eqb_spec n m) as [->|Ne]; [reflexivity|]. apply IH. destruct Hi as [E|Hi]; [congruence|exact Hi].
Qed.
Definition filled (env : str -> str) (ts : list tpart) : str := c_slash :: join [c_slash] (map (fill_part env) ts).
Lemma join_cons : forall (w : str) ws, ws <> [] -> join [c_slash] (w :: ws) = w ++ c_slash :: join [c_slash] ws.
Proof. intros w [|x ws] H; [congruence|reflexivity]. Qed.
Lemma join_forall : forall (P : N -> Prop) ws, P c_slash -> Forall (Forall P) ws -> Forall P (join [c_slash] ws).
Proof.
  intros P ws Hs H. induction H as [|w ws Hw Hws IH]; [apply Forall_nil|]. destruct ws as [|x ws]; [exact Hw|].
  rewrite join_cons by discriminate. apply Forall_app. split; [exact Hw|]. apply Forall_cons; [exact Hs|exact IH].
Qed.
Lemma fill_safe : forall env p, tpart_plain p -> (forall n, p = TVar n -> path_safe (env n)) -> path_safe (fill_part env p).
Proof. intros env [s|n] H He; cbn in *; [apply H|apply He; reflexivity]. Qed.
Definition url_char (c : N) : Prop := c <> 63%N /\ c <> 35%N /\ c <> 37%N /\ (32 <= c)%N /\ c <> 127%N.
Lemma unescape_plain : forall s, Forall url_char s -> unescape false s = Some s.
Proof.
  intros s H. induction H as [|c s Hc Hs IH]; [reflexivity|]. cbn [unescape].
  assert (N.eqb c 37 = false) as -> by (apply N.eqb_neq; apply Hc). rewrite IH. reflexivity.
Qed.
Lemma fill_chars : forall env p, tpart_fine p -> (forall n, p = TVar n -> path_safe (env n)) -> Forall url_char (fill_part env p).
Proof.
  intros env p [->|Hp] He; [apply Forall_nil|]. destruct (fill_safe env p Hp He) as (_ & _ & _ & H).
  eapply Forall_impl; [|exact H]. intros c Hc. unfold url_plain, url_char in *. tauto.
Qed.
Lemma not_in_chars : forall c s, Forall url_char s -> ~ url_char c -> ~ In c s.
Proof. intros c s H Hc Hi. rewrite Forall_forall in H. apply Hc. apply H. exact Hi. Qed.
Lemma url_parse_filled : forall env ts, template_plain ts -> (forall n, In (TVar n) ts -> path_safe (env n)) ->
  url_parse_path (filled env ts) = Some (filled env ts).
Proof.
  intros env ts Ht He. pose proof (fine_plain ts Ht) as Hf.
  assert (Hch : Forall url_char (filled env ts)).
  { unfold filled. apply Forall_cons; [unfold url_char, c_slash; lia|]. apply join_forall; [unfold url_char, c_slash; lia|].
    apply Forall_forall. intros w Hw. apply in_map_iff in Hw. destruct Hw as (p & <- & Hp). rewrite Forall_forall in Hf.
    apply fill_chars; [apply Hf; exact Hp|]. intros n ->. apply He. exact Hp. }
  assert (Hpre : has_prefix (filled env ts) (T "//") = false).
  { destruct Ht as (Hne & us & Hus & E). unfold filled. destruct ts as [|p ts]; [congruence|].
    assert (Hnil : p = TLit [] -> ts = []).
    { intros ->. destruct us as [|u us].
      - destruct E as [E|E]; [discriminate|]. injection E as ->. reflexivity.
      - exfalso. inversion Hus as [|x y Hu Hus']; subst.
        destruct E as [E|E]; cbn in E; injection E as <- _; destruct Hu as [[Hu _] _]; apply Hu; reflexivity. }
    inversion Hf as [|x y Hp Hts]; subst. destruct Hp as [Hp|Hp].
    - rewrite (Hnil Hp), Hp. reflexivity.
    - destruct (fill_safe env p Hp) as (Hne2 & _ & _ & Hc); [intros n ->; apply He; left; reflexivity|].
      cbn [map]. destruct (fill_part env p) as [|c s] eqn:Ef; [congruence|]. inversion Hc as [|x y Hc1 Hc2]; subst.
      assert (N.eqb 47 c = false) by (apply N.eqb_neq; intro E2; apply (proj1 Hc1); subst; reflexivity).
      change (T "//") with [47; 47]%N. destruct (map (fill_part env) ts); cbn -[N.eqb]; rewrite H; reflexivity. }
  unfold url_parse_path.
  assert (existsb (fun c => (c <? 32)%N || N.eqb c 127) (filled env ts) = false) as ->.
  { apply not_true_is_false. rewrite existsb_exists. intros (c & Hc & E). rewrite Forall_forall in Hch. specialize (Hch c Hc). unfold url_char in Hch.
    apply orb_true_iff in E. destruct E as [E|E]; [apply N.ltb_lt in E; lia|apply N.eqb_eq in E; lia]. }
  rewrite cut_at_none by (apply not_in_chars; [exact Hch|unfold url_char; lia]). cbn [unescape].
  rewrite cut_at_none by (apply not_in_chars; [exact Hch|unfold url_char; lia]). rewrite Hpre. cbn [andb].
  rewrite (unescape_plain _ Hch). reflexivity.
Qed.
Lemma fine_free : forall env p, tpart_fine p -> (forall n, p = TVar n -> path_safe (env n)) -> free c_slash (fill_part env p) /\ free c_slash (write_part p).
Proof.
  intros env p [->|Hp] He; [split; intros []|]. split; [|apply plain_free; exact Hp].
  destruct (fill_safe env p Hp He) as (_ & _ & _ & H). intro Hi. rewrite Forall_forall in H. destruct (H _ Hi) as [H1 _]. apply H1. reflexivity.
Qed.
Lemma split_slash_cons : forall s, split1 c_slash (c_slash :: s) = [] :: split1 c_slash s.
Proof. reflexivity. Qed.
Lemma clean_app : forall us w, (forall u, In u us -> path_safe u) -> w = [] \/ w = [[]] -> clean_parts (us ++ w) = true.
Proof.
  induction us as [|u us IH]; intros w Hu Hw; [destruct Hw as [->| ->]; reflexivity|]. cbn [app clean_parts].
  destruct (Hu u (or_introl eq_refl)) as (H1 & H2 & H3 & _). apply str_eqb_neq in H2, H3. rewrite H2, H3.
  rewrite IH by (try exact Hw; intros v Hv; apply Hu; right; exact Hv). destruct u; [congruence|]. reflexivity.
Qed.
Lemma mux_match_filled : forall env ts, template_plain ts -> (forall n, In (TVar n) ts -> path_safe (env n)) ->
  mux_match (write_template (TLit [] :: ts)) (filled env ts) = Some (var_pairs env ts).
Proof.
  intros env ts Ht He. pose proof (fine_plain ts Ht) as Hf. pose proof (proj1 Ht) as Hne.
  assert (Hfr : Forall (fun p => free c_slash (fill_part env p) /\ free c_slash (write_part p)) ts).
  { apply Forall_forall. intros p Hp. rewrite Forall_forall in Hf. apply fine_free; [apply Hf; exact Hp|]. intros n ->. apply He. exact Hp. }
  assert (E1 : split1 c_slash (filled env ts) = [] :: map (fill_part env) ts).
  { unfold filled. rewrite split_slash_cons, split_join; [reflexivity|destruct ts; [congruence|discriminate]|].
    apply Forall_forall. intros w Hw. apply in_map_iff in Hw. destruct Hw as (p & <- & Hp). rewrite Forall_forall in Hfr. apply Hfr. exact Hp. }
  assert (E2 : split1 c_slash (write_template (TLit [] :: ts)) = [] :: map write_part ts).
  { unfold write_template. cbn [map write_part]. rewrite join_cons by (destruct ts; [congruence|discriminate]). cbn [app]. rewrite split_slash_cons, split_join; [reflexivity|destruct ts; [congruence|discriminate]|].
    apply Forall_forall. intros w Hw. apply in_map_iff in Hw. destruct Hw as (p & <- & Hp). rewrite Forall_forall in Hfr. apply Hfr. exact Hp. }
  unfold mux_match, clean_path. rewrite E1, E2.
  assert (Hc : clean_parts (map (fill_part env) ts) = true).
  { destruct Ht as (_ & us & Hus & E). assert (Hs : forall u, In u (map (fill_part env) us) -> path_safe u).
    { intros u Hu. apply in_map_iff in Hu. destruct Hu as (p & <- & Hp). rewrite Forall_forall in Hus. apply fill_safe; [apply Hus; exact Hp|].
      intros n ->. apply He. destruct E as [->| ->]; [exact Hp|apply in_or_app; left; exact Hp]. }
    destruct E as [->| ->].
    - rewrite <- (app_nil_r (map _ us)). apply clean_app; [exact Hs|left; reflexivity].
    - rewrite map_app. apply clean_app; [exact Hs|right; reflexivity]. }
  destruct (map (fill_part env) ts) as [|w ws] eqn:Em; [destruct ts; [congruence|discriminate]|]. rewrite Hc, <- Em.
  change (mux_parts ([] :: map write_part ts) ([] :: map (fill_part env) ts)) with
    (match mux_part [] [], mux_parts (map write_part ts) (map (fill_part env) ts) with Some a, Some b => Some (a ++ b) | _, _ => None end).
  rewrite mux_parts_fill by assumption. reflexivity.
Qed.
End R.
