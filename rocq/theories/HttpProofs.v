(** Proofs about the HTTP transport helpers. *)
From Coq Require Import Decimal DecimalN DecimalPos.
From Verif Require Import GoStr GoStrProofs GoMap SplitJoin Decimals Strs SvcTypes HttpSpec HttpTransport.

(** ** PathParams *)
Lemma remove_braces_filter : forall s,
  remove_braces s = filter (fun c => negb (N.eqb c c_lbrace) && negb (N.eqb c c_rbrace)) s.
Proof.
  unfold remove_braces, replace1. induction s as [|c s IH]; [reflexivity|]. cbn [flat_map filter].
  destruct (N.eqb c c_lbrace) eqn:E1; cbn [negb andb app]; [exact IH|]. cbn [flat_map].
  destruct (N.eqb c c_rbrace); cbn [negb app]; rewrite IH; reflexivity.
Qed.
Lemma contains1_in : forall s c, contains1 s c = true <-> In c s.
Proof.
  intros. unfold contains1. rewrite existsb_exists. split; [intros (x & H & E); apply N.eqb_eq in E; subst; exact H|].
  intro H. exists c. rewrite N.eqb_refl. auto.
Qed.
Lemma has_brace_in : forall s, has_brace s = true <-> In c_lbrace s \/ In c_rbrace s.
Proof. intro s. unfold has_brace. rewrite orb_true_iff, !contains1_in. tauto. Qed.
Lemma names_iff : forall k p, names k p <-> has_brace p = true /\ remove_braces p = k.
Proof. intros. unfold names. rewrite has_brace_in, remove_braces_filter. split; intros [H1 H2]; auto. Qed.

Lemma param_loop_nodup : forall ps i rv, NoDup (keys rv) -> NoDup (keys (param_loop i ps rv)).
Proof. induction ps as [|p ps IH]; intros i rv H; cbn; [exact H|]. apply IH. destruct (has_brace p); [apply nodup_mset|]; exact H. Qed.
Lemma param_loop_get : forall ps i rv k v,
  mget (param_loop i ps rv) k = Some v <->
  (exists j, v = i + j /\ named_at ps k j) \/ ((forall p, In p ps -> ~ names k p) /\ mget rv k = Some v).
Proof.
  induction ps as [|p ps IH]; intros i rv k v; cbn [param_loop].
  - split; [intro H; right; split; [intros q []|exact H]|]. intros [(j & _ & (p & H & _) & _)|[_ H]]; [destruct j; discriminate|exact H].
  - rewrite IH. split.
    + intros [(j & -> & (q & Hq & Hn) & Hlast)|[Hno Hg]].
      * left. exists (S j). split; [lia|]. split; [exists q; auto|]. intros [|j'] p' Hlt E; [lia|]. apply (Hlast j' p'); [lia|exact E].
      * destruct (has_brace p) eqn:Eb; [rewrite mget_mset in Hg; destruct (str_eqb_spec k (remove_braces p)) as [->|N1]|].
        -- injection Hg as <-. left. exists 0. split; [lia|]. split; [exists p; split; [reflexivity|apply names_iff; auto]|].
           intros [|j'] p' Hlt E; [lia|]. apply Hno. apply (nth_error_In ps j'). exact E.
        -- right. split; [|exact Hg]. intros q [<-|Hq]; [|auto]. rewrite names_iff. intros [_ E]. auto.
        -- right. split; [|exact Hg]. intros q [<-|Hq]; [|auto]. rewrite names_iff. intros [E _]. congruence.
    + intros [(j & -> & (q & Hq & Hn) & Hlast)|[Hno Hg]].
      * destruct j as [|j].
        -- injection Hq as <-. right. split.
           { intros q Hin. apply In_nth_error in Hin. destruct Hin as [n En]. apply (Hlast (S n) q); [lia|exact En]. }
           apply names_iff in Hn. destruct Hn as [-> <-]. rewrite mget_mset_same. f_equal. lia.
        -- left. exists j. split; [lia|]. split; [exists q; auto|]. intros j' p' Hlt E. apply (Hlast (S j') p'); [lia|exact E].
      * right. split; [intros q Hq; apply Hno; right; exact Hq|].
        destruct (has_brace p) eqn:Eb; [|exact Hg]. rewrite mget_mset_other; [exact Hg|]. intro E. apply (Hno p); [left; reflexivity|].
        apply names_iff. auto.
Qed.

Lemma pick_get : forall parts pmp rv, NoDup (keys pmp) -> (forall k i, mget pmp k = Some i -> i < length parts) ->
  exists m, pick_params parts pmp rv = Ret m /\
    forall k, mget m k = match mget pmp k with Some i => nth_error parts i | None => mget rv k end.
Proof.
  induction pmp as [|[k0 v0] pmp IH]; intros rv Hnd Hr; cbn [pick_params].
  - exists rv. split; [reflexivity|]. reflexivity.
  - inversion Hnd as [|x l Hx Hl]; subst. assert (H0 : v0 < length parts).
    { apply (Hr k0). cbn. rewrite str_eqb_refl. reflexivity. }
    destruct (nth_error parts v0) as [w|] eqn:E; [|apply nth_error_None in E; lia].
    destruct (IH (mset rv k0 w) Hl) as (m & Em & Hm).
    { intros k i Hk. apply (Hr k). cbn. destruct (str_eqb_spec k k0) as [->|N1]; [|exact Hk].
      exfalso. assert (Hn : mget pmp k0 = None) by (apply mget_none; exact Hx). rewrite Hn in Hk. discriminate. }
    exists m. split; [exact Em|]. intro k. rewrite Hm. cbn [mget]. destruct (str_eqb_spec k k0) as [->|N1].
    + assert (Hn : mget pmp k0 = None) by (apply mget_none; exact Hx). rewrite Hn, mget_mset_same. symmetry. exact E.
    + destruct (mget pmp k); [reflexivity|]. apply mget_mset_other. exact N1.
Qed.

Lemma parts_of_split : forall s ps, parts_of s ps <-> ps = split1 c_slash s.
Proof.
  intros s ps. split.
  - intros (Hne & Hf & ->). symmetry. apply split_join; assumption.
  - intros ->. split; [apply split1_ne|]. split; [apply split1_free|]. symmetry. apply join_split.
Qed.
Lemma drop_trailing_last : forall l, last (drop_trailing l) [c_slash] <> [].
Proof.
  intro l. induction l as [|w l IH] using rev_ind; [discriminate|]. rewrite drop_trailing_snoc. destruct w; [exact IH|].
  rewrite last_last. discriminate.
Qed.
Lemma drop_trailing_repeat : forall l k, drop_trailing (l ++ repeat [] k) = drop_trailing l.
Proof.
  intros l k. revert l. induction k as [|k IH]; intro l; [rewrite app_nil_r; reflexivity|].
  cbn [repeat]. change ([] :: repeat [] k) with ([[]] ++ repeat (@nil N) k). rewrite app_assoc, IH. apply drop_trailing_snoc.
Qed.
Lemma drop_trailing_id : forall l, last l [c_slash] <> [] -> drop_trailing l = l.
Proof. intros [|w l] H; [reflexivity|]. apply (drop_trailing_all _ [c_slash]); [discriminate|exact H]. Qed.
Lemma counted_iff : forall ps n, counted ps n <-> n = Nat.max 1 (length (drop_trailing ps)).
Proof.
  intros ps n. split.
  - intros (qs & k & -> & Hl & ->). rewrite drop_trailing_repeat, drop_trailing_id by exact Hl. reflexivity.
  - intros ->. destruct (drop_trailing_app ps) as [k E]. exists (drop_trailing ps), k.
    split; [exact E|]. split; [apply drop_trailing_last|reflexivity].
Qed.
Lemma parts_count_iff : forall s ps n, parts_of s ps -> (counted ps n <-> parts_count s = n).
Proof.
  intros s ps n H. apply parts_of_split in H. subst ps. rewrite counted_iff. unfold parts_count. rewrite split_trim_right.
  destruct (drop_trailing (split1 c_slash s)) as [|w l]; cbn; split; congruence.
Qed.
Lemma has_brace_ne : forall p, has_brace p = true -> p <> [].
Proof. intros [|]; [discriminate|discriminate]. Qed.
Lemma drop_length : forall l, length (drop_trailing l) <= length l.
Proof. intro l. destruct (drop_trailing_app l) as [n E]. rewrite E at 2. rewrite app_length. lia. Qed.

Lemma path_params_char : forall url tmpl us ts, parts_of url us -> parts_of tmpl ts ->
  (path_params url tmpl = Ret None /\ ~ (exists n, counted us n /\ counted ts n)) \/
  exists m, path_params url tmpl = Ret (Some m) /\ (exists n, counted us n /\ counted ts n)
    /\ (forall k v, mget m k = Some v <-> exists j, named_at ts k j /\ nth_error us j = Some v).
Proof.
  intros url tmpl us ts Hu Ht. unfold path_params.
  destruct (Nat.eqb_spec (parts_count tmpl) (parts_count url)) as [E|N1]; cbn [negb].
  - right. pose proof Hu as Hu2. pose proof Ht as Ht2. apply parts_of_split in Hu. apply parts_of_split in Ht.
    assert (Hr : forall k i, mget (build_param_map tmpl) k = Some i -> i < length us).
    { intros k i H. unfold build_param_map in H. apply param_loop_get in H. destruct H as [(j & -> & (p & Hp & Hn) & _)|[_ H]]; [|discriminate].
      apply names_iff in Hn. destruct Hn as [Hb _]. apply has_brace_ne in Hb. rewrite Ht in *.
      pose proof (nth_drop_trailing _ _ _ Hp Hb) as Hlt. unfold parts_count in E. rewrite !split_trim_right in E.
      destruct (drop_trailing (split1 c_slash tmpl)) as [|w l] eqn:Et; [cbn in Hlt; lia|].
      pose proof (drop_length (split1 c_slash url)) as Hl. subst us.
      destruct (drop_trailing (split1 c_slash url)) as [|w2 l2] eqn:Eu; cbn [length] in *; [|lia].
      pose proof (split1_ne c_slash url). destruct (split1 c_slash url); [contradiction|cbn; lia]. }
    rewrite Hu in Hr |- *. unfold build_param_map in *.
    destruct (pick_get (split1 c_slash url) _ [] (param_loop_nodup _ 0 [] (NoDup_nil _)) Hr) as (m & Em & Hm).
    rewrite Em. exists m. split; [reflexivity|]. split.
    + exists (parts_count url). rewrite <- Hu. split; [apply (parts_count_iff _ _ _ Hu2); reflexivity|apply (parts_count_iff _ _ _ Ht2); exact E].
    + intros k v. rewrite Hm. rewrite <- Ht in *. destruct (mget (param_loop 0 ts []) k) as [i|] eqn:Ei.
      * pose proof Ei as Ei2. apply param_loop_get in Ei. destruct Ei as [(j & -> & Hj)|[_ Hn]]; [|discriminate]. split.
        -- intro H. exists j. split; [exact Hj|exact H].
        -- intros (j2 & Hj2 & Hv). cut (j2 = j); [intros ->; exact Hv|].
           assert (K : mget (param_loop 0 ts []) k = Some (0 + j2)) by (apply param_loop_get; left; exists j2; auto).
           rewrite K in Ei2. injection Ei2 as <-. reflexivity.
      * cbn. split; [discriminate|]. intros (j & Hj & _). exfalso.
        assert (K : mget (param_loop 0 ts []) k = Some (0 + j)) by (apply param_loop_get; left; exists j; auto). congruence.
  - left. split; [reflexivity|]. intros (n & H1 & H2). apply (parts_count_iff _ _ _ Hu) in H1. apply (parts_count_iff _ _ _ Ht) in H2. congruence.
Qed.

(** ** EnglishNumber *)
Fixpoint dl (u : uint) : list nat :=
  match u with
  | Nil => [] | D0 u => 0 :: dl u | D1 u => 1 :: dl u | D2 u => 2 :: dl u | D3 u => 3 :: dl u | D4 u => 4 :: dl u
  | D5 u => 5 :: dl u | D6 u => 6 :: dl u | D7 u => 7 :: dl u | D8 u => 8 :: dl u | D9 u => 9 :: dl u
  end.
Definition cons_digit (d : nat) (u : uint) : uint :=
  match d with 0 => D0 u | 1 => D1 u | 2 => D2 u | 3 => D3 u | 4 => D4 u | 5 => D5 u | 6 => D6 u | 7 => D7 u | 8 => D8 u | _ => D9 u end.
Definition u_of (ds : list nat) : uint := fold_right cons_digit Nil ds.
Definition words (ds : list nat) : str := concat (map digit_word ds).
Definition english_text (s : str) : str := flat_map (fun c => match digit_english c with Some w => w | None => [] end) s.
Lemma english_dl : forall u, english_text (digit_text u) = words (dl u).
Proof. induction u; cbn [digit_text dl]; [reflexivity|..]; unfold words, english_text in *; cbn [flat_map map concat]; rewrite IHu; reflexivity. Qed.
Ltac ten d := destruct d as [|[|[|[|[|[|[|[|[|[|d]]]]]]]]]].
Lemma dl_u_of : forall ds, Forall (fun d => d < 10) ds -> dl (u_of ds) = ds.
Proof.
  induction ds as [|d ds IH]; intro H; [reflexivity|]. inversion H as [|x l Hd Hl]; subst. cbn [u_of fold_right].
  fold (u_of ds). ten d; try lia; cbn; rewrite IH by exact Hl; reflexivity.
Qed.
Lemma dl_lt : forall u, Forall (fun d => d < 10) (dl u).
Proof. induction u; cbn; constructor; auto; lia. Qed.
Lemma dl_val : forall u acc, digits_val acc (digit_text u) = Some (fold_left (fun a d => 10 * a + N.of_nat d)%N (dl u) acc).
Proof.
  induction u; intro acc; cbn [digit_text dl digits_val fold_left]; [reflexivity|..];
  match goal with |- context [is_digit ?c] => change (is_digit c) with true end; cbn iota; rewrite IHu; reflexivity.
Qed.
Lemma dl_decimal : forall n, decimal n (dl (N.to_uint n)).
Proof.
  intro n. split; [apply dl_lt|]. split.
  - pose proof (dl_val (N.to_uint n) 0) as H. rewrite digits_val_text, DecimalN.Unsigned.of_to in H. congruence.
  - split; [pose proof (to_uint_ne n) as H; destruct (N.to_uint n); cbn in *; congruence|].
    pose proof (DecimalN.Unsigned.to_of (N.to_uint n)) as H. rewrite DecimalN.Unsigned.of_to in H.
    remember (N.to_uint n) as u. clear Hequ. destruct u; cbn [dl hd]; intro K; try discriminate.
    assert (dl (D0 u) = [0]); [|assumption]. rewrite H. cbn [unorm nzhead]. unfold unorm in H. cbn [nzhead] in H.
    assert (Hz : forall u, match nzhead u with D0 _ => False | _ => True end) by (clear; induction u; cbn; auto).
    specialize (Hz u). unfold unorm. cbn [nzhead]. destruct (nzhead u); try discriminate H; [reflexivity|destruct Hz].
Qed.
Lemma decimal_fun : forall n ds, decimal n ds -> ds = dl (N.to_uint n).
Proof.
  intros n ds (Hl & Hv & Hne & Hz).
  assert (E : N.of_uint (u_of ds) = n).
  { pose proof (digits_val_text (u_of ds)) as H. rewrite dl_val, (dl_u_of ds Hl) in H. congruence. }
  assert (K : N.to_uint n = u_of ds).
  { rewrite <- E, DecimalN.Unsigned.to_of. destruct ds as [|d ds]; [contradiction|].
    destruct d as [|d]; [rewrite Hz by reflexivity; reflexivity|].
    inversion Hl as [|x l Hd _]; subst. cbn [u_of fold_right]. ten d; try reflexivity; lia. }
  rewrite K, dl_u_of by exact Hl. reflexivity.
Qed.
Lemma english_words : forall n ds, decimal n ds -> english_number (Z.of_N n) = words ds.
Proof. intros n ds H. apply decimal_fun in H. subst ds. unfold english_number. rewrite itoa_of_N. apply english_dl. Qed.

Lemma word_prefix : forall d e s s', d < 10 -> e < 10 -> digit_word d ++ s = digit_word e ++ s' -> d = e /\ s = s'.
Proof.
  intros d e s s' Hd He E. ten d; try lia; ten e; try lia; cbn in E; try discriminate E;
  (split; [reflexivity|]); injection E; auto.
Qed.
Lemma word_ne : forall d, d < 10 -> digit_word d <> [].
Proof. intros d H. ten d; try lia; discriminate. Qed.
Lemma words_inj : forall ds es, Forall (fun d => d < 10) ds -> Forall (fun d => d < 10) es -> words ds = words es -> ds = es.
Proof.
  induction ds as [|d ds IH]; intros [|e es] Hd He E; [reflexivity|..].
  - inversion He as [|x l H1 H2]; subst. symmetry in E. apply app_eq_nil in E. destruct (word_ne e H1). tauto.
  - inversion Hd as [|x l H1 H2]; subst. apply app_eq_nil in E. destruct (word_ne d H1). tauto.
  - inversion Hd as [|x l H1 H2]; inversion He as [|y l' H3 H4]; subst.
    apply (word_prefix d e (words ds) (words es) H1 H3) in E. destruct E as [-> E]. f_equal. apply IH; assumption.
Qed.
Lemma english_inj : forall i j : N, english_number (Z.of_N i) = english_number (Z.of_N j) -> i = j.
Proof.
  intros i j E. pose proof (dl_decimal i) as Di. pose proof (dl_decimal j) as Dj.
  rewrite (english_words _ _ Di), (english_words _ _ Dj) in E. apply words_inj in E; [|apply Di|apply Dj].
  destruct Di as (_ & <- & _). destruct Dj as (_ & <- & _). rewrite E. reflexivity.
Qed.

(** Two texts with the same numbered text: the longer one is the shorter one and whole words. *)
Lemma words_suffix : forall ds r es, Forall (fun d => d < 10) ds -> Forall (fun d => d < 10) es -> es <> [] -> words ds = r ++ words es ->
  exists ds1, ds = ds1 ++ es /\ r = words ds1.
Proof.
  induction ds as [|d ds IH]; intros r es Hd He Hne E.
  - symmetry in E. apply app_eq_nil in E. destruct E as [_ E]. destruct es as [|e es]; [contradiction|].
    inversion He; subst. apply app_eq_nil in E. destruct (word_ne e); tauto.
  - inversion Hd as [|x l H1 H2]; subst. destruct r as [|c r].
    + exists []. split; [|reflexivity]. apply words_inj; assumption.
    + change (words (d :: ds)) with (digit_word d ++ words ds) in E.
      assert (K : exists r2, c :: r = digit_word d ++ r2).
      { destruct es as [|e es]; [contradiction|]. inversion He as [|x l He1 He2]; subst.
        (* a word starts with an upper-case letter and goes on in lower case *)
        assert (Hw : forall d, d < 10 -> exists u t, digit_word d = u :: t /\ is_upper u = true /\ Forall (fun c => is_lower c = true) t).
        { intros d0 H0. ten d0; try lia; eexists; eexists; (split; [reflexivity|]); (split; [reflexivity|]); repeat (apply Forall_cons; [reflexivity|]); apply Forall_nil. }
        destruct (Hw d H1) as (u & t & Ed & _ & Ht). destruct (Hw e He1) as (v & t2 & Ee & Hv & _).
        change (words (e :: es)) with (digit_word e ++ words es) in E. rewrite Ed, Ee in *. cbn [app] in E. injection E as -> E.
        clear -E Ht Hv. cut (exists r2, r = t ++ r2); [intros [r2 ->]; exists r2; reflexivity|].
        revert r E. induction t as [|x t IH]; intros r E; [exists r; reflexivity|]. inversion Ht as [|y l Hx Hl]; subst.
        destruct r as [|y r]; cbn [app] in E; injection E as E1 E2.
        - exfalso. subst. clear -Hx Hv. unfold is_lower, is_upper in *. apply in_range_spec in Hx. apply in_range_spec in Hv. lia.
        - subst. destruct (IH Hl r E2) as [r2 ->]. exists r2. reflexivity. }
      destruct K as [r2 K]. rewrite K in E |- *. rewrite <- app_assoc in E. apply app_inv_head in E.
      destruct (IH r2 es H2 He Hne E) as (ds1 & -> & ->). exists (d :: ds1). auto.
Qed.
