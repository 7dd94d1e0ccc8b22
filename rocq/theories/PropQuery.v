(** C94: what any query string says.  A client may spell parameters in many ways: + or %20, %2f or %2F, %61 or a; the decoders of the generated file read them all alike. *)
From Coq Require Import String Lia.
From Verif Require Import GoStr GoStrProofs GoMap SplitJoin Strs HttpTransport Url GenHttp.

(** ** Specification (RFC 3986, and + for a space as in HTML forms) *)
Definition hex (c : N) (x : nat) : Prop := nth_error (T "0123456789abcdef") x = Some c \/ nth_error (T "0123456789ABCDEF") x = Some c.
Inductive spells : str -> str -> Prop :=
| SpNil : spells [] []
| SpChar : forall c s r, c <> 37%N -> c <> 43%N -> spells s r -> spells (c :: s) (c :: r)
| SpPlus : forall s r, spells s r -> spells (43%N :: s) (32%N :: r)
| SpHex : forall a b x y s r, hex a x -> hex b y -> spells s r -> spells (37%N :: a :: b :: s) (N.of_nat (16 * x + y) :: r).
(** key=value, or a key alone *)
Definition pair_of (p : str) (kv : str * str) : Prop :=
  p <> [] /\ ~ In (c_semi) p /\
  ((exists k v, p = k ++ 61%N :: v /\ ~ In 61%N k /\ spells k (fst kv) /\ spells v (snd kv)) \/ (~ In 61%N p /\ spells p (fst kv) /\ snd kv = [])).
(** Parts between &; a part that is no pair (a bad escape, a semicolon, nothing at all) says nothing *)
Definition says (p : str) (o : option (str * str)) : Prop := match o with Some kv => pair_of p kv | None => forall kv, ~ pair_of p kv end.
Definition query_says (s : str) (l : list (option (str * str))) : Prop := exists parts, s = join [38%N] parts /\ parts <> [] /\ (forall p, In p parts -> ~ In 38%N p) /\ Forall2 says parts l.
Fixpoint values_of (k : str) (l : list (option (str * str))) : list str :=
  match l with
  | [] => []
  | Some (k', v) :: l' => if str_eqb k k' then v :: values_of k l' else values_of k l'
  | None :: l' => values_of k l'
  end.
Definition pairs_of (l : list (option (str * str))) : list (str * str) := flat_map (fun o => match o with Some kv => [kv] | None => [] end) l.

(** ** Proofs *)
Lemma hex_is c n : unhex c = Some n <-> exists x, n = N.of_nat x /\ hex c x.
Proof.
  split.
  - unfold unhex. assert (R : forall lo hi, in_range lo hi c = true -> (lo <= c)%N /\ (c <= hi)%N) by (intros lo hi H; unfold in_range in H; apply andb_prop in H; rewrite !N.leb_le in H; exact H).
    assert (E : forall lo k, (lo <= c)%N -> (c <= lo + N.of_nat k)%N -> exists j, (j <= k)%nat /\ c = (lo + N.of_nat j)%N) by (intros lo k H1 H2; exists (N.to_nat (c - lo)); split; lia).
    destruct (is_digit c) eqn:D; [|destruct (in_range 97 102 c) eqn:L; [|destruct (in_range 65 70 c) eqn:U; [|discriminate]]]; intro H; injection H as <-.
    + destruct (E 48%N 9%nat) as (j & Hj & Ej); [unfold is_digit in D; apply R in D; lia|unfold is_digit in D; apply R in D; cbn; lia|]. exists j. split; [lia|]. left. subst c. do 10 (destruct j as [|j]; [reflexivity|]). lia.
    + destruct (E 97%N 5%nat) as (j & Hj & Ej); [apply R in L; lia|apply R in L; cbn; lia|]. exists (10 + j)%nat. split; [lia|]. left. subst c. do 6 (destruct j as [|j]; [reflexivity|]). lia.
    + destruct (E 65%N 5%nat) as (j & Hj & Ej); [apply R in U; lia|apply R in U; cbn; lia|]. exists (10 + j)%nat. split; [lia|]. right. subst c. do 6 (destruct j as [|j]; [reflexivity|]). lia.
  - intros (x & -> & [H|H]); do 16 (destruct x as [|x]; [injection H as <-; reflexivity|]); destruct x; discriminate H.
Qed.
Theorem c94_spelling : forall s r, unescape true s = Some r <-> spells s r.
Proof.
  intro s. assert (W : forall n s r, (length s <= n)%nat -> unescape true s = Some r -> spells s r).
  { induction n as [|n IH]; intros t r Hl H; [destruct t; [injection H as <-; constructor|cbn in Hl; lia]|]. destruct t as [|c t]; [injection H as <-; constructor|]. cbn [unescape] in H. cbn [length] in Hl.
    destruct (N.eqb_spec c 37) as [->|N1].
    - destruct t as [|a [|b t]]; try discriminate H. destruct (unhex a) as [x|] eqn:Ea; [|discriminate H]. destruct (unhex b) as [y|] eqn:Eb; [|discriminate H]. destruct (unescape true t) as [r'|] eqn:E; [|discriminate H]. injection H as <-.
      apply hex_is in Ea, Eb. destruct Ea as (i & -> & Hi), Eb as (j & -> & Hj). assert (Z : (match N.of_nat i with 0 => 0 | N.pos q => N.pos q~0~0~0~0 end + N.of_nat j = N.of_nat (16 * i + j))%N) by (change (match N.of_nat i with 0 => 0 | N.pos q => N.pos q~0~0~0~0 end)%N with (16 * N.of_nat i)%N; lia).
      cbn in Z |- *. rewrite Z. apply (SpHex a b i j t r'); [exact Hi|exact Hj|]. apply IH; [cbn [length] in Hl; lia|exact E].
    - destruct (unescape true t) as [r'|] eqn:E; [|discriminate H]. injection H as <-. assert (S : spells t r') by (apply IH; [lia|exact E]). destruct (N.eqb_spec c 43) as [->|N2]; cbn [andb]; [exact (SpPlus t r' S)|exact (SpChar c t r' N1 N2 S)]. }
  intro r. split; [exact (W (length s) s r (le_n _))|]. induction 1 as [|c t r' N1 N2 S IH|t r' S IH|a b x y t r' Ha Hb S IH]; cbn [unescape].
  - reflexivity.
  - rewrite (proj2 (N.eqb_neq c 37) N1), IH, (proj2 (N.eqb_neq c 43) N2). reflexivity.
  - rewrite IH. reflexivity.
  - change (N.eqb 37 37) with true. cbn iota. rewrite (proj2 (hex_is a _) (ex_intro _ x (conj eq_refl Ha))), (proj2 (hex_is b _) (ex_intro _ y (conj eq_refl Hb))), IH. do 2 f_equal. lia.
Qed.
Print Assumptions c94_spelling.
Lemma cut_yes c k v : ~ In c k -> cut_at c (k ++ c :: v) = (k, v).
Proof. induction k as [|x k IH]; intro H; cbn [app cut_at]; [rewrite N.eqb_refl; reflexivity|]. rewrite (proj2 (N.eqb_neq x c)) by (intro E; apply H; left; exact E). rewrite IH by (intro I; apply H; right; exact I). reflexivity. Qed.
Lemma cut_no c s : ~ In c s -> cut_at c s = (s, []).
Proof. induction s as [|x s IH]; intro H; cbn [cut_at]; [reflexivity|]. rewrite (proj2 (N.eqb_neq x c)) by (intro E; apply H; left; exact E). rewrite IH by (intro I; apply H; right; exact I). reflexivity. Qed.
Lemma in_split_first (c : N) (s : str) : In c s -> exists k v, s = k ++ c :: v /\ ~ In c k.
Proof. induction s as [|x s IH]; intros []; [subst x; exists [], s; split; [reflexivity|intros []]|]. destruct (N.eq_dec x c) as [->|N]; [exists [], s; split; [reflexivity|intros []]|]. destruct IH as (k & v & -> & H'); [assumption|]. exists (x :: k), v. split; [reflexivity|]. intros [E|E]; [exact (N E)|exact (H' E)]. Qed.
Lemma cut_is c s : (~ In c s /\ cut_at c s = (s, [])) \/ exists k v, s = k ++ c :: v /\ ~ In c k /\ cut_at c s = (k, v).
Proof. destruct (in_dec N.eq_dec c s) as [I|I]; [right|left; split; [exact I|exact (cut_no c s I)]]. destruct (in_split_first c s I) as (k & v & E & N). exists k, v. split; [exact E|]. split; [exact N|]. subst s. exact (cut_yes c k v N). Qed.
Lemma semi_in p : contains1 p c_semi = true <-> In c_semi p.
Proof. unfold contains1. rewrite existsb_exists. split; [intros (x & I & E); apply N.eqb_eq in E; subst; exact I|intro I; exists c_semi; split; [exact I|apply N.eqb_refl]]. Qed.
(** What Go makes of a part *)
Definition read_part (p : str) : option (str * str) :=
  if contains1 p c_semi then None else match p with [] => None | _ => let (k, v) := cut_at 61 p in match unescape true k, unescape true v with Some k', Some v' => Some (k', v') | _, _ => None end end.
Lemma read_is m p : parse_pair m p = match read_part p with Some (k, v) => v_add m k v | None => m end.
Proof. unfold parse_pair, read_part. destruct (contains1 p c_semi); [reflexivity|]. destruct p as [|c p]; [reflexivity|]. destruct (cut_at 61 (c :: p)) as [k v]. destruct (unescape true k), (unescape true v); reflexivity. Qed.
Lemma read_pair p kv : read_part p = Some kv <-> pair_of p kv.
Proof.
  unfold read_part, pair_of. destruct (contains1 p c_semi) eqn:S.
  - apply semi_in in S. split; [discriminate|]. intros (_ & H & _). destruct (H S).
  - assert (NS : ~ In c_semi p) by (intro I; apply semi_in in I; congruence). destruct p as [|c p]; [split; [discriminate|intros (H & _); destruct (H eq_refl)]|]. destruct (cut_is 61 (c :: p)) as [[N E]|(k & v & Ep & N & E)]; rewrite E.
    + split.
      * destruct (unescape true (c :: p)) as [k'|] eqn:U; [|discriminate]. change (unescape true []) with (Some (@nil BinNums.N)). intro H. injection H as <-. split; [discriminate|]. split; [exact NS|]. right. split; [exact N|]. split; [apply c94_spelling; exact U|reflexivity].
      * intros (_ & _ & [(k & v & Ep & _)|(_ & Sk & Ev)]); [exfalso; apply N; rewrite Ep; apply in_or_app; right; left; reflexivity|]. apply c94_spelling in Sk. rewrite Sk. destruct kv as [k' v']. cbn [snd fst] in *. subst v'. reflexivity.
    + split.
      * destruct (unescape true k) as [k'|] eqn:U; [|discriminate]. destruct (unescape true v) as [v'|] eqn:V; [|discriminate]. intro H. injection H as <-. split; [discriminate|]. split; [exact NS|]. left. exists k, v. split; [exact Ep|]. split; [exact N|]. split; apply c94_spelling; assumption.
      * intros (_ & _ & [(k2 & v2 & Ep2 & N2 & Sk & Sv)|(N2 & _)]); [|exfalso; apply N2; rewrite Ep; apply in_or_app; right; left; reflexivity].
        assert (E2 : cut_at 61 (c :: p) = (k2, v2)) by (rewrite Ep2; exact (cut_yes 61%N k2 v2 N2)). rewrite E in E2. injection E2 as <- <-. apply c94_spelling in Sk, Sv. rewrite Sk, Sv. destruct kv; reflexivity.
Qed.
Lemma read_says p o : says p o <-> read_part p = o.
Proof.
  destruct o as [kv|]; cbn [says]; [symmetry; apply read_pair|]. split.
  - intro H. destruct (read_part p) as [kv|] eqn:E; [|reflexivity]. apply read_pair in E. destruct (H kv E).
  - intros E kv H. apply read_pair in H. congruence.
Qed.
Lemma fold_parts : forall parts l m, Forall2 says parts l -> fold_left parse_pair parts m = fold_left (fun m kv => v_add m (fst kv) (snd kv)) (pairs_of l) m.
Proof.
  intros parts l m H. revert m. induction H as [|p o parts l Hp _ IH]; intro m; [reflexivity|]. cbn [fold_left]. rewrite read_is. apply read_says in Hp. rewrite Hp. unfold pairs_of. cbn [flat_map]. rewrite fold_left_app. fold (pairs_of l). destruct o as [[k v]|]; cbn [fold_left fst snd]; apply IH.
Qed.
Lemma query_is s l : query_says s l -> parse_query s = fold_left (fun m kv => v_add m (fst kv) (snd kv)) (pairs_of l) [].
Proof. intros (parts & -> & N & F & H). unfold parse_query. rewrite split_join; [exact (fold_parts parts l [] H)|exact N|]. apply Forall_forall. exact F. Qed.
Lemma fold_get k : forall l m, mget (fold_left (fun m kv => v_add m (fst kv) (snd kv)) (pairs_of l) m) k = match match mget m k with Some w => w | None => [] end ++ values_of k l with [] => mget m k | w => Some w end.
Proof.
  induction l as [|o l IH]; intro m; [cbn; rewrite app_nil_r; destruct (mget m k) as [[|]|]; reflexivity|]. unfold pairs_of. cbn [flat_map]. fold (pairs_of l). destruct o as [[k' v]|]; [|exact (IH m)].
  cbn [app fold_left fst snd values_of]. rewrite IH. unfold v_add. rewrite mget_mset. destruct (str_eqb k k') eqn:E; [|reflexivity]. apply str_eqb_eq in E. subst k'. rewrite <- app_assoc. cbn [app]. destruct (_ ++ v :: _) as [|x w] eqn:Z; [|reflexivity]. destruct (match mget m k with Some w => w | None => [] end); discriminate Z.
Qed.
(** Every query string says one list of pairs, and Go reads the values of each key from it in order. *)
Theorem c94_query : forall s, exists l, query_says s l /\ (forall l', query_says s l' -> l' = l) /\
  forall k, mget (parse_query s) k = match values_of k l with [] => None | vs => Some vs end.
Proof.
  intro s. exists (map read_part (split1 38 s)). assert (Q : query_says s (map read_part (split1 38 s))).
  { exists (split1 38 s). split; [symmetry; apply join_split|]. split; [apply split1_ne|]. split; [apply Forall_forall; apply split1_free|]. generalize (split1 38 s). induction l as [|p l IH]; [constructor|]. cbn [map]. constructor; [apply read_says; reflexivity|exact IH]. }
  split; [exact Q|]. split.
  - intros l' (parts & -> & N & F & H). rewrite split_join; [|exact N|apply Forall_forall; exact F]. clear - H. induction H as [|p o parts l Hp _ IH]; [reflexivity|]. cbn [map]. apply read_says in Hp. rewrite Hp. f_equal. exact IH.
  - intro k. rewrite (query_is _ _ Q), fold_get. cbn [mget app]. destruct (values_of k _); reflexivity.
Qed.
Print Assumptions c94_query.
(** Requests whose query strings say the same pairs in the same order are decoded alike. *)
Theorem c94_same : forall K zero b vars h h' l l', rq_body h = rq_body h' -> query_says (rq_query h) l -> query_says (rq_query h') l' -> pairs_of l = pairs_of l' ->
  decode_request K zero b vars h = decode_request K zero b vars h'.
Proof. intros K zero b vars h h' l l' Eb Q Q' E. unfold decode_request. rewrite (query_is _ _ Q), (query_is _ _ Q'), E, Eb. reflexivity. Qed.
Print Assumptions c94_same.
(** ** A case: two spellings of tag = a/b c, tag = "", x = 1; a part with a bad escape says nothing *)
Example c94_case : exists l l', query_says (T "tag=a%2fb+c&tag&%zz=2&x=1") l /\ query_says (T "t%61g=%61%2Fb%20c&&tag=&x=%31") l' /\ pairs_of l = pairs_of l' /\ values_of (T "tag") l = [T "a/b c"; []] /\
  mget (parse_query (T "tag=a%2fb+c&tag&%zz=2&x=1")) (T "tag") = Some [T "a/b c"; []].
Proof.
  destruct (c94_query (T "tag=a%2fb+c&tag&%zz=2&x=1")) as (l & Q & U & G). destruct (c94_query (T "t%61g=%61%2Fb%20c&&tag=&x=%31")) as (l' & Q' & U' & G').
  assert (R : forall s, query_says s (map read_part (split1 38 s))).
  { intro s. exists (split1 38 s). split; [symmetry; apply join_split|]. split; [apply split1_ne|]. split; [apply Forall_forall; apply split1_free|]. generalize (split1 38 s). induction l0 as [|p l0 IH]; [constructor|]. cbn [map]. constructor; [apply read_says; reflexivity|exact IH]. }
  exists l, l'. split; [exact Q|]. split; [exact Q'|]. rewrite <- (U _ (R _)), <- (U' _ (R _)). split; [vm_compute; reflexivity|]. split; vm_compute; reflexivity.
Qed.
