From Verif Require Import GoStr GoStrProofs Cmdline CmdlineSpec Server.

Definition bflag_eq_dec (a b : bflag) : {a = b} + {a <> b}.
Proof. decide equality. Defined.
Lemma opts_ext : forall o o', (forall f, value_of o f = value_of o' f) -> o = o'.
Proof.
  intros [so ve he st vr cl tr sd de] [so' ve' he' st' vr' cl' tr' sd' de'] H.
  pose proof (H FSvcout) as H1. pose proof (H FVerbose) as H2. pose proof (H FHelp) as H3. pose proof (H FStart) as H4. pose proof (H FVersion) as H5. pose proof (H FClient) as H6. pose proof (H FTransport) as H7. pose proof (H FSvcdef) as H8. pose proof (H FDebug) as H9.
  cbn in *. congruence.
Qed.
Lemma set_bool_value : forall f b o, is_bool f = true -> value_of (set_bool f b o) f = VB b /\ forall g, g <> f -> value_of (set_bool f b o) g = value_of o g.
Proof. intros f b [so ve he st vr cl tr sd de] H. split; [destruct f; try discriminate; reflexivity|]. intros g Hg. destruct f, g; try discriminate; try congruence; reflexivity. Qed.
Lemma set_text_value : forall f v o, is_bool f = false -> value_of (set_text f v o) f = VS v /\ forall g, g <> f -> value_of (set_text f v o) g = value_of o g.
Proof. intros f v [so ve he st vr cl tr sd de] H. split; [destruct f; try discriminate; reflexivity|]. intros g Hg. destruct f, g; try discriminate; try congruence; reflexivity. Qed.
Lemma set_opt_some : forall f v o o', set_opt f v o = Some o' -> exists x, reads f v x /\ value_of o' f = x /\ forall g, g <> f -> value_of o' g = value_of o g.
Proof.
  intros f v o o' H. unfold set_opt in H. destruct (is_bool f) eqn:Ef.
  - destruct (parse_bool v) as [b|] eqn:Eb; [|discriminate]. injection H as <-. exists (VB b). split; [constructor; assumption|]. exact (set_bool_value f b o Ef).
  - injection H as <-. exists (VS v). split; [constructor; exact Ef|]. exact (set_text_value f v o Ef).
Qed.
Lemma set_opt_reads : forall f v x o, reads f v x -> exists o', set_opt f v o = Some o'.
Proof. intros f v x o H. unfold set_opt. destruct H as [v b H1 H2|v H1]; rewrite H1; [rewrite H2|]; eexists; reflexivity. Qed.
Lemma reads_fun : forall f v x y, reads f v x -> reads f v y -> x = y.
Proof. intros f v x y H K. inversion H; inversion K; congruence. Qed.
Fixpoint run_says (o : opts) (l : list (bflag * str)) : option opts :=
  match l with [] => Some o | (f, v) :: l' => match set_opt f v o with Some o' => run_says o' l' | None => None end end.
Lemma run_says_app : forall l l' o, run_says o (l ++ l') = match run_says o l with Some o' => run_says o' l' | None => None end.
Proof. induction l as [|[f v] l IH]; intros l' o; cbn [app run_says]; [reflexivity|]. destruct (set_opt f v o); [apply IH|reflexivity]. Qed.
Lemma run_says_last : forall l o o', run_says o l = Some o' -> forall f, last_word f l (value_of o f) (value_of o' f).
Proof.
  induction l as [|[g v] l IH]; intros o o' H f; cbn [run_says] in H; [injection H as <-; right; split; [intros []|reflexivity]|].
  destruct (set_opt g v o) as [o1|] eqn:E; [|discriminate]. destruct (IH o1 o' H f) as [(a & w & b & -> & Hn & Hr)|[Hn Hx]].
  - left. exists ((g, v) :: a), w, b. split; [reflexivity|]. split; assumption.
  - destruct (set_opt_some _ _ _ _ E) as (x & R1 & R2 & R3). destruct (bflag_eq_dec f g) as [->|Hg].
    + left. exists [], v, l. split; [reflexivity|]. split; [exact Hn|]. rewrite Hx, R2. exact R1.
    + right. split; [|rewrite Hx; exact (R3 f Hg)]. intros [K|K]; [exact (Hg (eq_sym K))|exact (Hn K)].
Qed.
Lemma last_word_fun : forall f l d x y, last_word f l d x -> last_word f l d y -> x = y.
Proof.
  intros f l d x y [(a & v & b & E & Hn & Hr)|[Hn Hx]] [(a' & v' & b' & E' & Hn' & Hr')|[Hn' Hx']]; [| | |congruence].
  - assert (K : b = b' /\ v = v').
    { clear - E E' Hn Hn'. subst l. revert a' E'. induction a as [|z a IH]; intros a' E'.
      - destruct a' as [|z' a']; cbn [app] in E'; [injection E' as -> ->; auto|]. injection E' as <- ->. exfalso. apply Hn. rewrite map_app. apply in_or_app. right. left. reflexivity.
      - destruct a' as [|z' a']; cbn [app] in E'; [|injection E' as -> E'; exact (IH a' E')]. injection E' as -> <-. exfalso. apply Hn'. rewrite map_app. apply in_or_app. right. left. reflexivity. }
    destruct K as [<- <-]. exact (reads_fun _ _ _ _ Hr Hr').
  - exfalso. apply Hn'. rewrite E, map_app. apply in_or_app. right. left. reflexivity.
  - exfalso. apply Hn. rewrite E', map_app. apply in_or_app. right. left. reflexivity.
Qed.
Lemma run_says_total : forall l o, Forall (fun p => exists x, reads (fst p) (snd p) x) l -> exists o', run_says o l = Some o'.
Proof.
  intros l o H. revert o. induction H as [|[f v] l [x H] _ IH]; intro o; cbn [run_says]; [eexists; reflexivity|]. cbn [fst snd] in H. destruct (set_opt_reads f v x o H) as [o1 ->]. apply IH.
Qed.
Lemma run_says_iff : forall l o o', Forall (fun p => exists x, reads (fst p) (snd p) x) l -> (run_says o l = Some o' <-> forall f, last_word f l (value_of o f) (value_of o' f)).
Proof.
  intros l o o' H. split; [apply run_says_last|]. intro K. destruct (run_says_total l o H) as [o1 E]. rewrite E. f_equal. apply opts_ext. intro f. exact (last_word_fun f l _ _ _ (run_says_last l o o1 E f) (K f)).
Qed.

(** ** Names *)
Lemma find_long_iff : forall n f, find_long n = Some f <-> n = long_name f.
Proof.
  intros n f. unfold find_long. split.
  - intro H. apply find_some in H. destruct H as [_ H]. symmetry. apply str_eqb_eq. exact H.
  - intros ->. destruct f; reflexivity.
Qed.
Lemma find_short_iff : forall c f, find_short c = Some f <-> shorthand f = [c].
Proof.
  intros c f. unfold find_short. split.
  - intro H. apply find_some in H. destruct H as [_ H]. apply str_eqb_eq. exact H.
  - intro H. destruct f; cbn in H; try discriminate; injection H as <-; reflexivity.
Qed.
Lemma short_shape : forall f, shorthand f <> [] -> exists c, shorthand f = [c] /\ c <> 45%N /\ c <> 61%N.
Proof. intros f H. destruct f; try (eexists; split; [reflexivity|]; split; discriminate). destruct (H eq_refl). Qed.
Lemma not_test : forall c s f, shorthand f = [c] -> f <> FTransport -> has_prefix (c :: s) (T "test.") = false.
Proof. intros c s f H Hf. destruct f; cbn in H; try discriminate; try congruence; injection H as <-; reflexivity. Qed.
Lemma has_prefix_iff : forall p s, has_prefix s p = true <-> exists w, s = p ++ w.
Proof.
  induction p as [|x p IH]; intro s; [destruct s; split; intro H; try reflexivity; eexists; reflexivity|]. destruct s as [|y s]; cbn [has_prefix].
  - split; [discriminate|]. intros [w H]. discriminate.
  - rewrite Bool.andb_true_iff, N.eqb_eq, IH. split; [intros [-> [w ->]]; exists w; reflexivity|]. intros [w H]. injection H as -> ->. split; [reflexivity|exists w; reflexivity].
Qed.

(** ** Clusters *)
Definition uses_next (e : short_end) : bool := match e with ENext _ _ => true | _ => false end.
Definition next_of (e : short_end) (next : option str) : Prop := match e with ENext _ v => next = Some v | _ => True end.
Definition cluster (o : opts) (s : str) (next : option str) (o' : opts) (used : bool) : Prop :=
  exists l e, s = flat_map shorthand l ++ end_text e /\ Forall (fun f => is_bool f = true /\ shorthand f <> []) l /\ end_ok e /\ used = uses_next e /\ next_of e next /\
    run_says o (map (fun f => (f, T "true")) l ++ end_says e) = Some o'.
Lemma set_true : forall f o, is_bool f = true -> exists o', set_opt f (T "true") o = Some o'.
Proof. intros f o H. unfold set_opt. rewrite H. eexists. reflexivity. Qed.
Lemma set_reads : forall f v o o', set_opt f v o = Some o' -> exists x, reads f v x.
Proof. intros f v o o' H. destruct (set_opt_some _ _ _ _ H) as (x & K & _). exists x. exact K. Qed.
Lemma short_args_sound : forall s o next o' used, short_args o s next = Some (o', used) -> cluster o s next o' used.
Proof.
  induction s as [|c rest IH]; intros o next o' used H; cbn [short_args] in H.
  - injection H as <- <-. exists [], ENone. split; [reflexivity|]. split; [constructor|]. split; [exact I|]. split; [reflexivity|]. split; [exact I|reflexivity].
  - destruct (has_prefix (c :: rest) (T "test.")) eqn:Et.
    + injection H as <- <-. apply has_prefix_iff in Et. destruct Et as [w Ew]. exists [], (ETest w). split; [exact Ew|]. split; [constructor|]. split; [exact I|]. split; [reflexivity|]. split; [exact I|reflexivity].
    + destruct (find_short c) as [f|] eqn:Ef; [|discriminate]. apply find_short_iff in Ef.
      assert (G : (exists v vs, rest = 61%N :: v :: vs /\ match set_opt f (v :: vs) o with Some o' => Some (o', false) | None => None end = Some (o', used)) \/
                  ((forall v vs, rest <> 61%N :: v :: vs) /\
                   (if is_bool f then match set_opt f (T "true") o with Some o' => short_args o' rest next | None => None end
                    else match rest with
                         | _ :: _ => match set_opt f rest o with Some o' => Some (o', false) | None => None end
                         | [] => match next with Some v => match set_opt f v o with Some o' => Some (o', true) | None => None end | None => None end
                         end) = Some (o', used))).
      { destruct rest as [|e rest]; [right; split; [discriminate|exact H]|]. destruct (N.eq_dec e 61) as [->|He].
        - destruct rest as [|v vs]; [right; split; [discriminate|exact H]|]. left. exists v, vs. split; [reflexivity|exact H].
        - right. split; [congruence|]. clear - H He. destruct e as [|p]; [exact H|]. do 6 (try (destruct p as [p|p|]; try exact H)). destruct (He eq_refl). }
      clear H. destruct G as [(v & vs & -> & H)|[Hne H]].
      * destruct (set_opt f (v :: vs) o) as [o1|] eqn:E; [|discriminate]. injection H as <- <-. exists [], (EEq f (v :: vs)). split; [cbn [flat_map app end_text]; rewrite Ef; reflexivity|].
        split; [constructor|]. split; [split; [rewrite Ef; discriminate|]; split; [discriminate|exact (set_reads _ _ _ _ E)]|]. split; [reflexivity|]. split; [exact I|]. cbn [map app end_says run_says]. rewrite E. reflexivity.
      * destruct (is_bool f) eqn:Eb.
        -- destruct (set_opt f (T "true") o) as [o1|] eqn:E; [|discriminate]. destruct (IH _ _ _ _ H) as (l & e & -> & L1 & L2 & L3 & L4 & L5). exists (f :: l), e. split; [cbn [flat_map]; rewrite Ef; reflexivity|].
           split; [constructor; [split; [exact Eb|rewrite Ef; discriminate]|exact L1]|]. split; [exact L2|]. split; [exact L3|]. split; [exact L4|]. cbn [map app run_says]. rewrite E. exact L5.
        -- destruct rest as [|r rest].
           ++ destruct next as [v|]; [|discriminate]. destruct (set_opt f v o) as [o1|] eqn:E; [|discriminate]. injection H as <- <-. exists [], (ENext f v). split; [symmetry; exact Ef|]. split; [constructor|]. split; [split; [rewrite Ef; discriminate|exact Eb]|].
              split; [reflexivity|]. split; [reflexivity|]. cbn [map app end_says run_says]. rewrite E. reflexivity.
           ++ destruct (set_opt f (r :: rest) o) as [o1|] eqn:E; [|discriminate]. injection H as <- <-. exists [], (EJoined f (r :: rest)). split; [cbn [flat_map app end_text]; rewrite Ef; reflexivity|]. split; [constructor|]. split.
              { split; [rewrite Ef; discriminate|]. split; [exact Eb|]. split; [discriminate|]. split; [intros x w K; exact (Hne x w K)|]. intros [-> [w K]]. cbn in Ef. injection Ef as <-. assert (Z : has_prefix (116%N :: r :: rest) (T "test.") = true) by (apply has_prefix_iff; exists w; rewrite K; reflexivity). congruence. }
              split; [reflexivity|]. split; [exact I|]. cbn [map app end_says run_says]. rewrite E. reflexivity.
Qed.
Lemma short_args_step : forall c rest o next f, shorthand f = [c] -> has_prefix (c :: rest) (T "test.") = false -> (forall v vs, rest <> 61%N :: v :: vs) ->
  short_args o (c :: rest) next =
   (if is_bool f then match set_opt f (T "true") o with Some o' => short_args o' rest next | None => None end
    else match rest with
         | _ :: _ => match set_opt f rest o with Some o' => Some (o', false) | None => None end
         | [] => match next with Some v => match set_opt f v o with Some o' => Some (o', true) | None => None end | None => None end
         end).
Proof.
  intros c rest o next f Ef Et Hne. cbn [short_args]. rewrite Et, (proj2 (find_short_iff c f) Ef). destruct rest as [|e rest]; [reflexivity|]. destruct e as [|p]; [reflexivity|]. do 6 (try (destruct p as [p|p|]; try reflexivity)). destruct rest as [|v vs]; [reflexivity|]. destruct (Hne v vs eq_refl).
Qed.
Lemma end_not_eq : forall e v vs, end_ok e -> end_text e <> 61%N :: v :: vs.
Proof.
  intros e v vs H K. destruct e as [|f w|f w|f w|r]; cbn [end_text end_ok] in *; try discriminate; destruct H as [H _]; destruct (short_shape f H) as (c & Ec & _ & Hc); rewrite Ec in K; cbn in K; congruence.
Qed.
Lemma cluster_not_eq : forall l e v vs, Forall (fun f => is_bool f = true /\ shorthand f <> []) l -> end_ok e -> flat_map shorthand l ++ end_text e <> 61%N :: v :: vs.
Proof.
  intros l e v vs Hl He K. destruct Hl as [|f l [H1 H2] _]; [exact (end_not_eq e v vs He K)|]. destruct (short_shape f H2) as (c & Ec & _ & Hc). cbn [flat_map] in K. rewrite Ec in K. cbn in K. congruence.
Qed.
Lemma short_args_complete : forall l e o next o', Forall (fun f => is_bool f = true /\ shorthand f <> []) l -> end_ok e -> next_of e next ->
  run_says o (map (fun f => (f, T "true")) l ++ end_says e) = Some o' -> short_args o (flat_map shorthand l ++ end_text e) next = Some (o', uses_next e).
Proof.
  induction l as [|f l IH]; intros e o next o' Hl He Hn H.
  - cbn [map flat_map app] in *. destruct e as [|f v|f v|f v|r]; cbn [end_text end_says run_says end_ok next_of uses_next] in *.
    + injection H as <-. reflexivity.
    + destruct He as (H1 & H2 & _). destruct (short_shape f H1) as (c & Ec & _ & _). rewrite Ec. destruct v as [|v vs]; [congruence|]. destruct (set_opt f (v :: vs) o) as [o1|] eqn:E; [|discriminate]. injection H as <-.
      change ([c] ++ T "=" ++ v :: vs) with (c :: 61%N :: v :: vs). cbn [short_args]. replace (has_prefix (c :: 61%N :: v :: vs) (T "test.")) with false; [rewrite (proj2 (find_short_iff c f) Ec), E; reflexivity|].
      symmetry. apply Bool.not_true_iff_false. intro K. apply has_prefix_iff in K. destruct K as [w K]. discriminate.
    + destruct He as (H1 & H2 & H3 & H4 & H5). destruct (short_shape f H1) as (c & Ec & _ & _). rewrite Ec. change ([c] ++ v) with (c :: v).
      assert (Et : has_prefix (c :: v) (T "test.") = false).
      { destruct (bflag_eq_dec f FTransport) as [->|Hf]; [|exact (not_test c v f Ec Hf)]. apply Bool.not_true_iff_false. intro K. apply has_prefix_iff in K. destruct K as [w K]. apply H5. split; [reflexivity|]. exists w. injection K as _ ->. reflexivity. }
      rewrite (short_args_step c v o next f Ec Et (fun x w K => H4 x w K)), H2. destruct v as [|v vs]; [congruence|]. destruct (set_opt f (v :: vs) o) as [o1|]; [|discriminate]. injection H as <-. reflexivity.
    + destruct He as (H1 & H2). destruct (short_shape f H1) as (c & Ec & _ & _). rewrite Ec. subst next.
      assert (Et : has_prefix [c] (T "test.") = false) by (apply Bool.not_true_iff_false; intro K; apply has_prefix_iff in K; destruct K as [w K]; discriminate).
      rewrite (short_args_step c [] o (Some v) f Ec Et ltac:(discriminate)), H2. destruct (set_opt f v o) as [o1|]; [|discriminate]. injection H as <-. reflexivity.
    + injection H as <-. change (T "test." ++ r) with (116%N :: 101%N :: 115%N :: 116%N :: 46%N :: r). cbn [short_args].
      replace (has_prefix (116%N :: 101%N :: 115%N :: 116%N :: 46%N :: r) (T "test.")) with true by (symmetry; apply has_prefix_iff; exists r; reflexivity). reflexivity.
  - inversion Hl as [|x y [L1 L2] L3]; subst x y. cbn [map flat_map app run_says] in *. destruct (short_shape f L2) as (c & Ec & _ & _). rewrite Ec. destruct (set_opt f (T "true") o) as [o1|] eqn:E; [|discriminate].
    change (([c] ++ flat_map shorthand l) ++ end_text e) with (c :: (flat_map shorthand l ++ end_text e)).
    assert (Hf : f <> FTransport) by (intros ->; discriminate).
    rewrite (short_args_step c _ o next f Ec (not_test c _ f Ec Hf) (fun v vs => cluster_not_eq l e v vs L3 He)), L1, E. apply IH; assumption.
Qed.

(** ** Long flags *)
Lemma cut_eq_some : forall s n v, cut_eq s = (n, Some v) -> s = n ++ T "=" ++ v.
Proof.
  induction s as [|c s IH]; intros n v H; cbn [cut_eq] in H; [discriminate|]. destruct (N.eqb_spec c 61) as [->|Hc]; [injection H as <- <-; reflexivity|].
  destruct (cut_eq s) as [n1 v1] eqn:E. injection H as <- ->. cbn [app]. f_equal. exact (IH n1 v eq_refl).
Qed.
Lemma cut_eq_none : forall s n, cut_eq s = (n, None) -> s = n.
Proof.
  induction s as [|c s IH]; intros n H; cbn [cut_eq] in H; [injection H as <-; reflexivity|]. destruct (N.eqb_spec c 61) as [->|Hc]; [discriminate|].
  destruct (cut_eq s) as [n1 v1] eqn:E. injection H as <- ->. f_equal. exact (IH n1 eq_refl).
Qed.
Lemma cut_long : forall f, cut_eq (long_name f) = (long_name f, None).
Proof. destruct f; reflexivity. Qed.
Lemma cut_long_eq : forall f v, cut_eq (long_name f ++ T "=" ++ v) = (long_name f, Some v).
Proof. destruct f; reflexivity. Qed.
Lemma long_shape : forall f, exists x y, long_name f = x :: y /\ (N.eqb x c_dash || N.eqb x 61) = false.
Proof. destruct f; eexists _, _; split; reflexivity. Qed.
(** One argument, by its first runes. *)
Lemma parse_long : forall o x name args, (N.eqb x c_dash || N.eqb x 61) = false ->
  parse_args o ((45%N :: 45%N :: x :: name) :: args) =
    (let '(n, v) := cut_eq (x :: name) in
     match find_long n with
     | None => None
     | Some f =>
         match v with
         | Some w => match set_opt f w o with Some o' => parse_args o' args | None => None end
         | None => if is_bool f then match set_opt f (T "true") o with Some o' => parse_args o' args | None => None end
                   else match args with w :: args'' => match set_opt f w o with Some o' => parse_args o' args'' | None => None end | [] => None end
         end
     end).
Proof. intros o x name args H. cbn [parse_args]. rewrite H. reflexivity. Qed.
Lemma parse_short : forall o c rest args, c <> 45%N ->
  parse_args o ((45%N :: c :: rest) :: args) =
    match args with
    | w :: args'' => match short_args o (c :: rest) (Some w) with Some (o', false) => parse_args o' args | Some (o', true) => parse_args o' args'' | None => None end
    | [] => match short_args o (c :: rest) None with Some (o', _) => Some (o', []) | None => None end
    end.
Proof. intros o c rest args H. cbn [parse_args]. destruct c as [|p]; [reflexivity|]. do 6 (try (destruct p as [p|p|]; try reflexivity)). destruct (H eq_refl). Qed.
Lemma parse_arg : forall o s args, (s = T "-" \/ forall w, s <> T "-" ++ w) -> parse_args o (s :: args) = match parse_args o args with Some (o', ps) => Some (o', s :: ps) | None => None end.
Proof.
  intros o s args H. destruct s as [|c s]; [reflexivity|]. destruct (N.eq_dec c 45) as [->|Hc].
  - destruct H as [H|H]; [injection H as ->; reflexivity|]. destruct (H s eq_refl).
  - cbn [parse_args]. destruct c as [|p]; [reflexivity|]. do 6 (try (destruct p as [p|p|]; try reflexivity)). destruct (Hc eq_refl).
Qed.

(** ** The whole line *)
Definition reading (o : opts) (args : list str) (o' : opts) (ps : list str) : Prop :=
  exists items t rest, args = flat_map words items ++ t /\ tail_args t rest /\ Forall item_ok items /\ ps = flat_map argument items ++ rest /\ run_says o (flat_map says items) = Some o'.
Lemma reading_cons : forall it o o1 args o' ps, item_ok it -> run_says o (says it) = Some o1 -> reading o1 args o' ps -> reading o (words it ++ args) o' (argument it ++ ps).
Proof.
  intros it o o1 args o' ps Hi Hs (items & t & rest & -> & Ht & Hk & -> & Hr). exists (it :: items), t, rest. cbn [flat_map]. rewrite <- !app_assoc. split; [reflexivity|]. split; [exact Ht|]. split; [constructor; assumption|]. split; [reflexivity|].
  rewrite run_says_app, Hs. exact Hr.
Qed.
Lemma parse_sound : forall n args o o' ps, length args <= n -> parse_args o args = Some (o', ps) -> reading o args o' ps.
Proof.
  induction n as [|n IH]; intros args o o' ps Hl H.
  - destruct args; [|cbn in Hl; lia]. cbn in H. injection H as <- <-. exists [], [], []. repeat split; try constructor. split; reflexivity.
  - destruct args as [|s args]; [cbn in H; injection H as <- <-; exists [], [], []; repeat split; try constructor; split; reflexivity|]. cbn [length] in Hl.
    assert (P : (s = T "-" \/ forall w, s <> T "-" ++ w) \/ exists c rest, s = 45%N :: c :: rest).
    { destruct s as [|c s]; [left; right; discriminate|]. destruct (N.eq_dec c 45) as [->|Hc]; [|left; right; intros w K; cbn in K; congruence]. destruct s as [|d s]; [left; left; reflexivity|]. right. exists d, s. reflexivity. }
    destruct P as [P|(c & rest & ->)].
    + rewrite (parse_arg o s args P) in H. destruct (parse_args o args) as [[o1 ps1]|] eqn:E; [|discriminate]. injection H as <- <-. apply (reading_cons (IArg s) o o args); [exact P|reflexivity|]. apply IH; [lia|exact E].
    + destruct (N.eq_dec c 45) as [->|Hc].
      * destruct rest as [|x name].
        -- cbn [parse_args] in H. injection H as <- <-. exists [], (T "--" :: args), args. split; [reflexivity|]. split; [right; reflexivity|]. split; [constructor|]. split; reflexivity.
        -- destruct (N.eqb x c_dash || N.eqb x 61) eqn:Ex; [cbn [parse_args] in H; rewrite Ex in H; discriminate|]. pose proof (eq_trans (eq_sym (parse_long o x name args Ex)) H) as H'. clear H. rename H' into H. destruct (cut_eq (x :: name)) as [nm v] eqn:Ec.
           destruct (find_long nm) as [f|] eqn:Ef; [|discriminate]. apply find_long_iff in Ef. subst nm. destruct v as [w|].
           ++ apply cut_eq_some in Ec. rewrite Ec. destruct (set_opt f w o) as [o1|] eqn:E; [|discriminate]. apply (reading_cons (ILong f w) o o1 args); [exact (set_reads _ _ _ _ E)|cbn [says run_says]; rewrite E; reflexivity|]. apply IH; [lia|exact H].
           ++ apply cut_eq_none in Ec. rewrite Ec. destruct (is_bool f) eqn:Eb.
              ** destruct (set_opt f (T "true") o) as [o1|] eqn:E; [|discriminate]. apply (reading_cons (ISwitch f) o o1 args); [exact Eb|cbn [says run_says]; rewrite E; reflexivity|]. apply IH; [lia|exact H].
              ** destruct args as [|w args]; [discriminate|]. destruct (set_opt f w o) as [o1|] eqn:E; [|discriminate]. apply (reading_cons (ILongNext f w) o o1 args); [exact Eb|cbn [says run_says]; rewrite E; reflexivity|]. apply IH; [cbn [length] in Hl; lia|exact H].
      * pose proof (eq_trans (eq_sym (parse_short o c rest args Hc)) H) as H'. clear H. rename H' into H. destruct args as [|w args].
        -- destruct (short_args o (c :: rest) None) as [[o1 u]|] eqn:E; [|discriminate]. injection H as <- <-. apply short_args_sound in E. destruct E as (l & e & E1 & E2 & E3 & E4 & E5 & E6). rewrite E1.
           assert (Nn : match e with ENext _ v => [v] | _ => [] end = []) by (destruct e; try reflexivity; discriminate E5).
           assert (W : words (IShort l e) = [45%N :: flat_map shorthand l ++ end_text e]) by (destruct e; try discriminate Nn; reflexivity).
           match goal with |- reading _ ?A _ _ => replace A with (words (IShort l e) ++ []) by (rewrite W; reflexivity) end. apply (reading_cons (IShort l e) o o1 []); [|exact E6|exists [], [], []; repeat split; try constructor; split; reflexivity].
           split; [exact E2|]. split; [exact E3|]. destruct l; [|left; discriminate]. right. intros ->. discriminate.
        -- change (@Some (list N) w) with (@Some str w) in H. destruct (short_args o (c :: rest) (Some w)) as [[o1 u]|] eqn:E; [|discriminate]. apply short_args_sound in E. destruct E as (l & e & E1 & E2 & E3 & E4 & E5 & E6). rewrite E1.
           assert (IO : item_ok (IShort l e)) by (split; [exact E2|]; split; [exact E3|]; destruct l; [|left; discriminate]; right; intros ->; discriminate).
           destruct u.
           ++ destruct e as [|f v|f v|f v|r]; try discriminate. cbn [next_of] in E5. injection E5 as <-. apply (reading_cons (IShort l (ENext f w)) o o1 args); [exact IO|exact E6|]. apply IH; [cbn [length] in Hl; lia|exact H].
           ++ assert (Nn : match e with ENext _ v => [v] | _ => [] end = []) by (destruct e; try reflexivity; discriminate E4).
              assert (W : words (IShort l e) = [45%N :: flat_map shorthand l ++ end_text e]) by (destruct e; try discriminate Nn; reflexivity).
              match goal with |- reading _ ?A _ _ => replace A with (words (IShort l e) ++ w :: args) by (rewrite W; reflexivity) end. apply (reading_cons (IShort l e) o o1 (w :: args)); [exact IO|exact E6|]. apply IH; [cbn [length] in *; lia|exact H].
Qed.
Lemma cluster_first : forall l e, Forall (fun f => is_bool f = true /\ shorthand f <> []) l -> end_ok e -> (l <> [] \/ e <> ENone) -> exists c rest, flat_map shorthand l ++ end_text e = c :: rest /\ c <> 45%N.
Proof.
  intros l e Hl He H. destruct Hl as [|f l [L1 L2] _].
  - destruct H as [H|H]; [congruence|]. cbn [flat_map app]. destruct e as [|f v|f v|f v|r]; cbn [end_text end_ok] in *; [congruence| | | |eexists _, _; split; [reflexivity|discriminate]];
      destruct He as [He _]; destruct (short_shape f He) as (c & -> & Hc & _); eexists _, _; (split; [reflexivity|exact Hc]).
  - destruct (short_shape f L2) as (c & Ec & Hc & _). cbn [flat_map]. rewrite Ec. eexists _, _. split; [reflexivity|exact Hc].
Qed.
Lemma parse_complete : forall items o t rest o', tail_args t rest -> Forall item_ok items -> run_says o (flat_map says items) = Some o' ->
  parse_args o (flat_map words items ++ t) = Some (o', flat_map argument items ++ rest).
Proof.
  induction items as [|it items IH]; intros o t rest o' Ht Hi H.
  - cbn [flat_map app run_says] in *. injection H as <-. destruct Ht as [[-> ->]| ->]; reflexivity.
  - inversion Hi as [|x y H1 H2]; subst x y. cbn [flat_map] in *. rewrite run_says_app in H. destruct (run_says o (says it)) as [o1|] eqn:E; [|discriminate]. specialize (IH o1 t rest o' Ht H2 H). rewrite <- !app_assoc.
    destruct it as [s|f|f v|f v|l e]; cbn [item_ok says words argument app] in *.
    + rewrite (parse_arg _ _ _ H1). cbn [run_says] in E. injection E as ->. rewrite IH. reflexivity.
    + destruct (long_shape f) as (x & y & El & Ex). pose proof (cut_long f) as Ec. pose proof (proj2 (find_long_iff (long_name f) f) eq_refl) as Ef. rewrite El in *. change (T "--" ++ x :: y) with (45%N :: 45%N :: x :: y).
      rewrite (parse_long _ _ _ _ Ex), Ec, Ef, H1. cbn [run_says] in E. destruct (set_opt f (T "true") o) as [o2|]; [|discriminate]. injection E as ->. exact IH.
    + destruct (long_shape f) as (x & y & El & Ex). pose proof (cut_long_eq f v) as Ec. pose proof (proj2 (find_long_iff (long_name f) f) eq_refl) as Ef. rewrite El in *. change (T "--" ++ (x :: y) ++ T "=" ++ v) with (45%N :: 45%N :: x :: (y ++ T "=" ++ v)).
      rewrite (parse_long _ _ _ _ Ex). change (x :: y ++ T "=" ++ v) with ((x :: y) ++ T "=" ++ v). rewrite Ec, Ef. cbn [run_says] in E. destruct (set_opt f v o) as [o2|]; [|discriminate]. injection E as ->. exact IH.
    + destruct (long_shape f) as (x & y & El & Ex). pose proof (cut_long f) as Ec. pose proof (proj2 (find_long_iff (long_name f) f) eq_refl) as Ef. rewrite El in *. change (T "--" ++ x :: y) with (45%N :: 45%N :: x :: y).
      rewrite (parse_long _ _ _ _ Ex), Ec, Ef, H1. cbn [run_says] in E. destruct (set_opt f v o) as [o2|]; [|discriminate]. injection E as ->. exact IH.
    + destruct H1 as (L1 & L2 & L3). destruct (cluster_first l e L1 L2 L3) as (c & rs & Ecl & Hc). change (T "-" ++ flat_map shorthand l ++ end_text e) with (45%N :: (flat_map shorthand l ++ end_text e)). rewrite Ecl, (parse_short _ _ _ _ Hc), <- Ecl.
      pose proof (fun next Hn => short_args_complete l e o next o1 L1 L2 Hn E) as SC. destruct e as [|f v|f v|f v|r]; cbn [next_of uses_next app] in *;
        try (destruct (flat_map words items ++ t) as [|w args] eqn:Ea; [rewrite (SC None I); exact IH|change (@Some (list N) w) with (@Some str w); rewrite (SC (Some w) I); exact IH]).
      change (@Some (list N) v) with (@Some str v). rewrite (SC (Some v) eq_refl). exact IH.
Qed.
Lemma says_read : forall items, Forall item_ok items -> Forall (fun p => exists x, reads (fst p) (snd p) x) (flat_map says items).
Proof.
  intros items H. induction H as [|it items H _ IH]; [constructor|]. cbn [flat_map]. apply Forall_app. split; [|exact IH].
  assert (B : forall f, is_bool f = true -> exists x, reads f (T "true") x) by (intros f Hf; exists (VB true); constructor; [exact Hf|reflexivity]).
  assert (S : forall f v, is_bool f = false -> exists x, reads f v x) by (intros f v Hf; exists (VS v); constructor; exact Hf).
  destruct it as [s|f|f v|f v|l e]; cbn [item_ok says] in *.
  - constructor.
  - constructor; [exact (B f H)|constructor].
  - constructor; [exact H|constructor].
  - constructor; [exact (S f v H)|constructor].
  - destruct H as (L1 & L2 & _). apply Forall_app. split.
    + apply Forall_map. eapply Forall_impl; [|exact L1]. intros f [Hf _]. exact (B f Hf).
    + destruct e as [|f v|f v|f v|r]; cbn [end_says end_ok] in *; constructor; try constructor; cbn [fst snd].
      * exact (proj2 (proj2 L2)).
      * apply S. exact (proj1 (proj2 L2)).
      * apply S. exact (proj2 L2).
Qed.
Theorem parse_iff : forall args o ps, parse_args opts0 args = Some (o, ps) <-> means args o ps.
Proof.
  intros args o ps. split.
  - intro H. destruct (parse_sound (length args) args opts0 o ps (le_n _) H) as (items & t & rest & E & Ht & Hi & Ep & Hr). exists items, t, rest. split; [exact E|]. split; [exact Ht|]. split; [exact Hi|]. split; [exact Ep|]. exact (run_says_last _ _ _ Hr).
  - intros (items & t & rest & -> & Ht & Hi & -> & Hl). apply parse_complete; [exact Ht|exact Hi|]. apply (proj2 (run_says_iff _ _ _ (says_read items Hi))). exact Hl.
Qed.
