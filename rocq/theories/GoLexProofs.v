(** Lexing texts with names in them: over letters that are bytes, whole identifiers ([W]) or texts for the inside of string literals and comments ([Q]). *)
From Coq Require Import String Lia.
From Verif Require Import GoStr GoStrProofs Strs WiringSpec GoLex.

Inductive ext := C (c : N) | W (i : nat) | Q (i : nat).
Definition ext_class (x : ext) : class := match x with C c => class_of c | W _ => KLetter | Q _ => KText end.
Fixpoint bytes_of (l : list ext) : option str := match l with [] => Some [] | C c :: l' => option_map (cons c) (bytes_of l') | _ => None end.
Definition upper (x : ext) : bool := match x with C c => is_upper c | _ => false end.
Definition ext_on (w : list ext) : option bool :=
  match bytes_of w with
  | Some s => Some (goes_on s)
  | None => match w with [W _] => Some false | _ => if existsb upper w then Some false else None end
  end.
Definition lit (s : string) : list ext := map C (T s).
Definition runE := run ext ext_class ext_on.
Definition runN := run N class_of (fun w => Some (goes_on w)).
Lemma run_app A cls on st a : forall b, run A cls on st (a ++ b) = let (t, st1) := run A cls on st a in let (t', st2) := run A cls on st1 b in (t ++ t', st2).
Proof.
  revert st. induction a as [|c a IH]; intros st b; cbn [run app]; [now destruct (run A cls on st b)|].
  destruct (step A cls on st c) as [t st1]. rewrite IH. destruct (run A cls on st1 a) as [t' st2]. destruct (run A cls on st2 b) as [t2 st3]. now rewrite app_assoc.
Qed.
(** Lines are lexed one by one. *)
Lemma newline_idle st : exists t, runN st [10%N] = (t, Idle false).
Proof. unfold runN. cbn [run]. destruct st; cbn; try destruct (goes_on w); try destruct (str_eqb o (T ";")); try destruct prev; try destruct (ends_statement o); cbn; eauto. Qed.
Lemma lex_lines a b : lex (a ++ 10%N :: b) = lex a ++ lex b.
Proof.
  unfold lex. fold runN. change (10%N :: b) with ([10%N] ++ b). rewrite app_assoc, <- (app_assoc (a ++ [10%N])). unfold runN. rewrite (run_app N _ _ (Idle false) (a ++ [10%N])). fold runN.
  assert (E : exists t, runN (Idle false) (a ++ [10%N]) = (t, Idle false)).
  { unfold runN. rewrite run_app. fold runN. destruct (runN (Idle false) a) as [t st]. destruct (newline_idle st) as [t' ->]. eauto. }
  destruct E as [t ->]. destruct (runN (Idle false) (b ++ [10%N])) as [t' st']. reflexivity.
Qed.
Lemma plain_plain_app A (a b : list (tok A)) : plain (plain a ++ b) = plain (a ++ b).
Proof.
  induction a as [|t a IH]; [reflexivity|]. cbn [plain app]. rewrite <- IH. destruct (optional A t && closes A (plain a)) eqn:E; [|cbn [app plain]; reflexivity].
  apply andb_prop in E. destruct E as [E1 E2]. rewrite E1. destruct (plain a) as [|u l] eqn:Ep; [discriminate|]. cbn [app plain andb].
  assert (O : optional A u = false).
  { cbn [closes] in E2. destruct u as [w|w|w|w|o| |]; try discriminate; try reflexivity. unfold closing in E2. apply Bool.orb_true_iff in E2. destruct E2 as [E2|E2]; apply str_eqb_eq in E2; subst o; reflexivity. }
  rewrite O. cbn [andb closes]. cbn [closes] in E2. rewrite E2. reflexivity.
Qed.
Lemma plain_app_plain A (a b : list (tok A)) : plain (a ++ plain b) = plain (a ++ b).
Proof. induction a as [|t a IH]; [exact (eq_trans (f_equal plain (eq_sym (app_nil_r (plain b)))) (eq_trans (plain_plain_app A b []) (f_equal plain (app_nil_r b))))|]. cbn [app plain]. now rewrite IH. Qed.
Lemma plain_app A (a a' b b' : list (tok A)) : plain a = plain a' -> plain b = plain b' -> plain (a ++ b) = plain (a' ++ b').
Proof. intros H1 H2. rewrite <- plain_plain_app, <- plain_app_plain, H1, H2, plain_app_plain, plain_plain_app. reflexivity. Qed.

(** A text that can be inside a string literal or a comment *)
Definition inner (t : str) : Prop := (forall a, runN (InStr a) t = ([], InStr (a ++ t))) /\ forall b, runN (Note b) t = ([], Note b).
Definition safe (s : str) : Prop := forall c, In c s -> c <> 10%N /\ c <> c_dquote /\ c <> c_backslash.
Lemma inner_app a b : inner a -> inner b -> inner (a ++ b).
Proof. intros [A1 A2] [B1 B2]. unfold inner, runN in *. split; intro x; rewrite run_app; [rewrite A1, B1, app_assoc; reflexivity|rewrite A2, B2; reflexivity]. Qed.
Lemma safe_inner w : safe w -> inner w.
Proof.
  intro Hw. unfold inner. induction w as [|c w IH]; [split; intro a; rewrite ?app_nil_r; reflexivity|]. destruct (Hw c (or_introl eq_refl)) as (N1 & N2 & N3).
  destruct (IH (fun d Hd => Hw d (or_intror Hd))) as [I1 I2]. apply N.eqb_neq in N1, N2, N3.
  assert (NB : class_of c <> KLine /\ class_of c <> KQuote /\ class_of c <> KBackslash).
  { unfold class_of. rewrite N1, N2, N3. destruct (N.eqb c 32 || N.eqb c 9 || N.eqb c 13), (is_letter c || N.eqb c c_underscore), (is_digit c), (N.eqb c 96), (existsb (N.eqb c) op_chars); split; try split; discriminate. }
  destruct NB as (B1 & B2 & B3). unfold runN in *. split; intro a; cbn [run]; unfold step at 1.
  - specialize (I1 (a ++ [c])). rewrite <- app_assoc in I1. destruct (class_of c); try contradiction; rewrite I1; reflexivity.
  - destruct (class_of c); try contradiction; rewrite I2; reflexivity.
Qed.
Lemma inner_quote : inner [c_backslash; c_dquote].
Proof. split; intro a; unfold runN; cbn [run]; [|reflexivity]. unfold step at 1. change (class_of c_backslash) with KBackslash. cbn iota. unfold step. change (class_of c_dquote) with KQuote. cbn. rewrite <- app_assoc. reflexivity. Qed.
Section Names.
  Variable names texts : nat -> str.
  Hypothesis names_ok : forall i, ident (names i).
  Hypothesis texts_ok : forall i, inner (texts i).
  Definition ex (x : ext) : str := match x with C c => [c] | W i => names i | Q i => texts i end.
  Fixpoint flat (l : list ext) : str := match l with [] => [] | [x] => ex x | x :: l' => ex x ++ flat l' end.
  Lemma flat_cons x l : flat (x :: l) = ex x ++ flat l.
  Proof. destruct l; [cbn; now rewrite app_nil_r|reflexivity]. Qed.
  Lemma flat_app a b : flat (a ++ b) = flat a ++ flat b.
  Proof. induction a as [|x a IH]; [reflexivity|]. cbn [app]. now rewrite !flat_cons, IH, app_assoc. Qed.
  Lemma flat_lit s : flat (lit s) = T s.
  Proof. unfold lit. induction (T s) as [|c l IH]; [reflexivity|]. cbn [map]. rewrite flat_cons, IH. reflexivity. Qed.
  Definition ftok (t : tok ext) : tok N := match t with Word w => Word (flat w) | Num n => Num (flat n) | Str s => Str (flat s) | Raw s => Raw (flat s) | Op o => Op o | Semi => Semi | Bad => Bad end.
  Definition fst8 (st : state ext) : state N :=
    match st with Idle b => Idle b | InWord w => InWord (flat w) | InNum n => InNum (flat n) | InOp p o => InOp p o | InStr s => InStr (flat s) | InEsc s => InEsc (flat s) | InRaw s => InRaw (flat s) | Note b => Note b | InBlock b s => InBlock b s end.
  Definition clean (l : list (tok ext)) : bool := forallb (fun t => match t with Bad => false | _ => true end) l.
  Lemma bytes_flat l s : bytes_of l = Some s -> flat l = s.
  Proof.
    revert s. induction l as [|x l IH]; intros s; [intros [= <-]; reflexivity|]. rewrite flat_cons. destruct x; try discriminate. cbn [bytes_of ex]. destruct (bytes_of l) as [r|]; [|discriminate].
    intros [= <-]. rewrite (IH r eq_refl). reflexivity.
  Qed.
  Lemma upper_flat l : existsb upper l = true -> exists c, In c (flat l) /\ is_upper c = true.
  Proof.
    induction l as [|x l IH]; [discriminate|]. cbn [existsb]. intro H. apply Bool.orb_true_iff in H. rewrite flat_cons. destruct H as [H|H].
    - destruct x; try discriminate. exists c. split; [left; reflexivity|exact H].
    - destruct (IH H) as (c & Hc & Hu). exists c. split; [apply in_or_app; right; exact Hc|exact Hu].
  Qed.
  Lemma goes_on_not w : ~ In w go_keywords -> goes_on w = false.
  Proof. intro H. unfold goes_on, is_keyword. destruct (existsb (str_eqb w) go_keywords) eqn:E; [|reflexivity]. apply existsb_exists in E. destruct E as (k & Hk & E). apply str_eqb_eq in E. subst k. contradiction. Qed.
  Lemma keywords_lower : forallb (fun w => forallb (fun c => negb (is_upper c)) w) go_keywords = true. Proof. vm_compute. reflexivity. Qed.
  Lemma on_flat w b : ext_on w = Some b -> goes_on (flat w) = b.
  Proof.
    unfold ext_on. destruct (bytes_of w) as [s|] eqn:E; [intros [= <-]; now rewrite (bytes_flat _ _ E)|].
    assert (K : existsb upper w = true -> goes_on (flat w) = false).
    { intro H. destruct (upper_flat w H) as (c & Hc & Hu). apply goes_on_not. intro Hk. pose proof (proj1 (forallb_forall _ _) keywords_lower _ Hk) as F. cbn beta in F.
      pose proof (proj1 (forallb_forall _ _) F c Hc) as F'. cbn beta in F'. rewrite Hu in F'. discriminate. }
    destruct w as [|[c|i|i] [|y w]]; try discriminate; try (destruct (existsb upper _); [intros [= <-]; apply K; reflexivity|discriminate]).
    intros [= <-]. cbn. apply goes_on_not. exact (proj2 (names_ok i)).
  Qed.
  Lemma finish_flat st t b : finish ext ext_on st = (t, b) -> clean t = true -> finish N (fun w => Some (goes_on w)) (fst8 st) = (map ftok t, b).
  Proof.
    destruct st; cbn [finish fst8]; try (intros [= <- <-] _; reflexivity); try (intros [= <- <-] H; discriminate).
    - destruct (ext_on w) as [c|] eqn:E; [|intros [= <- <-] H; discriminate]. intros [= <- <-] _. rewrite (on_flat _ _ E). reflexivity.
    - intros [= <- <-] _. destruct (str_eqb o (T ";")); reflexivity.
  Qed.
  Lemma clean_app a b : clean (a ++ b) = true -> clean a = true /\ clean b = true.
  Proof. unfold clean. rewrite forallb_app. apply andb_prop. Qed.
  Lemma next_byte st c t st' : next ext ext_class ext_on st (C c) = (t, st') -> clean t = true -> next N class_of (fun w => Some (goes_on w)) (fst8 st) c = (map ftok t, fst8 st').
  Proof.
    unfold next. destruct (finish ext ext_on st) as [t1 b] eqn:E1. destruct (start ext ext_class b (C c)) as [t2 st2] eqn:E2. intros [= <- <-] H. apply clean_app in H. destruct H as [H1 H2].
    rewrite (finish_flat _ _ _ E1 H1). unfold start in *. cbn [ext_class] in E2. destruct (class_of c); injection E2 as <- <-; rewrite map_app; try reflexivity; try discriminate. destruct b; reflexivity.
  Qed.
  Lemma flat_snoc l x : flat (l ++ [x]) = flat l ++ ex x. Proof. rewrite flat_app. cbn. reflexivity. Qed.
  Lemma step_byte st c t st' : step ext ext_class ext_on st (C c) = (t, st') -> clean t = true -> step N class_of (fun w => Some (goes_on w)) (fst8 st) c = (map ftok t, fst8 st').
  Proof.
    intros H Hc. pose proof (next_byte st c) as K. unfold step in *. cbn [ext_class] in H.
    destruct st as [b|w|n|p o|s|s|s|b|b s]; destruct (class_of c) eqn:E; cbn [fst8];
      try (exact (K _ _ H Hc)); try (injection H as <- <-; cbn [map ftok fst8]; rewrite ?flat_snoc; cbn [ex]; try reflexivity; discriminate).
    - destruct (str_eqb (o ++ [c0]) (T "//")); [injection H as <- <-; reflexivity|]. destruct (str_eqb (o ++ [c0]) (T "/*")); [injection H as <- <-; reflexivity|]. destruct (existsb (str_eqb (o ++ [c0])) operators); [injection H as <- <-; reflexivity|]. exact (K _ _ H Hc).
    - injection H as <- <-. destruct (s && N.eqb c0 c_slash); reflexivity.
  Qed.
  (** the letters of an identifier *)
  Definition cont (st : state N) (w : str) : option (state N) :=
    match st with InWord a => Some (InWord (a ++ w)) | InNum a => Some (InNum (a ++ w)) | InStr a => Some (InStr (a ++ w)) | InRaw a => Some (InRaw (a ++ w)) | Note b => Some (Note b) | InBlock b false => Some (InBlock b false) | _ => None end.
  Lemma class_rune c : ident_rune c -> class_of c = KLetter \/ class_of c = KDigit.
  Proof.
    intro H. unfold class_of.
    assert (R : N.eqb c 10 = false /\ (N.eqb c 32 || N.eqb c 9 || N.eqb c 13) = false).
    { destruct H as [H | ->]; [|split; reflexivity]. unfold is_alnum, is_letter, is_lower, is_upper, is_digit, in_range in H. rewrite !Bool.orb_true_iff, !Bool.andb_true_iff, !N.leb_le in H.
      split; rewrite ?Bool.orb_false_iff, ?N.eqb_neq; lia. }
    destruct R as [-> ->]. destruct (is_letter c || N.eqb c c_underscore) eqn:E; [auto|]. apply Bool.orb_false_iff in E. destruct E as [E1 E2]. destruct H as [H | ->]; [|discriminate].
    unfold is_alnum in H. rewrite E1 in H. cbn [orb] in H. rewrite H. auto.
  Qed.
  Lemma class_letter c : is_letter c = true \/ c = c_underscore -> class_of c = KLetter.
  Proof.
    intro H. destruct (class_rune c) as [E|E]; [destruct H; [left; unfold is_alnum; rewrite H; reflexivity|right; assumption]|exact E|].
    unfold class_of in *. destruct (N.eqb c 10); [discriminate|]. destruct (_ || _ || _); [discriminate|]. assert (L : is_letter c || N.eqb c c_underscore = true) by (destruct H as [-> | ->]; reflexivity). rewrite L in *. discriminate.
  Qed.
  Lemma run_rest st w st' : cont st w = Some st' -> Forall ident_rune w -> runN st w = ([], st').
  Proof.
    unfold runN. intros H F. revert st st' H. induction F as [|c w Hc F IH]; intros st st' H.
    - destruct st as [b|a|a|p o|a|a|a|b|b []]; try discriminate; injection H as <-; rewrite ?app_nil_r; reflexivity.
    - cbn [run]. destruct st as [b|a|a|p o|a|a|a|b|b []]; try discriminate; unfold step; destruct (class_rune c Hc) as [-> | ->];
        (rewrite (IH _ st'); [reflexivity|]); injection H as <-; cbn [cont]; rewrite <- ?app_assoc; reflexivity.
  Qed.
  Lemma run_name st i t st' : step ext ext_class ext_on st (W i) = (t, st') -> clean t = true -> runN (fst8 st) (names i) = (map ftok t, fst8 st').
  Proof.
    intros H Hc. destruct (names_ok i) as [Hi _]. destruct (names i) as [|c w] eqn:Ei; [destruct Hi|]. destruct Hi as [H1 H2]. apply class_letter in H1.
    assert (NX : step N class_of (fun w => Some (goes_on w)) (fst8 st) c = next N class_of (fun w => Some (goes_on w)) (fst8 st) c -> next ext ext_class ext_on st (W i) = (t, st') -> runN (fst8 st) (c :: w) = (map ftok t, fst8 st')).
    { intros E2 HN. unfold next in HN. destruct (finish ext ext_on st) as [t1 b] eqn:E1. unfold start in HN. cbn [ext_class] in HN. injection HN as <- <-.
      rewrite app_nil_r in Hc. pose proof (finish_flat _ _ _ E1 Hc) as F.
      assert (S : next N class_of (fun w => Some (goes_on w)) (fst8 st) c = (map ftok t1, InWord [c])) by (unfold next, start; rewrite F, H1, app_nil_r; reflexivity).
      unfold runN. cbn [run]. rewrite E2, S. pose proof (run_rest (InWord [c]) w (InWord ([c] ++ w)) eq_refl H2) as R. unfold runN in R. rewrite R. cbn [fst8 flat ex]. rewrite !app_nil_r, Ei. reflexivity. }
    assert (CT : forall a a', fst8 st = a -> step N class_of (fun w => Some (goes_on w)) a c = ([], a') -> forall a'', cont a' w = Some a'' -> t = [] -> fst8 st' = a'' -> runN (fst8 st) (c :: w) = (map ftok t, fst8 st')).
    { intros a a' Ea Es a'' Ec -> Ef. unfold runN. cbn [run]. rewrite Ea, Es. pose proof (run_rest a' w a'' Ec H2) as R. unfold runN in R. rewrite R, Ef. reflexivity. }
    destruct st as [b|a|a|p o|a|a|a|b|b s]; unfold step in H; cbn [ext_class] in H.
    - apply NX; [reflexivity|exact H].
    - injection H as <- <-. eapply CT; [reflexivity|cbn [fst8 step]; rewrite H1; reflexivity|reflexivity|reflexivity|]. cbn [fst8]. rewrite flat_snoc. cbn [ex]. rewrite Ei, <- app_assoc. reflexivity.
    - injection H as <- <-. eapply CT; [reflexivity|cbn [fst8 step]; rewrite H1; reflexivity|reflexivity|reflexivity|]. cbn [fst8]. rewrite flat_snoc. cbn [ex]. rewrite Ei, <- app_assoc. reflexivity.
    - apply NX; [cbn [fst8 step]; rewrite H1; reflexivity|exact H].
    - injection H as <- <-. eapply CT; [reflexivity|cbn [fst8 step]; rewrite H1; reflexivity|reflexivity|reflexivity|]. cbn [fst8]. rewrite flat_snoc. cbn [ex]. rewrite Ei, <- app_assoc. reflexivity.
    - injection H as <- <-. eapply CT; [reflexivity|cbn [fst8 step]; rewrite H1; reflexivity|reflexivity|reflexivity|]. cbn [fst8]. rewrite flat_snoc. cbn [ex]. rewrite Ei, <- app_assoc. reflexivity.
    - injection H as <- <-. eapply CT; [reflexivity|cbn [fst8 step]; rewrite H1; reflexivity|reflexivity|reflexivity|]. cbn [fst8]. rewrite flat_snoc. cbn [ex]. rewrite Ei, <- app_assoc. reflexivity.
    - injection H as <- <-. eapply CT; [reflexivity|cbn [fst8 step]; rewrite H1; reflexivity|reflexivity|reflexivity|]. reflexivity.
    - injection H as <- <-. eapply CT; [reflexivity|cbn [fst8 step]; rewrite H1; reflexivity|reflexivity|reflexivity|]. reflexivity.
  Qed.
  Lemma run_text st i t st' : step ext ext_class ext_on st (Q i) = (t, st') -> clean t = true -> runN (fst8 st) (texts i) = (map ftok t, fst8 st').
  Proof.
    intros H Hc. destruct (texts_ok i) as [S1 S2].
    destruct st as [b|a|a|p o|a|a|a|b|b s]; unfold step in H; cbn [ext_class] in H; try (unfold next, start in H; cbn [ext_class] in H; destruct (finish ext ext_on _) as [t1 b1]; injection H as <- <-; apply clean_app in Hc; destruct Hc as [_ Hc]; discriminate).
    - injection H as <- <-. cbn [fst8]. rewrite S1, flat_snoc. reflexivity.
    - injection H as <- <-. discriminate.
    - injection H as <- <-. discriminate.
    - injection H as <- <-. cbn [fst8]. rewrite S2. reflexivity.
    - injection H as <- <-. discriminate.
  Qed.
  Theorem run_flat s : forall st t st', runE st s = (t, st') -> clean t = true -> runN (fst8 st) (flat s) = (map ftok t, fst8 st').
  Proof.
    induction s as [|x s IH]; intros st t st' H Hc; [injection H as <- <-; reflexivity|]. unfold runE in H. cbn [run] in H.
    destruct (step ext ext_class ext_on st x) as [t1 st1] eqn:E1. destruct (run ext ext_class ext_on st1 s) as [t2 st2] eqn:E2. injection H as <- <-. apply clean_app in Hc. destruct Hc as [C1 C2].
    specialize (IH st1 t2 st2 E2 C2). rewrite flat_cons, map_app. unfold runN. rewrite run_app. fold runN.
    assert (E : runN (fst8 st) (ex x) = (map ftok t1, fst8 st1)).
    { destruct x; cbn [ex]; [|exact (run_name _ _ _ _ E1 C1)|exact (run_text _ _ _ _ E1 C1)]. unfold runN. cbn [run]. rewrite (step_byte _ _ _ _ E1 C1), app_nil_r. reflexivity. }
    rewrite E, IH. reflexivity.
  Qed.
  (** The tokens of a text with names in it *)
  Definition lexE (s : list ext) : list (tok ext) := fst (runE (Idle false) (s ++ [C 10])).
  Theorem lex_flat s : clean (lexE s) = true -> lex (flat s) = map ftok (lexE s).
  Proof.
    unfold lexE, lex. intro H. destruct (runE (Idle false) (s ++ [C 10])) as [t st'] eqn:E. cbn [fst] in *. pose proof (run_flat _ _ _ _ E H) as R. rewrite flat_app in R. cbn [fst8] in R.
    change (flat [C 10]) with [10%N] in R. unfold runN in R. rewrite R. reflexivity.
  Qed.
End Names.
