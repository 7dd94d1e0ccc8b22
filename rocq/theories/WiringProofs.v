(** Proofs about the declared names. *)
From Coq Require Import FinFun.
From Verif Require Import GoStr GoStrProofs SvcTypes Strs StrsSpec StrsProofs HttpSpec HttpTransport HttpProofs WiringSpec Wiring.

(** ** Apart by prefix or suffix *)
Lemma has_prefix_app : forall p r, has_prefix (p ++ r) p = true.
Proof. induction p as [|c p IH]; intro r; [destruct r; reflexivity|]. cbn [app has_prefix]. rewrite N.eqb_refl. apply IH. Qed.
Definition compat (p q : str) : bool := has_prefix p q || has_prefix q p.
Lemma same_prefix : forall p q r r', p ++ r = q ++ r' -> compat p q = true.
Proof.
  unfold compat. induction p as [|c p IH]; intros q r r' E; [destruct q; reflexivity|]. destruct q as [|d q]; [reflexivity|].
  cbn [app] in E. injection E as -> E. cbn [has_prefix]. rewrite N.eqb_refl. exact (IH _ _ _ E).
Qed.
Lemma same_suffix : forall p q r r', r ++ p = r' ++ q -> compat (rev p) (rev q) = true.
Proof. intros p q r r' E. apply (f_equal (@rev N)) in E. rewrite !rev_app_distr in E. exact (same_prefix _ _ _ _ E). Qed.

(** A group of names with a common beginning and end. *)
Record group := mkG { g_pre : str; g_suf : str; g_names : list str }.
Definition shaped (g : group) : Prop := Forall (fun x => (exists r, x = g_pre g ++ r) /\ (exists r, x = r ++ g_suf g)) (g_names g).
Definition apart (g h : group) : bool := negb (compat (g_pre g) (g_pre h)) || negb (compat (rev (g_suf g)) (rev (g_suf h))).
Fixpoint all_apart (gs : list group) : bool := match gs with [] => true | g :: gs' => forallb (apart g) gs' && all_apart gs' end.
Lemma apart_disjoint : forall g h x, shaped g -> shaped h -> apart g h = true -> In x (g_names g) -> In x (g_names h) -> False.
Proof.
  intros g h x Hg Hh Ha Ig Ih. unfold shaped in *. rewrite Forall_forall in Hg, Hh.
  destruct (Hg x Ig) as ((r1 & E1) & (r2 & E2)). destruct (Hh x Ih) as ((r3 & E3) & (r4 & E4)).
  unfold apart in Ha. apply Bool.orb_true_iff in Ha. destruct Ha as [Ha|Ha]; apply Bool.negb_true_iff in Ha.
  - assert (K : compat (g_pre g) (g_pre h) = true) by (eapply same_prefix; rewrite <- E1, <- E3; reflexivity). congruence.
  - assert (K : compat (rev (g_suf g)) (rev (g_suf h)) = true) by (eapply same_suffix; rewrite <- E2, <- E4; reflexivity). congruence.
Qed.
Lemma nodup_app_iff : forall (A : Type) (a b : list A), NoDup (a ++ b) <-> NoDup a /\ NoDup b /\ (forall x, In x a -> In x b -> False).
Proof.
  induction a as [|x a IH]; intro b; cbn [app].
  - split; [intro H; split; [constructor|split; [exact H|intros ? []]]|tauto].
  - rewrite !NoDup_cons_iff, IH, in_app_iff. split.
    + intros (H1 & H2 & H3 & H4). repeat split; auto. intros y [->|Hy] Hb; [apply H1; auto|exact (H4 y Hy Hb)].
    + intros ((H1 & H2) & H3 & H4). repeat split; auto. { intros [K|K]; [auto|]. exact (H4 x (or_introl eq_refl) K). }
      intros y Hy Hb. exact (H4 y (or_intror Hy) Hb).
Qed.
Lemma nodup_groups : forall gs, Forall shaped gs -> all_apart gs = true ->
  (NoDup (concat (map g_names gs)) <-> Forall (fun g => NoDup (g_names g)) gs).
Proof.
  induction gs as [|g gs IH]; intros Hs Ha; [split; constructor|]. inversion Hs as [|? ? H1 H2]; subst. cbn [all_apart] in Ha.
  apply andb_prop in Ha. destruct Ha as [Ha Hb]. cbn [map concat]. rewrite nodup_app_iff, (IH H2 Hb), Forall_cons_iff. split; [tauto|].
  intros [K1 K2]. split; [exact K1|]. split; [exact K2|]. intros x Ix Ic. apply in_concat in Ic. destruct Ic as (l & Il & Ix2).
  apply in_map_iff in Il. destruct Il as (h & <- & Ih). rewrite forallb_forall in Ha. rewrite Forall_forall in H2.
  exact (apart_disjoint g h x H1 (H2 h Ih) (Ha h Ih) Ix Ix2).
Qed.
Definition fixed (w : str) : group := mkG w w [w].
Lemma shaped_fixed : forall w, shaped (fixed w).
Proof. intro w. constructor; [|constructor]. split; exists []; [rewrite app_nil_r|]; reflexivity. Qed.
Definition family (p : str) (l : list str) (s : str) : group := mkG p s (each p l s).
Lemma shaped_family : forall p l s, shaped (family p l s).
Proof.
  intros p l s. unfold shaped, family, each. cbn [g_pre g_suf g_names]. apply Forall_map. apply Forall_forall. intros n _.
  split; [eexists; reflexivity|exists (p ++ n); rewrite app_assoc; reflexivity].
Qed.
Lemma each_nodup : forall p l s, NoDup (each p l s) <-> NoDup l.
Proof.
  intros p l s. unfold each. split; [intro H; apply NoDup_map_inv in H; exact H|].
  intro H. apply FinFun.Injective_map_NoDup; [|exact H]. intros a b E. apply app_inv_head in E. apply app_inv_tail in E. exact E.
Qed.
Lemma in_each : forall p l s x, In x (each p l s) <-> exists n, In n l /\ x = p ++ n ++ s.
Proof. intros. unfold each. rewrite in_map_iff. split; intros (n & H1 & H2); exists n; split; congruence || auto. Qed.

(** ** Identifiers *)
Definition ident_runeb (c : N) : bool := is_alnum c || N.eqb c c_underscore.
Lemma ident_rune_b : forall c, ident_runeb c = true <-> ident_rune c.
Proof. intro c. unfold ident_runeb, ident_rune. rewrite Bool.orb_true_iff, N.eqb_eq. tauto. Qed.
Definition identb (s : str) : bool :=
  match s with c :: s' => (is_letter c || N.eqb c c_underscore) && forallb ident_runeb s' | [] => false end && negb (existsb (str_eqb s) go_keywords).
Lemma ident_b : forall s, identb s = true -> ident s.
Proof.
  intros s H. unfold identb in H. apply andb_prop in H. destruct H as [H K]. split.
  - destruct s as [|c s]; [discriminate|]. apply andb_prop in H. destruct H as [H1 H2]. split.
    + apply Bool.orb_true_iff in H1. rewrite N.eqb_eq in H1. exact H1.
    + rewrite forallb_forall in H2. apply Forall_forall. intros x Hx. apply ident_rune_b. auto.
  - intro I. apply Bool.negb_true_iff in K. assert (E : existsb (str_eqb s) go_keywords = true); [|congruence].
    apply existsb_exists. exists s. split; [exact I|]. apply str_eqb_eq. reflexivity.
Qed.
Lemma upper_no_keyword : forall s, existsb is_upper s = true -> ~ In s go_keywords.
Proof.
  intros s H I. assert (K : forallb (fun k => negb (existsb is_upper k)) go_keywords = true) by reflexivity.
  rewrite forallb_forall in K. specialize (K s I). rewrite H in K. discriminate.
Qed.
Definition begins (p : str) : bool := match p with c :: p' => is_letter c && forallb ident_runeb p' | [] => false end.
Lemma family_ident : forall p n s, begins p = true -> existsb is_upper p = true -> Forall ident_rune n -> forallb ident_runeb s = true -> ident (p ++ n ++ s).
Proof.
  intros p n s Hp Hu Hn Hs. split.
  - destruct p as [|c p]; [discriminate|]. cbn [begins] in Hp. apply andb_prop in Hp. destruct Hp as [H1 H2]. cbn [app]. split; [left; exact H1|].
    apply Forall_app. split; [|apply Forall_app; split; [exact Hn|]]; apply Forall_forall; intros x Hx; apply ident_rune_b.
    + rewrite forallb_forall in H2. auto.
    + rewrite forallb_forall in Hs. auto.
  - apply upper_no_keyword. rewrite existsb_app, Hu. reflexivity.
Qed.
Lemma letter_upper : forall c, is_upper c = true -> is_letter c = true.
Proof. intros c H. unfold is_letter. rewrite H. rewrite ?Bool.orb_true_r. reflexivity. Qed.
Lemma exported_runes : forall s, exported_ident s -> Forall ident_rune s.
Proof.
  intros [|c s] H; [constructor|]. destruct H as [H1 H2]. constructor.
  - left. unfold is_alnum. rewrite (letter_upper c H1). reflexivity.
  - eapply Forall_impl; [|exact H2]. intros d Hd. exact Hd.
Qed.
Lemma exported_is_ident : forall s, exported_ident s -> ident s.
Proof.
  intros s H. pose proof (exported_runes s H) as R. destruct s as [|c s]; [destruct H|]. destruct H as [H1 H2]. inversion R; subst. split.
  - split; [left; apply letter_upper; exact H1|assumption].
  - apply upper_no_keyword. cbn [existsb]. rewrite H1. reflexivity.
Qed.
Lemma exported_suffix : forall n s, exported_ident n -> forallb ident_runeb s = true -> ident (n ++ s).
Proof.
  intros n s H Hs. destruct n as [|c n]; [destruct H|]. destruct H as [H1 H2]. split.
  - cbn [app]. split; [left; apply letter_upper; exact H1|]. apply Forall_app. split; [eapply Forall_impl; [|exact H2]; intros d Hd; exact Hd|].
    rewrite forallb_forall in Hs. apply Forall_forall. intros x Hx. apply ident_rune_b. auto.
  - apply upper_no_keyword. cbn [app existsb]. rewrite H1. reflexivity.
Qed.
Lemma lower_upper : forall c, is_upper (lower1 c) = false.
Proof.
  intro c. unfold lower1. destruct (is_upper c) eqn:E; [|exact E]. unfold is_upper in *. apply in_range_spec in E.
  destruct (in_range 65 90 (c + 32)) eqn:K; [|reflexivity]. apply in_range_spec in K. lia.
Qed.
Lemma lower_alnum : forall c, ident_rune c -> ident_rune (lower1 c).
Proof.
  intros c [H | ->]; [|right; reflexivity]. left. unfold lower1. destruct (is_upper c) eqn:E; [|exact H].
  unfold is_alnum, is_letter. assert (K : is_lower (c + 32) = true); [|rewrite K; reflexivity].
  unfold is_upper, is_lower in *. apply in_range_spec. apply in_range_spec in E. lia.
Qed.
Lemma lower_letter : forall c, is_upper c = true -> is_letter (lower1 c) = true.
Proof.
  intros c E. unfold lower1. rewrite E. unfold is_letter. assert (K : is_lower (c + 32) = true); [|rewrite K; reflexivity].
  unfold is_upper, is_lower in *. apply in_range_spec. apply in_range_spec in E. lia.
Qed.
Lemma lowered_ident : forall n s, exported_ident n -> forallb ident_runeb s = true -> existsb is_upper s = true -> ident (to_lower n ++ s).
Proof.
  intros n s H Hs Hu. pose proof (exported_runes n H) as R. destruct n as [|c n]; [destruct H|]. destruct H as [H1 _]. inversion R as [|? ? R1 R2]; subst. split.
  - cbn [to_lower map app]. split; [left; apply lower_letter; exact H1|]. apply Forall_app. split.
    + apply Forall_map. eapply Forall_impl; [|exact R2]. intros d Hd. apply lower_alnum. exact Hd.
    + rewrite forallb_forall in Hs. apply Forall_forall. intros x Hx. apply ident_rune_b. auto.
  - apply upper_no_keyword. rewrite existsb_app, Hu. apply Bool.orb_true_r.
Qed.
Lemma lowered_ident0 : forall n, exported_ident n -> (ident (to_lower n) <-> ~ In (to_lower n) go_keywords).
Proof.
  intros n H. split; [intros [_ K]; exact K|]. intro K. split; [|exact K]. pose proof (exported_runes n H) as R. destruct n as [|c n]; [destruct H|]. destruct H as [H1 _].
  inversion R as [|? ? R1 R2]; subst. cbn [to_lower map]. split; [left; apply lower_letter; exact H1|].
  apply Forall_map. eapply Forall_impl; [|exact R2]. intros d Hd. apply lower_alnum. exact Hd.
Qed.
Lemma lower_no_upper : forall n, existsb is_upper (to_lower n) = false.
Proof. induction n as [|c n IH]; [reflexivity|]. cbn [to_lower map existsb]. rewrite lower_upper. exact IH. Qed.
Lemma exported_has_upper : forall n, exported_ident n -> existsb is_upper n = true.
Proof. intros [|c n] H; [destruct H|]. destruct H as [H _]. cbn [existsb]. rewrite H. reflexivity. Qed.
Lemma english_runes : forall i, Forall ident_rune (english_number (Z.of_N i)).
Proof.
  intro i. rewrite (english_words _ _ (dl_decimal i)). generalize (dl_decimal i). intros (H & _). induction H as [|d ds Hd H IH]; [constructor|].
  unfold words. cbn [map concat]. apply Forall_app. split; [|exact IH]. apply Forall_forall. intros x Hx. apply ident_rune_b.
  assert (K : forallb ident_runeb (digit_word d) = true) by (ten d; try lia; reflexivity). rewrite forallb_forall in K. auto.
Qed.
