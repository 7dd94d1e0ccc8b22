(** Proofs about Start.v: names, and the starter file as the scanner, lexer and parser see it. *)
From Verif Require Import GoStr GoStrProofs Scanner ScannerSpec Lexer LexerSpec Unquote Parser ParserSpec ParserProofs3 Strs StrsSpec StrsProofs
  Generator Start StartSpec.

(** ** Names *)
Lemma replace1_all : forall (P Q : N -> Prop) old new s, Forall P s -> (forall c, P c -> c <> old -> Q c) -> Forall Q new ->
  Forall Q (replace1 old new s).
Proof.
  intros P Q old new s H H1 H2. induction H as [|c s Hc H IH]; [apply Forall_nil|]. unfold replace1. cbn [flat_map].
  apply Forall_app. split; [|exact IH]. destruct (N.eqb_spec c old); [exact H2|]. apply Forall_cons; [apply H1; assumption|apply Forall_nil].
Qed.
Lemma letter_plain : forall c, is_letter c = true -> c <> c_dash /\ c <> c_space.
Proof. intros c H. split; intros ->; discriminate. Qed.
Lemma replace1_head : forall old new c s, c <> old -> replace1 old new (c :: s) = c :: replace1 old new s.
Proof. intros old new c s H. unfold replace1. cbn [flat_map]. apply N.eqb_neq in H. rewrite H. reflexivity. Qed.

Lemma lower1_ident : forall c, is_alnum c = true \/ c = c_underscore -> is_lower (lower1 c) = true \/ is_digit (lower1 c) = true \/ lower1 c = c_underscore.
Proof.
  intros c [H | ->]; [|right; right; reflexivity]. unfold is_alnum, is_letter in H. unfold lower1.
  destruct (is_upper c) eqn:E.
  - left. unfold is_upper, is_lower, in_range in *. apply Bool.andb_true_iff in E. destruct E as [E1 E2].
    apply N.leb_le in E1. apply N.leb_le in E2. apply Bool.andb_true_iff. split; apply N.leb_le; lia.
  - destruct (is_lower c); [left; reflexivity|]. destruct (is_digit c); [right; left; reflexivity|discriminate].
Qed.
Lemma lower1_letter : forall c, is_letter c = true -> is_lower (lower1 c) = true.
Proof.
  intros c H. unfold is_letter in H. unfold lower1. destruct (is_upper c) eqn:E.
  - unfold is_upper, is_lower, in_range in *. apply Bool.andb_true_iff in E. destruct E as [E1 E2].
    apply N.leb_le in E1. apply N.leb_le in E2. apply Bool.andb_true_iff. split; apply N.leb_le; lia.
  - destruct (is_lower c); [reflexivity|discriminate].
Qed.

Lemma package_name_ident : forall a, starter_name a -> lower_ident (package_name a).
Proof.
  intros [|c a] H; [contradiction|]. destruct H as [Hc Ha]. destruct (letter_plain _ Hc) as [H1 H2].
  unfold package_name. rewrite replace1_head by exact H1. rewrite replace1_head by exact H2. cbn [to_lower map lower_ident].
  split; [apply lower1_letter; exact Hc|]. apply Forall_map.
  apply (replace1_all (fun d => is_alnum d = true \/ d = c_space \/ d = c_underscore)).
  - apply (replace1_all starter_rune); [exact Ha| |apply Forall_nil]. intros d [K|[K|[K|K]]] Hd; try contradiction; auto.
  - intros d [K|[K|K]] Hd; [apply lower1_ident; auto|contradiction|apply lower1_ident; auto].
  - apply Forall_nil.
Qed.

Lemma service_name_exported : forall a, starter_name a -> exported_ident (service_name a).
Proof.
  intros [|c a] H; [contradiction|]. destruct H as [Hc Ha]. destruct (letter_plain _ Hc) as [H1 H2].
  unfold service_name. apply camel_exported. rewrite replace1_head by exact H1. rewrite replace1_head by exact H2.
  split; [|left; exact Hc]. apply Forall_cons; [left; unfold is_alnum; rewrite Hc; reflexivity|].
  apply (replace1_all (fun d => is_alnum d = true \/ d = c_space \/ d = c_underscore)).
  - apply (replace1_all starter_rune); [exact Ha| |]; [intros d [K|[K|[K|K]]] Hd; try contradiction; auto|].
    apply Forall_cons; [right; right; reflexivity|apply Forall_nil].
  - intros d [K|[K|K]] Hd; [left; exact K|contradiction|right; left; exact K].
  - apply Forall_cons; [right; left; reflexivity|apply Forall_nil].
Qed.

(** ** Text made of plain units *)
(** White space, identifiers, literals without escapes, and symbols other than a slash. *)
Inductive plain_kind := KSpace | KIdent | KLit | KSym.
Section U.
Variable U : unicode.
Hypothesis HU : unicode_ok U.

Definition shape (k : plain_kind) (u : str) : Prop :=
  match k with
  | KSpace => u <> [] /\ Forall (fun c => u_space U c = true) u
  | KIdent => u <> [] /\ Forall (ident_rune U) u
  | KLit => exists b, u = [c_dquote] ++ b ++ [c_dquote] /\ string_body b
  | KSym => exists c, u = [c] /\ c <> c_dquote /\ c <> c_slash /\ u_space U c = false /\ ~ ident_rune U c
  end.
Definition same_kind (a b : plain_kind) : bool :=
  match a, b with KSpace, KSpace | KIdent, KIdent => true | _, _ => false end.
Fixpoint apart (l : list (plain_kind * str)) : bool :=
  match l with
  | x :: l' => match l' with y :: _ => negb (same_kind (fst x) (fst y)) | [] => true end && apart l'
  | [] => true
  end.

Lemma space_not_ident : forall c, u_space U c = true -> ~ ident_rune U c.
Proof.
  intros c H [K|[K|K]].
  - rewrite (proj1 (proj2 HU c H)) in K. discriminate.
  - rewrite (proj2 (proj2 HU c H)) in K. discriminate.
  - subst c. destruct (proj1 HU c_underscore ltac:(reflexivity)) as (_ & _ & E). rewrite E in H. discriminate.
Qed.
Lemma dquote_class : u_space U c_dquote = false /\ ~ ident_rune U c_dquote.
Proof.
  destruct (proj1 HU c_dquote ltac:(reflexivity)) as (E1 & E2 & E3). split; [exact E3|].
  intros [K|[K|K]]; [rewrite E1 in K|rewrite E2 in K|]; discriminate.
Qed.
Lemma shape_ne : forall k u, shape k u -> u <> [].
Proof.
  intros [] u H; [exact (proj1 H)|exact (proj1 H)|destruct H as (b & -> & _); discriminate|destruct H as (c & -> & _); discriminate].
Qed.
(** What a unit of each kind can begin with. *)
Lemma shape_space : forall k u, shape k u -> starts (fun c => u_space U c = true) u -> k = KSpace.
Proof.
  intros [] u H S; [reflexivity| | |].
  - destruct H as [Hn H]. destruct u as [|c u]; [contradiction|]. inversion H; subst. exfalso. exact (space_not_ident _ S H2).
  - destruct H as (b & -> & _). cbn in S. rewrite (proj1 dquote_class) in S. discriminate.
  - destruct H as (c & -> & _ & _ & H & _). cbn in S. congruence.
Qed.
Lemma shape_ident : forall k u, shape k u -> starts (ident_rune U) u -> k = KIdent.
Proof.
  intros [] u H S; [|reflexivity| |].
  - destruct H as [Hn H]. destruct u as [|c u]; [contradiction|]. inversion H; subst. exfalso. exact (space_not_ident _ H2 S).
  - destruct H as (b & -> & _). cbn in S. exfalso. exact (proj2 dquote_class S).
  - destruct H as (c & -> & _ & _ & _ & H). exfalso. exact (H S).
Qed.
Lemma slash_class : u_space U c_slash = false /\ ~ ident_rune U c_slash.
Proof.
  destruct (proj1 HU c_slash ltac:(reflexivity)) as (E1 & E2 & E3). split; [exact E3|].
  intros [K|[K|K]]; [rewrite E1 in K|rewrite E2 in K|]; discriminate.
Qed.
Lemma shape_slash : forall k, ~ shape k [c_slash].
Proof.
  intros [] H.
  - destruct H as [_ H]. inversion H; subst. rewrite (proj1 slash_class) in H2. discriminate.
  - destruct H as [_ H]. inversion H; subst. exact (proj2 slash_class H2).
  - destruct H as (b & E & _). discriminate.
  - destruct H as (c & E & _ & H & _). injection E as <-. contradiction.
Qed.
Lemma shape_unit : forall k u, shape k u -> unit_shape U u.
Proof.
  intros [] u H.
  - apply us_space; apply H.
  - apply us_ident; apply H.
  - destruct H as (b & -> & H). apply us_string. exact H.
  - destruct H as (c & -> & H1 & _ & H3 & H4). apply us_symbol; assumption.
Qed.

Lemma kinds_separated : forall l, Forall (fun x => shape (fst x) (snd x)) l -> apart l = true -> well_separated U (map snd l).
Proof.
  induction l as [|[k u] l IH]; intros H Ha; [apply ws_nil|]. inversion H as [|x y Hk Hl]; subst. cbn [fst snd] in Hk.
  cbn [apart fst] in Ha. apply Bool.andb_true_iff in Ha. destruct Ha as [Ha1 Ha2]. cbn [map snd].
  apply ws_cons; [exact (shape_unit _ _ Hk)| |exact (IH Hl Ha2)].
  intros [[S1 S2]|[[S1 S2]|[S1 _]]].
  - destruct l as [|[k2 u2] l]; [exact S2|]. inversion Hl as [|x y Hk2 Hl2]; subst. cbn [fst snd map concat] in *.
    pose proof (shape_space _ _ Hk S1). assert (S3 : starts (fun c => u_space U c = true) u2).
    { pose proof (shape_ne _ _ Hk2). destruct u2; [contradiction|exact S2]. }
    pose proof (shape_space _ _ Hk2 S3). subst. discriminate.
  - destruct l as [|[k2 u2] l]; [exact S2|]. inversion Hl as [|x y Hk2 Hl2]; subst. cbn [fst snd map concat] in *.
    pose proof (shape_ident _ _ Hk S1). assert (S3 : starts (ident_rune U) u2).
    { pose proof (shape_ne _ _ Hk2). destruct u2; [contradiction|exact S2]. }
    pose proof (shape_ident _ _ Hk2 S3). subst. discriminate.
  - subst u. exact (shape_slash _ Hk).
Qed.

(** ASCII units are recognised by computation. *)
Definition ascii_ident (c : N) : bool := is_alnum c || N.eqb c c_underscore.
Definition ascii_lit (u : str) : bool :=
  match u with
  | c :: u' => N.eqb c c_dquote && match rev u' with
      | d :: b => N.eqb d c_dquote && forallb (fun x => negb (N.eqb x c_dquote) && negb (N.eqb x c_backslash)) b
      | [] => false end
  | [] => false
  end.
Definition ascii_shape (k : plain_kind) (u : str) : bool :=
  match k with
  | KSpace => negb (Nat.eqb (length u) 0) && forallb ascii_space u
  | KIdent => negb (Nat.eqb (length u) 0) && forallb ascii_ident u
  | KLit => ascii_lit u
  | KSym => match u with [c] => N.ltb c 128 && negb (N.eqb c c_dquote) && negb (N.eqb c c_slash) && negb (ascii_space c) && negb (ascii_ident c) | _ => false end
  end.
Lemma ident_ascii : forall c, ascii_ident c = true -> ident_rune U c.
Proof.
  intros c H. unfold ascii_ident in H. apply Bool.orb_true_iff in H. destruct H as [H|H]; [|right; right; apply N.eqb_eq; exact H].
  assert (L : (c < 128)%N).
  { unfold is_alnum, is_letter, is_lower, is_upper, is_digit, in_range in H. repeat rewrite Bool.orb_true_iff in H. repeat rewrite Bool.andb_true_iff in H.
    repeat rewrite N.leb_le in H. lia. }
  destruct (proj1 HU c L) as (E1 & E2 & _). unfold is_alnum in H. apply Bool.orb_true_iff in H.
  destruct H as [H|H]; [left; congruence|right; left; congruence].
Qed.
Lemma space_ascii : forall c, ascii_space c = true -> u_space U c = true.
Proof.
  intros c H. assert (L : (c < 128)%N).
  { unfold ascii_space, in_range in H. rewrite Bool.orb_true_iff, Bool.andb_true_iff, !N.leb_le, N.eqb_eq in H. lia. }
  destruct (proj1 HU c L) as (_ & _ & E). congruence.
Qed.
Lemma plain_body : forall b, forallb (fun x => negb (N.eqb x c_dquote) && negb (N.eqb x c_backslash)) b = true -> string_body b.
Proof.
  induction b as [|c b IH]; intro H; [apply sb_nil|]. cbn [forallb] in H. apply Bool.andb_true_iff in H. destruct H as [H1 H2].
  apply Bool.andb_true_iff in H1. destruct H1 as [H1 H3]. apply Bool.negb_true_iff, N.eqb_neq in H1, H3. apply sb_plain; auto.
Qed.
Lemma ascii_shape_ok : forall k u, ascii_shape k u = true -> shape k u.
Proof.
  intros [] u H; cbn [ascii_shape] in H.
  - apply Bool.andb_true_iff in H. destruct H as [H1 H2]. split; [intros ->; discriminate|].
    apply Forall_forall. intros c Hc. rewrite forallb_forall in H2. apply space_ascii. auto.
  - apply Bool.andb_true_iff in H. destruct H as [H1 H2]. split; [intros ->; discriminate|].
    apply Forall_forall. intros c Hc. rewrite forallb_forall in H2. apply ident_ascii. auto.
  - unfold ascii_lit in H. destruct u as [|c u]; [discriminate|]. apply Bool.andb_true_iff in H. destruct H as [H1 H].
    destruct (rev u) as [|d b] eqn:E; [discriminate|]. apply Bool.andb_true_iff in H. destruct H as [H2 H].
    apply N.eqb_eq in H1, H2. subst c d. exists (rev b). split.
    + cbn [app]. f_equal. rewrite <- (rev_involutive u), E. reflexivity.
    + apply plain_body. rewrite forallb_forall in *. intros x Hx. apply H. apply in_rev. exact Hx.
  - destruct u as [|c [|]]; try discriminate. rewrite !Bool.andb_true_iff, !Bool.negb_true_iff, !N.eqb_neq, N.ltb_lt in H.
    destruct H as ((((H1 & H2) & H3) & H4) & H5). exists c. split; [reflexivity|]. split; [exact H2|]. split; [exact H3|].
    destruct (proj1 HU c H1) as (E1 & E2 & E3). split; [congruence|]. unfold ascii_ident, is_alnum in H5.
    apply Bool.orb_false_iff in H5. destruct H5 as [H5 H6]. apply Bool.orb_false_iff in H5. destruct H5 as [H5 H7].
    intros [K|[K|K]]; [congruence|congruence|]. apply N.eqb_neq in H6. contradiction.
Qed.

(** The tokens the units spell. *)
Definition sym_token (u : str) : token :=
  if str_eqb u (T "(") then OPEN_PAREN else if str_eqb u (T ")") then CLOSE_PAREN
  else if str_eqb u (T "{") then OPEN_BRACE else if str_eqb u (T "}") then CLOSE_BRACE else SYMBOL.
Definition kind_tokens (x : plain_kind * str) : list stok :=
  match fst x with KSpace => [] | KIdent => [(IDENT, snd x)] | KLit => [(STRING_LITERAL, snd x)] | KSym => [(sym_token (snd x), snd x)] end.
Lemma sym_token_ok : forall c, c <> c_dquote -> u_space U c = false -> ~ ident_rune U c -> unit_token U [c] (sym_token [c]) /\ sym_token [c] <> WHITESPACE.
Proof.
  intros c H1 H2 H3. unfold sym_token.
  destruct (str_eqb [c] (T "(")) eqn:E1; [apply str_eqb_eq in E1; injection E1 as ->; split; [apply ut_lparen|discriminate]|].
  destruct (str_eqb [c] (T ")")) eqn:E2; [apply str_eqb_eq in E2; injection E2 as ->; split; [apply ut_rparen|discriminate]|].
  destruct (str_eqb [c] (T "{")) eqn:E3; [apply str_eqb_eq in E3; injection E3 as ->; split; [apply ut_lbrace|discriminate]|].
  destruct (str_eqb [c] (T "}")) eqn:E4; [apply str_eqb_eq in E4; injection E4 as ->; split; [apply ut_rbrace|discriminate]|].
  split; [|discriminate]. apply ut_symbol; [exact H2|exact H3|].
  intros [K|[K|[K|[K|[K|[]]]]]]; subst c; try congruence; discriminate.
Qed.
Lemma shape_not_comment : forall k u, shape k u -> ~ is_comment u.
Proof.
  intros k u H (d & s & ->). destruct k.
  - destruct H as [_ H]. inversion H; subst. rewrite (proj1 slash_class) in H2. discriminate.
  - destruct H as [_ H]. inversion H; subst. exact (proj2 slash_class H2).
  - destruct H as (b & E & _). discriminate.
  - destruct H as (c & E & _). discriminate.
Qed.
Lemma kinds_spell : forall l, Forall (fun x => shape (fst x) (snd x)) l -> spells U (map snd l) (concat (map kind_tokens l)).
Proof.
  induction l as [|[k u] l IH]; intro H; [apply sp_nil|]. inversion H as [|x y Hk Hl]; subst. cbn [fst snd] in Hk. specialize (IH Hl).
  cbn [map concat snd]. pose proof (shape_not_comment _ _ Hk) as Hc. pose proof (shape_ne _ _ Hk) as Hne. unfold kind_tokens at 1. cbn [fst snd].
  destruct k; cbn [app].
  - apply sp_space; [|exact IH]. destruct Hk as [Hn Hk]. destruct u; [contradiction|]. inversion Hk; assumption.
  - apply sp_unit; [exact Hc| |discriminate|exact IH]. destruct Hk as [Hn Hk]. destruct u; [contradiction|]. apply ut_ident. inversion Hk; assumption.
  - apply sp_unit; [exact Hc| |discriminate|exact IH]. destruct Hk as (b & -> & _). apply ut_string.
  - destruct Hk as (c & -> & H1 & _ & H3 & H4). destruct (sym_token_ok c H1 H3 H4) as [K1 K2]. apply sp_unit; assumption.
Qed.
End U.
