(** Declarations of texts that are put together. *)
From Coq Require Import String Lia.
From Verif Require Import GoStr GoStrProofs Strs GoLex GoLexProofs GoDecls.
From Verif Require TextSpec.

(** Tokens between brackets *)
Fixpoint nest {A} (st : list str) (l : list (tok A)) : option (list str) :=
  match l with
  | [] => Some st
  | t :: l' => match t, st with
               | Semi, [] => None
               | _, _ => match brackets st t with Some st' => nest st' l' | None => None end
               end
  end.
Lemma nest_app st (a b : list token) : nest st (a ++ b) = match nest st a with Some st' => nest st' b | None => None end.
Proof.
  revert st. induction a as [|t a IH]; intro st; [reflexivity|]. cbn [app nest]. destruct t; try (cbn [brackets]; apply IH).
  - destruct (brackets st (Op o)); [apply IH|reflexivity].
  - destruct st; [reflexivity|]. cbn [brackets]. apply IH.
  - reflexivity.
Qed.
Lemma parts_nest st (cur l r : list token) st' : nest st l = Some st' -> parts_from st cur (l ++ r) = parts_from st' (cur ++ l) r.
Proof.
  revert st cur. induction l as [|t l IH]; intros st cur H; [injection H as ->; rewrite app_nil_r; reflexivity|]. cbn [app nest parts_from] in *.
  assert (E : cur ++ t :: l = (cur ++ [t]) ++ l) by (rewrite <- app_assoc; reflexivity). rewrite E.
  destruct t; try (cbn [brackets] in *; apply IH; exact H).
  - destruct (brackets st (Op o)) as [s|]; [apply IH; exact H|discriminate].
  - destruct st; [discriminate|]. cbn [brackets] in *. apply IH. exact H.
  - discriminate.
Qed.
Lemma nest_plain st (l : list token) : nest st (plain l) = nest st l.
Proof.
  revert st. induction l as [|t l IH]; intro st; [reflexivity|]. cbn [plain]. destruct (optional N t && closes N (plain l)) eqn:E.
  - apply andb_prop in E. destruct E as [E1 E2]. cbn [nest]. destruct t; try discriminate; cbn [optional] in E1.
    + assert (B : brackets st (@Op N o) = Some st) by (unfold brackets; apply str_eqb_eq in E1; subst o; reflexivity). rewrite B. apply IH.
    + destruct st as [|c st]; [|cbn [brackets]; apply IH]. destruct (plain l) as [|u r] eqn:Ep; [discriminate|]. cbn [closes] in E2. destruct u; try discriminate. unfold closing in E2. cbn [nest].
      assert (B : brackets [] (@Op N o) = None) by (unfold brackets; apply Bool.orb_true_iff in E2; destruct E2 as [E2|E2]; apply str_eqb_eq in E2; subst o; reflexivity). rewrite B. reflexivity.
  - cbn [nest]. destruct t; try (cbn [brackets]; apply IH).
    + destruct (brackets st (Op o)); [apply IH|reflexivity].
    + destruct st; [reflexivity|]. cbn [brackets]. apply IH.
    + reflexivity.
Qed.
(** Whole declarations *)
Definition ended (ds : list (list token)) : list token := flat_map (fun d => d ++ [Semi]) ds.
Definition decl (d : list token) : Prop := nest [] d = Some [].
Lemma parts_ended ds r : Forall decl ds -> parts (ended ds ++ r) = option_map (app ds) (parts r).
Proof.
  induction 1 as [|d ds H F IH]; [cbn [ended flat_map app]; destruct (parts r); reflexivity|]. unfold parts, ended in *. cbn [flat_map]. rewrite <- !app_assoc. rewrite (parts_nest [] [] d _ [] H). cbn [app parts_from]. rewrite IH. destruct (parts_from [] [] r); reflexivity.
Qed.
Lemma parts_from_inv (l : list token) : forall st cur ds, parts_from st cur l = Some ds ->
  match ds with
  | [] => l = [] /\ cur = [] /\ st = []
  | d :: ds' => exists x r, l = x ++ Semi :: r /\ d = cur ++ x /\ nest st x = Some [] /\ parts_from [] [] r = Some ds'
  end.
Proof.
  induction l as [|t l IH]; intros st cur ds H.
  - cbn in H. destruct st; [|discriminate]. destruct cur; [|discriminate]. injection H as <-. auto.
  - assert (G : forall st', brackets st t = Some st' -> (t <> Semi \/ st <> []) -> parts_from st' (cur ++ [t]) l = Some ds ->
      match ds with [] => t :: l = [] /\ cur = [] /\ st = [] | d :: ds' => exists x r, t :: l = x ++ Semi :: r /\ d = cur ++ x /\ nest st x = Some [] /\ parts_from [] [] r = Some ds' end).
    { intros st' B S K. apply IH in K. destruct ds as [|d ds]; [destruct K as (_ & K & _); destruct cur; discriminate|]. destruct K as (x & r & -> & -> & N1 & N2). exists (t :: x), r. rewrite <- app_assoc. repeat split; [|exact N2].
      cbn [nest]. rewrite B. destruct t; try exact N1. destruct st; [destruct S as [S|S]; congruence|exact N1]. }
    cbn [parts_from] in H. destruct t.
    1-4: refine (G st eq_refl _ _); [left; discriminate|exact H].
    + destruct (brackets st (Op o)) as [st'|] eqn:B; [|discriminate]. refine (G st' eq_refl _ _); [left; discriminate|exact H].
    + destruct st as [|c st]; [|refine (G (c :: st) eq_refl _ _); [right; discriminate|exact H]]. destruct (parts_from [] [] l) as [ds'|] eqn:E; [|discriminate]. injection H as <-. exists [], l. rewrite app_nil_r. auto.
    + discriminate.
Qed.
Lemma parts_iff (l : list token) ds : parts l = Some ds <-> l = ended ds /\ Forall decl ds.
Proof.
  split.
  - revert l. induction ds as [|d ds IH]; intros l H; unfold parts in H; apply parts_from_inv in H.
    + destruct H as (-> & _ & _). split; [reflexivity|constructor].
    + destruct H as (x & r & -> & -> & H1 & H2). destruct (IH r H2) as [-> F]. split; [unfold ended; cbn [flat_map app]; rewrite <- app_assoc; reflexivity|]. constructor; assumption.
  - intros [-> F]. pose proof (parts_ended ds [] F) as H. rewrite app_nil_r in H. rewrite H. cbn. rewrite app_nil_r. reflexivity.
Qed.
Lemma parts_app (a b : list token) x y : parts a = Some x -> parts b = Some y -> parts (a ++ b) = Some (x ++ y).
Proof. intros H1 H2. apply parts_iff in H1. destruct H1 as [-> F]. rewrite (parts_ended x b F), H2. reflexivity. Qed.
Lemma parts_concat {X} (f : X -> list token) (g : X -> list (list token)) l : (forall x, In x l -> parts (f x) = Some (g x)) -> parts (concat (map f l)) = Some (concat (map g l)).
Proof. induction l as [|x l IH]; intro H; [reflexivity|]. cbn [map concat]. apply parts_app; [apply H; left; reflexivity|apply IH; intros y Hy; apply H; right; exact Hy]. Qed.
Lemma plain_app_open (a b : list token) : closes N (plain b) = false -> plain (a ++ b) = plain a ++ plain b.
Proof.
  intro H. induction a as [|t a IH]; [reflexivity|]. cbn [app plain]. rewrite IH. assert (E : closes N (plain a ++ plain b) = closes N (plain a)) by (destruct (plain a); [exact H|reflexivity]). rewrite E.
  destruct (optional N t && closes N (plain a)); reflexivity.
Qed.
Lemma closing_none (l : list token) : closes N l = true -> nest [] l = None.
Proof.
  intro E. destruct l as [|t l]; [discriminate|]. cbn [closes] in E. destruct t; try discriminate. unfold closing in E. cbn [nest].
  assert (B : brackets [] (@Op N o) = None) by (unfold brackets; apply Bool.orb_true_iff in E; destruct E as [E|E]; apply str_eqb_eq in E; subst o; reflexivity). rewrite B. reflexivity.
Qed.
Lemma plain_ended ds : Forall decl ds -> plain (ended ds) = ended (map plain ds) /\ closes N (plain (ended ds)) = false.
Proof.
  induction 1 as [|d ds H F [I1 I2]]; [split; reflexivity|]. unfold ended in *. cbn [flat_map map]. rewrite <- !app_assoc. cbn [app].
  assert (E : plain (Semi :: flat_map (fun d => d ++ [Semi]) ds) = Semi :: plain (flat_map (fun d => d ++ [Semi]) ds)) by (cbn [plain optional]; rewrite I2; reflexivity).
  rewrite plain_app_open; rewrite E; [|reflexivity]. rewrite I1. split; [reflexivity|]. destruct (closes N (plain d ++ Semi :: flat_map (fun d => d ++ [Semi]) (map plain ds))) eqn:C; [|reflexivity]. exfalso.
  destruct (plain d) as [|t l] eqn:Ep; [discriminate|]. pose proof (closing_none (t :: l) C) as K. rewrite <- Ep, nest_plain in K. unfold decl in H. congruence.
Qed.
Lemma decl_plain d : decl (plain d) <-> decl d. Proof. unfold decl. rewrite nest_plain. reflexivity. Qed.
(** Dropping what may be left out does not change the declarations. *)
Theorem parts_plain (l : list token) ds : parts l = Some ds -> parts (plain l) = Some (map plain ds).
Proof.
  intro H. apply parts_iff in H. destruct H as [-> F]. apply parts_iff. split; [apply plain_ended; exact F|]. apply Forall_map. eapply Forall_impl; [|exact F]. intros d Hd. apply decl_plain. exact Hd.
Qed.
(** ... and nothing else is a file with the same tokens *)
Lemma plain_snoc (l : list token) t : plain (l ++ [t]) = plain (plain l ++ [t]). Proof. symmetry. apply plain_plain_app. Qed.

(** Texts that begin with a new line *)
Definition adds (s : str) (l : list token) : Prop := forall a, lex (a ++ s) = lex a ++ l.
Lemma adds_line s : adds (10%N :: s) (lex s). Proof. intro a. apply lex_lines. Qed.
Lemma adds_nil : adds [] []. Proof. intro a. rewrite !app_nil_r. reflexivity. Qed.
Lemma adds_app s t l m : adds s l -> adds t m -> adds (s ++ t) (l ++ m).
Proof. intros H1 H2 a. rewrite app_assoc, (H2 (a ++ s)), (H1 a), app_assoc. reflexivity. Qed.
Lemma adds_concat_cons s t l m : adds s l -> adds (concat t) m -> adds (concat (s :: t)) (l ++ m). Proof. intros. cbn [concat]. apply adds_app; assumption. Qed.
Lemma adds_each {X} (f : X -> str) (g : X -> list token) l : (forall x, In x l -> adds (f x) (g x)) -> adds (TextSpec.each f l) (concat (map g l)).
Proof.
  unfold TextSpec.each. induction l as [|x l IH]; intro H; [apply adds_nil|]. cbn [map concat]. apply adds_app; [apply H; left; reflexivity|apply IH; intros y Hy; apply H; right; exact Hy].
Qed.
Lemma adds_if (b : bool) s l : adds s l -> adds (if b then s else []) (if b then l else []). Proof. intro H. destruct b; [exact H|apply adds_nil]. Qed.
Lemma adds_lex s l : adds s l -> lex s = l. Proof. intro H. exact (H []). Qed.

(** Tokens from inside a declaration on: the rest of it and the declarations after it, if it ends here; what is open at the end, and the tokens of the last declaration. *)
Fixpoint scan {A} (st : list str) (l : list (tok A)) : option (option (list (tok A) * list (list (tok A))) * list str * list (tok A)) :=
  match l with
  | [] => Some (None, st, [])
  | t :: l' =>
      match t, st with
      | Semi, [] => match scan [] l' with
                    | Some (None, s, r) => Some (Some ([], []), s, r)
                    | Some (Some (b, ds), s, r) => Some (Some ([], b :: ds), s, r)
                    | None => None
                    end
      | _, _ => match brackets st t with
                | None => None
                | Some st' => match scan st' l' with
                              | Some (None, s, r) => Some (None, s, t :: r)
                              | Some (Some (b, ds), s, r) => Some (Some (t :: b, ds), s, r)
                              | None => None
                              end
                end
      end
  end.
Lemma scan_parts (l : list token) : forall st x s r cur R, scan st l = Some (x, s, r) ->
  parts_from st cur (l ++ R) = match x with None => parts_from s (cur ++ r) R | Some (b, ds) => option_map (fun e => (cur ++ b) :: ds ++ e) (parts_from s r R) end.
Proof.
  induction l as [|t l IH]; intros st x s r cur R H; [injection H as <- <- <-; rewrite app_nil_r; reflexivity|].
  assert (G : forall st', brackets st t = Some st' -> (t <> Semi \/ st <> []) -> match scan st' l with Some (None, s, r) => Some (None, s, t :: r) | Some (Some (b, ds), s, r) => Some (Some (t :: b, ds), s, r) | None => None end = Some (x, s, r) ->
    parts_from st' (cur ++ [t]) (l ++ R) = match x with None => parts_from s (cur ++ r) R | Some (b, ds) => option_map (fun e => (cur ++ b) :: ds ++ e) (parts_from s r R) end).
  { intros st' B S K. destruct (scan st' l) as [[[[[b ds]|] s'] r']|] eqn:E; try discriminate; injection K as <- <- <-; rewrite (IH _ _ _ _ (cur ++ [t]) R E).
    - rewrite <- app_assoc. reflexivity.
    - rewrite <- app_assoc. reflexivity. }
  cbn [scan app parts_from] in *. destruct t.
  1-4: refine (G st eq_refl _ _); [left; discriminate|exact H].
  - destruct (brackets st (Op o)) as [st'|] eqn:B; [|discriminate]. refine (G st' eq_refl _ _); [left; discriminate|exact H].
  - destruct st as [|c st]; [|refine (G (c :: st) eq_refl _ _); [right; discriminate|exact H]]. destruct (scan [] l) as [[[[[b ds]|] s'] r']|] eqn:E; try discriminate; injection H as <- <- <-; rewrite (IH _ _ _ _ [] R E); cbn [app].
    + destruct (parts_from s' r' R); cbn [option_map]; rewrite ?app_nil_r; reflexivity.
    + destruct (parts_from s' r' R); cbn [option_map app]; rewrite ?app_nil_r; reflexivity.
  - discriminate.
Qed.
Lemma nest_concat {X} (f : X -> list token) st l : (forall x, In x l -> nest st (f x) = Some st) -> nest st (concat (map f l)) = Some st.
Proof. induction l as [|x l IH]; intro H; [reflexivity|]. cbn [map concat]. rewrite nest_app, (H x (or_introl eq_refl)). apply IH. intros y Hy. apply H. right. exact Hy. Qed.

(** The brackets of a text do not depend on the names in it. *)
Section Names.
  Variables names texts : nat -> str.
  Notation f := (ftok names texts).
  Lemma brackets_map st t : brackets st (f t) = brackets st t. Proof. destruct t; reflexivity. Qed.
  Lemma semi_map {X} (t : tok ext) (st : list str) (a b : X) : match f t, st with Semi, [] => a | _, _ => b end = match t, st with Semi, [] => a | _, _ => b end.
  Proof. destruct t; reflexivity. Qed.
  Lemma nest_map l : forall st, nest st (map f l) = nest st l.
  Proof. induction l as [|t l IH]; intro st; [reflexivity|]. cbn [map nest]. rewrite semi_map, brackets_map. destruct (brackets st t); [rewrite IH|]; reflexivity. Qed.
  Lemma parts_from_map l : forall st cur, parts_from st (map f cur) (map f l) = option_map (map (map f)) (parts_from st cur l).
  Proof.
    induction l as [|t l IH]; intros st cur; [destruct st, cur; reflexivity|]. cbn [map parts_from]. rewrite semi_map, brackets_map.
    assert (G : match brackets st t with Some st' => parts_from st' (map f cur ++ [f t]) (map f l) | None => None end = option_map (map (map f)) (match brackets st t with Some st' => parts_from st' (cur ++ [t]) l | None => None end)).
    { destruct (brackets st t) as [st'|]; [|reflexivity]. rewrite <- IH, map_app. reflexivity. }
    destruct t; try exact G. destruct st; [|exact G]. pose proof (IH [] []) as E. cbn [map] in E. rewrite E. destruct (parts_from [] [] l); reflexivity.
  Qed.
  Lemma parts_map l ds : parts l = Some ds -> parts (map f l) = Some (map (map f) ds).
  Proof. unfold parts. intro H. pose proof (parts_from_map l [] []) as E. cbn [map] in E. rewrite E, H. reflexivity. Qed.
  Lemma scan_map l : forall st, scan st (map f l) =
    match scan st l with
    | Some (None, s, r) => Some (None, s, map f r)
    | Some (Some (b, ds), s, r) => Some (Some (map f b, map (map f) ds), s, map f r)
    | None => None
    end.
  Proof.
    induction l as [|t l IH]; intro st; [reflexivity|]. cbn [map scan]. rewrite semi_map, brackets_map.
    assert (G : match brackets st t with
                | None => None
                | Some st' => match scan st' (map f l) with
                              | Some (None, s, r) => Some (None, s, f t :: r)
                              | Some (Some (b, ds), s, r) => Some (Some (f t :: b, ds), s, r)
                              | None => None
                              end
                end = match (match brackets st t with
                | None => None
                | Some st' => match scan st' l with
                              | Some (None, s, r) => Some (None, s, t :: r)
                              | Some (Some (b, ds), s, r) => Some (Some (t :: b, ds), s, r)
                              | None => None
                              end
                end) with
    | Some (None, s, r) => Some (None, s, map f r)
    | Some (Some (b, ds), s, r) => Some (Some (map f b, map (map f) ds), s, map f r)
    | None => None
    end).
    { destruct (brackets st t) as [st'|]; [|reflexivity]. rewrite IH. destruct (scan st' l) as [[[[[b ds]|] s] r]|]; reflexivity. }
    destruct t; try exact G. destruct st; [|exact G]. rewrite IH. destruct (scan [] l) as [[[[[b ds]|] s] r]|]; reflexivity.
  Qed.
  (** One step over such tokens *)
  Lemma walk_open l st s r cur R ds : scan st l = Some (None, s, r) -> parts_from s (cur ++ map f r) R = Some ds -> parts_from st cur (map f l ++ R) = Some ds.
  Proof. intros H1 H2. rewrite (scan_parts (map f l) st None s (map f r) cur R); [exact H2|]. rewrite scan_map, H1. reflexivity. Qed.
  Lemma walk_closed l st b ds s r cur R e : scan st l = Some (Some (b, ds), s, r) -> parts_from s (map f r) R = Some e -> parts_from st cur (map f l ++ R) = Some ((cur ++ map f b) :: map (map f) ds ++ e).
  Proof. intros H1 H2. rewrite (scan_parts (map f l) st (Some (map f b, map (map f) ds)) s (map f r) cur R); [rewrite H2; reflexivity|]. rewrite scan_map, H1. reflexivity. Qed.
End Names.
Lemma walk_over (X : list token) st cur R ds : nest st X = Some st -> parts_from st (cur ++ X) R = Some ds -> parts_from st cur (X ++ R) = Some ds.
Proof. intros H1 H2. rewrite (parts_nest st cur X R st H1). exact H2. Qed.
Lemma walk_end {A} : parts_from (A := A) [] [] [] = Some []. Proof. reflexivity. Qed.
