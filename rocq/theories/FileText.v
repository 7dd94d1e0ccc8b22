(** The declarations of the text of baron/NAME.pb.baron.go: proofs (the statements are in PropGoFile.v). *)
From Coq Require Import String Lia.
From Verif Require Import GoStr GoStrProofs GoMap Strs StrsSpec SvcTypes HttpTransport Handler Generator Template Render TextSpec TextFile GoLex GoLexProofs GoDecls GoDeclsProofs WiringSpec DecoderText.
From Verif Require PropStrs WiringProofs DecoderTexts DecoderTexts2 FileNest.

Lemma adds_seg names texts s p p' l : Forall ident names -> Forall inner texts -> reads names texts s p -> p = C 10 :: p' -> lexE p' = l -> clean l = true -> adds s (map (ftok (nth_name names) (nth_text texts)) l).
Proof.
  intros H1 H2 <- -> E Hc a. rewrite flat_cons. change (a ++ (ex (nth_name names) (nth_text texts) (C 10) ++ flat (nth_name names) (nth_text texts) p')) with (a ++ 10%N :: flat (nth_name names) (nth_text texts) p').
  rewrite lex_lines. f_equal. subst l. apply lex_flat; [apply nth_name_ok; exact H1|apply nth_text_ok; exact H2|exact Hc].
Qed.
Lemma adds_split n l x y : adds (concat (firstn n l)) x -> adds (concat (skipn n l)) y -> adds (concat l) (x ++ y).
Proof. intros H1 H2. rewrite <- (firstn_skipn n l) at 1. rewrite concat_app. apply adds_app; assumption. Qed.
Ltac lead l :=
  lazymatch l with
  | [] => constr:(0)
  | ?x :: ?r => lazymatch x with
                | each _ _ => constr:(0)
                | concat _ => constr:(0)
                | (if _ then _ else _) => constr:(0)
                | (match _ with [] => _ | _ :: _ => _ end) => constr:(0)
                | _ => let n := lead r in constr:(S n)
                end
  end.
Ltac seg N Tx := eapply (adds_seg N Tx); [assumption|assumption|reads|vm_compute; reflexivity|vm_compute; reflexivity|vm_compute; reflexivity].
(** [loop x Hx k]: make hypotheses about the element x of a list, and go on with k and the names to use *)
Ltac adds_with loop N Tx :=
  lazymatch goal with
  | |- adds (concat ?l) _ =>
      lazymatch l with
      | [] => apply adds_nil
      | _ => let n := lead l in
             lazymatch n with
             | 0 => eapply adds_concat_cons; [adds_with loop N Tx|adds_with loop N Tx]
             | _ => eapply (adds_split n l); cbn [firstn skipn]; [seg N Tx|adds_with loop N Tx]
             end
      end
  | |- adds (each _ _) _ => eapply adds_each; let x := fresh "x" in let Hx := fresh "Hx" in intros x Hx; loop x Hx ltac:(fun N' Tx' => adds_with loop N' Tx')
  | |- adds (if _ then _ else []) _ => eapply adds_if; adds_with loop N Tx
  | |- adds ?t _ => let t' := eval red in t in change t with t'; first [adds_with loop N Tx | seg N Tx]
  end.


(** ** What a file says, piece by piece *)
Inductive query := Names | Imports | EField | EMethod | GField | GMethod | NField.
Definition ask (package_name : str -> str) (q : query) : list token -> list str :=
  match q with
  | Names => declares
  | Imports => imports_of package_name
  | EField => fields_of (T "Endpoints") | EMethod => methods_of (T "Endpoints")
  | GField => fields_of (T "grpcServer") | GMethod => methods_of (T "grpcServer")
  | NField => fields_of (T "natsServer")
  end.
Section Sec.
  Variable package_name : str -> str.
  Definition sec (s : str) (v : query -> list str) (R : list (list token)) : Prop :=
    exists L ds, adds s L /\ parts L = Some ds /\ (forall q, flat_map (ask package_name q) (map plain ds) = v q) /\ incl R (map plain ds).
  Definition no : query -> list str := fun _ => [].
  Definition and (v w : query -> list str) : query -> list str := fun q => v q ++ w q.
  Definition just (l : list str) : query -> list str := fun q => match q with Names => l | _ => [] end.
  Lemma sec_nil : sec [] no []. Proof. exists [], []. repeat split; [apply adds_nil|]. intros x []. Qed.
  Lemma sec_app s t v w R Q : sec s v R -> sec t w Q -> sec (s ++ t) (and v w) (R ++ Q).
  Proof.
    intros (L & ds & A1 & P1 & V1 & I1) (M & es & A2 & P2 & V2 & I2). exists (L ++ M), (ds ++ es). split; [apply adds_app; assumption|]. split; [apply parts_app; assumption|]. rewrite map_app. split.
    - intro q. unfold and. rewrite flat_map_app, V1, V2. reflexivity.
    - apply incl_app_app; assumption.
  Qed.
  Lemma sec_concat_cons s t v w R Q : sec s v R -> sec (concat t) w Q -> sec (concat (s :: t)) (and v w) (R ++ Q). Proof. apply sec_app. Qed.
  Lemma sec_each {X} (f : X -> str) (v : X -> query -> list str) (R : X -> list (list token)) l : (forall x, In x l -> sec (f x) (v x) (R x)) ->
    sec (each f l) (fun q => flat_map (fun x => v x q) l) (flat_map R l).
  Proof.
    unfold each. induction l as [|x l IH]; intro H; [exact sec_nil|]. cbn [map concat flat_map]. apply (sec_app (f x) (concat (map f l)) (v x) (fun q => flat_map (fun x => v x q) l)); [apply H; left; reflexivity|apply IH; intros y Hy; apply H; right; exact Hy].
  Qed.
  Lemma sec_if (b : bool) s v R : (b = true -> sec s v R) -> sec (if b then s else []) (fun q => if b then v q else []) (if b then R else []).
  Proof. intro H. destruct b; [exact (H eq_refl)|exact sec_nil]. Qed.
  Lemma sec_say s v v' R R' : sec s v R -> (forall q, v q = v' q) -> incl R' R -> sec s v' R'.
  Proof. intros (L & ds & A & P & V & I) E J. exists L, ds. split; [exact A|]. split; [exact P|]. split; [intro q; rewrite V; apply E|]. intros x Hx. apply I, J, Hx. Qed.
  Lemma sec_text s t v R : sec s v R -> s = t -> sec t v R. Proof. intros H <-. exact H. Qed.
End Sec.

(** ** Struct types *)
Definition field (f : list token) : Prop := (exists w r, f = Word w :: r) /\ decl f /\ exists g t, f = g ++ [t] /\ optional N t = false.
Lemma plain_solid g t (x : list token) : optional N t = false -> plain ((g ++ [t]) ++ x) = plain (g ++ [t]) ++ plain x.
Proof.
  intro H. induction g as [|u g IH]; [cbn [app plain]; rewrite H; reflexivity|]. cbn [app plain] in *. rewrite IH.
  assert (E : closes N (plain (g ++ [t]) ++ plain x) = closes N (plain (g ++ [t]))).
  { destruct (plain (g ++ [t])) eqn:E; [|reflexivity]. exfalso. destruct g as [|y g]; cbn [app plain] in E; [rewrite H in E; discriminate|]. destruct (optional N y && closes N (plain (g ++ [t]))) eqn:E2; [|discriminate]. rewrite E in E2. rewrite Bool.andb_false_r in E2. discriminate. }
  rewrite E. destruct (optional N u && closes N (plain (g ++ [t]))); reflexivity.
Qed.
Lemma but_last_snoc (l : list token) t : but_last (l ++ [t]) = l.
Proof. induction l as [|x l IH]; [reflexivity|]. cbn [app but_last]. rewrite IH. destruct l; reflexivity. Qed.
Lemma field_head f : field f -> first_word (plain f) = first_word f /\ plain f <> [] /\ closes N (plain f) = false.
Proof. intros ((w & r & ->) & _). cbn [plain optional andb]. repeat split. discriminate. Qed.
Lemma ended_snoc fs f : ended (fs ++ [f]) = ended fs ++ f ++ [Semi]. Proof. unfold ended. rewrite flat_map_app. cbn [flat_map]. rewrite app_nil_r. reflexivity. Qed.
Lemma group_fields fs c : In c [T "}"; T ")"] -> Forall field fs -> group (plain (ended fs ++ [Op c])) = map plain fs.
Proof.
  intros Hc. destruct fs as [|f0 fs0]; [intros _; cbn; destruct Hc as [<-|[<-|[]]]; reflexivity|].
  destruct (exists_last (l := f0 :: fs0)) as (fs & f & E); [discriminate|]. rewrite E. clear E f0 fs0. intro H. apply Forall_app in H. destruct H as [H Hf]. inversion Hf as [|? ? F _]; subst. clear Hf.
  assert (D : Forall decl fs) by (eapply Forall_impl; [|exact H]; intros a Ha; apply Ha).
  assert (Cl : forall o, closing N (@Op N o) = (str_eqb o (T "}") || str_eqb o (T ")"))%bool) by reflexivity.
  assert (P : plain (f ++ [Semi; Op c]) = plain f ++ [Op c]).
  { destruct F as (_ & _ & g & t & -> & Ht). rewrite plain_solid by exact Ht. f_equal. destruct Hc as [<-|[<-|[]]]; reflexivity. }
  rewrite ended_snoc, <- !app_assoc. change ([Semi] ++ [Op c]) with [Semi; @Op N c]. destruct (field_head f F) as (_ & NE & Cf).
  rewrite plain_app_open; rewrite P; [|destruct (plain f); [contradiction|exact Cf]].
  destruct (plain_ended fs D) as [E _]. rewrite E. unfold group. rewrite app_assoc, but_last_snoc. destruct (ended (map plain fs) ++ plain f) as [|x y] eqn:Z; [destruct (ended (map plain fs)); [destruct (plain f); [contradiction|discriminate]|discriminate]|]. rewrite <- Z, <- app_assoc.
  assert (Q : parts (ended (map plain fs) ++ plain f ++ [Semi]) = Some (map plain (fs ++ [f]))).
  { apply parts_iff. rewrite map_app. cbn [map]. rewrite ended_snoc. split; [reflexivity|]. apply Forall_app. split; [apply Forall_map; eapply Forall_impl; [|exact D]; intros a Ha; apply decl_plain; exact Ha|]. constructor; [apply decl_plain; apply F|constructor]. }
  rewrite Q. reflexivity.
Qed.
Lemma struct_fields ty fs : Forall field fs -> fields_of ty (plain (Word (T "type") :: Word ty :: Word (T "struct") :: Op (T "{") :: ended fs ++ [Op (T "}")])) = flat_map first_word fs.
Proof.
  intro H. assert (E : forall l, plain (Word (T "type") :: Word ty :: Word (T "struct") :: Op (T "{") :: l) = Word (T "type") :: Word ty :: Word (T "struct") :: @Op N (T "{") :: plain l).
  { intro l. cbn [plain optional andb]. change (str_eqb (T "{") (T ",")) with false. reflexivity. }
  rewrite E. unfold fields_of. rewrite (proj2 (str_eqb_eq ty ty) eq_refl). change (is_word "type" (Word (T "type")) && is_word "struct" (Word (T "struct")) && is_op "{" (Op (T "{")) && true) with true. cbn iota.
  rewrite group_fields; [|left; reflexivity|exact H]. induction H as [|f fs F H IH]; [reflexivity|]. cbn [map flat_map]. rewrite (proj1 (field_head f F)), IH. reflexivity.
Qed.

Lemma struct_loop {Y} ty a0 (g : Y -> list token) l : Forall field a0 -> (forall y, In y l -> field (g y)) ->
  fields_of ty (plain (((Word (T "type") :: Word ty :: Word (T "struct") :: Op (T "{") :: ended a0) ++ concat (map (fun y => g y ++ [Semi]) l)) ++ [Op (T "}")])) = flat_map first_word a0 ++ flat_map (fun y => first_word (g y)) l.
Proof.
  intros H1 H2. assert (E : ended a0 ++ concat (map (fun y => g y ++ [Semi]) l) = ended (a0 ++ map g l)).
  { unfold ended. rewrite flat_map_app. f_equal. induction l as [|y l IH]; [reflexivity|]. cbn [map concat flat_map]. rewrite IH; [reflexivity|]. intros z Hz. apply H2. right. exact Hz. }
  cbn [app]. rewrite E, struct_fields.
  - rewrite flat_map_app. f_equal. rewrite !flat_map_concat_map, map_map. reflexivity.
  - apply Forall_app. split; [exact H1|]. apply Forall_map, Forall_forall. exact H2.
Qed.

Lemma fields_eq {Y} ty a0 (g : Y -> list token) l w ds : Forall field a0 -> (forall y, In y l -> field (g y)) -> flat_map (fun y => first_word (g y)) l = w ->
  flat_map (fields_of ty) (map plain ds) = fields_of ty (plain (((Word (T "type") :: Word ty :: Word (T "struct") :: Op (T "{") :: ended a0) ++ concat (map (fun y => g y ++ [Semi]) l)) ++ [Op (T "}")])) ++ [] ->
  flat_map (fields_of ty) (map plain ds) = flat_map first_word a0 ++ w.
Proof. intros H1 H2 H3 ->. rewrite app_nil_r, struct_loop by assumption. rewrite H3. reflexivity. Qed.

(** ** Rows: texts that end with a line *)
Lemma lex_tabs k s : lex (repeat 9%N k ++ s) = lex s. Proof. induction k as [|k IH]; [reflexivity|]. cbn [repeat app]. rewrite DecoderTexts.lex_tab. exact IH. Qed.
Lemma row p k b : lex ((p ++ 10%N :: repeat 9%N k) ++ b) = lex (p ++ 10%N :: repeat 9%N k) ++ lex b.
Proof. rewrite <- app_assoc. cbn [app]. rewrite !lex_lines, lex_tabs. rewrite <- (app_nil_r (repeat 9%N k)), lex_tabs. change (lex []) with (@nil token). rewrite app_nil_r. reflexivity. Qed.
Lemma adds_rows {X} A B k LA (f : X -> str) g l : adds A LA -> A = B ++ 10%N :: repeat 9%N k -> (forall x, In x l -> lex (f x) = g x /\ forall b, lex (f x ++ b) = lex (f x) ++ lex b) -> adds (A ++ each f l) (LA ++ concat (map g l)).
Proof.
  intros HA E H a. assert (G : lex (each f l) = concat (map g l)).
  { clear HA E. unfold each. induction l as [|x l IH]; [reflexivity|]. cbn [map concat]. destruct (H x (or_introl eq_refl)) as [H1 H2]. rewrite H2, H1, IH; [reflexivity|]. intros y Hy. apply H. right. exact Hy. }
  rewrite <- G. rewrite !app_assoc. rewrite <- (HA a). subst A. clear HA. rewrite !app_assoc, row. reflexivity.
Qed.
Lemma adds_rows_cons {X} B k LA (f : X -> str) g l r R : adds (B ++ 10%N :: repeat 9%N k) LA -> (forall x, In x l -> lex (f x) = g x /\ forall b, lex (f x ++ b) = lex (f x) ++ lex b) -> adds (concat r) R ->
  adds (concat ((B ++ 10%N :: repeat 9%N k) :: each f l :: r)) (LA ++ concat (map g l) ++ R).
Proof. intros H1 H2 H3. cbn [concat]. rewrite !app_assoc. apply adds_app; [|exact H3]. eapply adds_rows; [exact H1|reflexivity|exact H2]. Qed.
Lemma ends_row l q k b : lex (concat (l ++ [q ++ 10%N :: repeat 9%N k]) ++ b) = lex (concat (l ++ [q ++ 10%N :: repeat 9%N k])) ++ lex b.
Proof. rewrite concat_app. cbn [concat]. rewrite app_nil_r, app_assoc. apply row. Qed.

(** ** Steps *)
Lemma nest_over st (a b : list token) : nest st a = Some st -> nest st b = Some st -> nest st (a ++ b) = Some st. Proof. intros H1 H2. rewrite nest_app, H1. exact H2. Qed.
Ltac balanced :=
  lazymatch goal with
  | |- nest _ (concat (map _ _)) = _ => apply nest_concat; let y := fresh in intros y _; cbv beta; balanced
  | |- nest _ (_ ++ _) = _ => apply nest_over; [balanced|balanced]
  | |- nest _ (map _ _) = _ => rewrite nest_map; vm_compute; reflexivity
  | |- nest _ [] = _ => reflexivity
  | |- nest _ (if ?b then _ else _) = _ => destruct b; balanced
  end.
Ltac walk :=
  lazymatch goal with
  | |- parts_from ?st ?cur (?a ++ ?b) = ?r =>
      lazymatch a with
      | map _ _ => first [eapply walk_open; [vm_compute; reflexivity|walk] | eapply walk_closed; [vm_compute; reflexivity|walk]]
      | _ ++ _ => rewrite <- (app_assoc _ _ b); walk
      | [] => change (parts_from st cur b = r); walk
      | _ => eapply walk_over; [balanced|walk]
      end
  | |- parts_from _ _ (map ?f ?l) = _ => rewrite <- (app_nil_r (map f l)); walk
  | |- parts_from _ _ [] = _ => apply walk_end
  | |- parts_from ?st ?cur ?x = _ => rewrite <- (app_nil_r x); walk
  | |- parts _ = _ => unfold parts; walk
  end.
Ltac says := let q := fresh in intro q; destruct q; try reflexivity.
Ltac none := let x := fresh in intros x [].
(** A piece that is adds_with, then walk *)
Ltac piece loop N Tx := eexists; eexists; split; [adds_with loop N Tx|]; split; [walk|]; split; [says|none].
Lemma sec_split pn n l v w R Q : sec pn (concat (firstn n l)) v R -> sec pn (concat (skipn n l)) w Q -> sec pn (concat l) (and v w) (R ++ Q).
Proof. intros H1 H2. rewrite <- (firstn_skipn n l), concat_app. apply sec_app; assumption. Qed.
Lemma sec_one pn s v R : sec pn s v R -> sec pn (concat [s]) v R. Proof. intro H. cbn [concat]. rewrite app_nil_r. exact H. Qed.
Lemma map_flat {X Y} (f : X -> Y) l : flat_map (fun x => [f x]) l = map f l. Proof. induction l as [|x l IH]; [reflexivity|]. cbn [flat_map map app]. rewrite IH. reflexivity. Qed.
Lemma flat_none {X Y} (l : list X) : flat_map (fun _ => []) l = ([] : list Y). Proof. induction l as [|x l IH]; [reflexivity|exact IH]. Qed.
Lemma each_names {X} (f : X -> str) pre suf l : flat_map (fun x => [pre ++ f x ++ suf]) l = Wiring.each pre (map f l) suf.
Proof. unfold Wiring.each. rewrite map_map. apply (map_flat (fun x => pre ++ f x ++ suf)). Qed.


Definition none : list str := [].
Lemma Hnone : Forall inner none. Proof. apply Forall_nil. Qed.
(** Declarations that are in a piece *)
Ltac found := let y := fresh in let H := fresh in intros y H; repeat (destruct H as [<-|H]; [repeat (first [left; reflexivity|right])|]); destruct H.
