(** The text of a generated request decoder has the tokens of DecoderProg.decoder_prog. *)
From Coq Require Import String Lia.
From Verif Require Import GoStr GoStrProofs GoMap Strs SvcTypes HttpTransport Url GenHttp Template TemplateProofs Render RenderProofs TextProofs WiringSpec GoLex GoLexProofs GoLang DecoderProg.

Definition nth_name (l : list str) (i : nat) : str := nth i l (T "x").
Definition nth_text (l : list str) (i : nat) : str := nth i l [].
Lemma nth_name_ok l : Forall ident l -> forall i, ident (nth_name l i).
Proof.
  intros H i. unfold nth_name. revert i. induction H as [|x l Hx H IH]; intros [|i]; cbn [nth]; auto;
    (split; [split; [left; reflexivity|apply Forall_nil]|intro K; vm_compute in K; repeat destruct K as [K|K]; discriminate || contradiction]).
Qed.
Lemma nth_text_ok l : Forall inner l -> forall i, inner (nth_text l i).
Proof. intros H i. unfold nth_text. revert i. induction H as [|x l Hx H IH]; intros [|i]; cbn [nth]; auto; apply safe_inner; intros c []. Qed.
(** [t] is the text of these letters. *)
Definition reads (names texts : list str) (t : str) (p : list ext) : Prop := flat (nth_name names) (nth_text texts) p = t.
Section Reads.
  Variable names texts : list str.
  Notation reads := (reads names texts).
  Lemma reads_app a b p q : reads a p -> reads b q -> reads (a ++ b) (p ++ q).
  Proof. unfold DecoderText.reads. intros <- <-. apply flat_app. Qed.
  Lemma reads_concat_cons a l p q : reads a p -> reads (concat l) q -> reads (concat (a :: l)) (p ++ q).
  Proof. apply reads_app. Qed.
  Lemma reads_nil : reads [] []. Proof. reflexivity. Qed.
  Lemma reads_lit l : reads l (map C l).
  Proof. unfold DecoderText.reads. induction l as [|c l IH]; [reflexivity|]. cbn [map]. rewrite flat_cons, IH. reflexivity. Qed.
  Lemma reads_name i x : nth_name names i = x -> reads x [W i]. Proof. intro H. exact H. Qed.
  Lemma reads_text i x : nth_text texts i = x -> reads x [Q i]. Proof. intro H. exact H. Qed.
  Lemma lex_reads t p l : Forall ident names -> Forall inner texts -> reads t p -> lexE p = l -> clean l = true -> lex t = map (ftok (nth_name names) (nth_text texts)) l.
  Proof. intros H1 H2 <- E Hc. subst l. apply lex_flat; [apply nth_name_ok; exact H1|apply nth_text_ok; exact H2|exact Hc]. Qed.
End Reads.
Ltac each_index L k := lazymatch L with _ :: ?L' => first [k 0 | each_index L' ltac:(fun i => k (S i))] end.
Ltac reads :=
  lazymatch goal with
  | |- reads ?N ?T ?t ?p =>
      lazymatch t with
      | concat [] => apply reads_nil
      | concat (_ :: _) => eapply reads_concat_cons; [reads|reads]
      | ?a ++ ?b => eapply reads_app; [reads|reads]
      | [] => apply reads_nil
      | _ => first [each_index N ltac:(fun i => apply (reads_name N T i); reflexivity) | each_index T ltac:(fun i => apply (reads_text N T i); reflexivity) | apply reads_lit]
      end
  end.
Ltac lexes N T := eapply (lex_reads N T); [assumption|assumption|reads|vm_compute; reflexivity|vm_compute; reflexivity].

Section Exec2.
  Variable O : Type.
  Variable get : O -> str -> option (value O).
  Lemma exec_if_yes e dot c yes no v Y : eval_cmds O get e dot c None = Some v -> truth O v = true -> exec_nodes O get e dot yes = Some Y -> exec_node O get e dot (NIf c yes no) = Some Y.
  Proof. intros H1 H2 H3. rewrite exec_if, H1, H2. exact H3. Qed.
  Lemma exec_if_no e dot c yes no v Y : eval_cmds O get e dot c None = Some v -> truth O v = false -> exec_nodes O get e dot no = Some Y -> exec_node O get e dot (NIf c yes no) = Some Y.
  Proof. intros H1 H2 H3. rewrite exec_if, H1, H2. exact H3. Qed.
  Lemma exec_nil e dot : exec_nodes O get e dot [] = Some (concat []). Proof. reflexivity. Qed.
  Lemma exec_text e dot s : exec_node O get e dot (NText s) = Some s. Proof. reflexivity. Qed.
  Lemma applied t l o s : parse_template t = Some l -> exec_nodes O get [([], VObj o)] (VObj o) l = Some s -> apply_template O get t o = Some s.
  Proof. intros H1 H2. unfold apply_template. rewrite H1. exact H2. Qed.
End Exec2.
Ltac execs :=
  lazymatch goal with
  | |- exec_nodes _ _ _ _ [] = _ => apply exec_nil
  | |- exec_nodes _ _ _ _ (_ :: _) = _ => eapply exec_cons; [execn|execs]
  end
with execn :=
  lazymatch goal with
  | |- exec_node _ _ _ _ (NText _) = _ => apply exec_text
  | |- exec_node _ _ _ _ (NAction _) = _ => eapply exec_act; [reflexivity|reflexivity]
  | |- exec_node _ _ _ _ (NIf _ _ _) = _ => first [eapply exec_if_no; [reflexivity|first [reflexivity|rewrite truth_bool; assumption]|execs] | eapply exec_if_yes; [reflexivity|reflexivity|execs]]
  end.

(** ** The conversion of a field *)
Lemma not_contained g c x : ident g -> c = 91%N -> contains g (c :: x) = false.
Proof.
  intros [H _] ->. assert (F : Forall ident_rune g).
  { destruct g as [|d g]; [destruct H|]. destruct H as [H1 H2]. apply Forall_cons; [|exact H2]. destruct H1 as [H1 | ->]; [left; unfold is_alnum; rewrite H1; reflexivity|right; reflexivity]. }
  clear H. induction F as [|d g Hd F IH]; [reflexivity|]. cbn [contains has_prefix]. rewrite IH, Bool.orb_false_r.
  rewrite N.eqb_sym; destruct (N.eqb d 91) eqn:E; [|reflexivity]. apply N.eqb_eq in E. subst d. destruct Hd as [Hd|Hd]; discriminate.
Qed.
Definition shape_of (f : hfield) : hshape := mkShape (hf_gotype f) (hf_star f) (hf_base f) (hf_enum f) (hf_rep f).
(** What the generator gives: the conversion belongs to the shape; the type of a base field that repeats is a scalar type, without a star; other types are no scalar types. *)
Definition regular (f : hfield) : Prop :=
  (hf_conv f, hf_check f) = create_decode_convert (shape_of f) /\ (hf_base f = true -> hf_rep f = true -> In (hf_gotype f) go_base_types /\ hf_star f = false) /\
  (hf_base f = false -> ~ In (hf_gotype f) go_base_types) /\ (hf_enum f = true -> hf_base f = false).
Lemma no_table g : ~ In g go_base_types -> scalar_table g = None /\ existsb (str_eqb g) [T "uint32"; T "int32"; T "float32"] = false.
Proof.
  intro H. unfold go_base_types in H. cbn [In] in H. unfold scalar_table. cbn [existsb].
  assert (E : forall x, In x go_base_types -> str_eqb g x = false) by (intros x Hx; destruct (str_eqb g x) eqn:E; [apply str_eqb_eq in E; subst x; contradiction|reflexivity]).
  rewrite !E by (cbn [go_base_types In]; auto 10). split; reflexivity.
Qed.
Ltac applies := eapply applied; [vm_compute; reflexivity|execs].
Ltac lexed l g := eapply eq_trans; [lexes [l; g] (@nil str)|reflexivity].
Section Convert.
  Variable f : hfield.
  Hypothesis Hl : ident (hf_local f).
  Hypothesis Hg : ident (hf_gotype f).
  Hypothesis Hr : regular f.
  Lemma convert_text : exists s, convert_func f = Some s /\ lex s = block_toks (convert_code f).
  Proof.
    destruct Hr as (Rc & Rb & Rn & Re). unfold shape_of, create_decode_convert in Rc. cbn [sh_gotype sh_star sh_base sh_enum sh_rep] in Rc.
    assert (FN : Forall ident [hf_local f; hf_gotype f]) by (repeat (apply Forall_cons; [assumption|]); apply Forall_nil).
    assert (FT : Forall inner []) by apply Forall_nil.
    pose proof (not_contained (hf_gotype f) 91%N (skipn 1 (T "[]byte")) Hg eq_refl) as B1. pose proof (not_contained (hf_gotype f) 91%N (skipn 1 (T "[]string")) Hg eq_refl) as B2.
    change (91%N :: skipn 1 (T "[]byte")) with (T "[]byte") in B1. change (91%N :: skipn 1 (T "[]string")) with (T "[]string") in B2.
    unfold convert_func, convert_code. destruct f as [nm qu ca lo l loc g star conv check tc base enum rep zero]. cbn [hf_local hf_gotype hf_star hf_conv hf_check hf_base hf_enum hf_rep] in *.
    destruct (enum && negb rep) eqn:E1.
    { injection Rc as -> ->. eexists. split; [reflexivity|]. cbn [scalar_stmt Nat.eqb]. lexed l g. }
    destruct base, rep; cbn [negb orb andb] in *.
    - destruct (Rb eq_refl eq_refl) as [Rs ->]. rewrite B1 in Rc. cbn [negb] in Rc. unfold go_base_types in Rs. cbn [In] in Rs.
      destruct Rs as [<-|[<-|[<-|[<-|[<-|[<-|[<-|[<-|[]]]]]]]]]; vm_compute in Rc; injection Rc as -> ->; (eexists; split; [applies|]);
        match type of FN with Forall ident [_; ?g] => lexed l g end.
    - destruct (scalar_table g) as [p|] eqn:Et; [|injection Rc as -> ->; eexists; split; [reflexivity|]; cbn [scalar_stmt]; lexed l g].
      assert (Rc' : (conv, check) = (CvScalar p, match p with PCopy => false | _ => true end)) by (destruct p; exact Rc). injection Rc' as -> ->. eexists. split; [reflexivity|].
      assert (W32 : match p with PUint n | PInt n | PFloat n => n = 32 \/ n = 64 | _ => True end).
      { unfold scalar_table in Et. repeat match type of Et with (if ?b then _ else _) = _ => destruct b; [injection Et as <-; auto|] end. discriminate. }
      destruct p as [n|n| |n|]; try (destruct W32 as [-> | ->]); cbn [scalar_stmt Nat.eqb]; lexed l g.
    - destruct (no_table g (Rn eq_refl)) as [Et Ex]. rewrite Ex in *. rewrite Et in *. assert (Es : str_eqb g (T "string") = false).
      { destruct (str_eqb g (T "string")) eqn:E; [|reflexivity]. apply str_eqb_eq in E. subst g. vm_compute in Et. discriminate. }
      rewrite Es in *. cbn [negb] in *. injection Rc as -> ->. destruct star.
      + eexists. split; [applies|]. lexed l g.
      + eexists. split; [applies|]. lexed l g.
    - injection Rc as -> ->. destruct star.
      + eexists. split; [applies|]. lexed l g.
      + eexists. split; [applies|]. lexed l g.
  Qed.
End Convert.

(** ** The assignment *)
Definition plain_tconv (t : tconv) : Prop := match t with TcVar | TcAddr => True | TcCast g | TcAddrCast g => ident g | TcWrap _ _ _ _ => False end.
Definition good_tconv (t : tconv) : Prop := match t with TcWrap _ m c t' => ident m /\ ident c /\ plain_tconv t' | _ => plain_tconv t end.
Lemma lines3 a b c : lex (a ++ 10%N :: b ++ 10%N :: c) = lex a ++ lex b ++ lex c. Proof. now rewrite !lex_lines. Qed.
Lemma assign_text l camel t : ident l -> ident camel -> good_tconv t ->
  lex (T "req." ++ camel ++ T " = " ++ tconv_text l t) = simple_toks (SAssign (ESel (v "req") camel) (tconv_expr l t)) ++ [Semi].
Proof.
  intros Hl Hc Ht. assert (FT : Forall inner []) by apply Forall_nil.
  assert (P : forall x y z, ident x -> ident y -> ident z -> Forall ident [l; camel; x; y; z]) by (intros; repeat (apply Forall_cons; [assumption|]); apply Forall_nil).
  destruct t as [|g| |g|a m c t]; cbn [good_tconv plain_tconv] in Ht.
  - pose proof (P l l l Hl Hl Hl) as FN. cbn [tconv_text]. eapply eq_trans; [lexes [l; camel; l; l; l] (@nil str)|reflexivity].
  - pose proof (P g l l Ht Hl Hl) as FN. cbn [tconv_text]. eapply eq_trans; [lexes [l; camel; g; l; l] (@nil str)|reflexivity].
  - pose proof (P l l l Hl Hl Hl) as FN. cbn [tconv_text]. eapply eq_trans; [lexes [l; camel; l; l; l] (@nil str)|reflexivity].
  - pose proof (P g l l Ht Hl Hl) as FN. cbn [tconv_text]. eapply eq_trans; [lexes [l; camel; g; l; l] (@nil str)|reflexivity].
  - destruct Ht as (Hm & Hk & Ht). destruct t as [|g| |g|]; cbn [plain_tconv] in Ht; try contradiction; destruct a;
      (lazymatch goal with |- context[TcCast ?g] => pose proof (P m c g Hm Hk Ht) as FN | |- context[TcAddrCast ?g] => pose proof (P m c g Hm Hk Ht) as FN | |- _ => pose proof (P m c l Hm Hk Hl) as FN end;
       cbn [tconv_text]; lazymatch type of FN with Forall ident ?N => eapply eq_trans; [lexes N (@nil str)|reflexivity] end).
Qed.
