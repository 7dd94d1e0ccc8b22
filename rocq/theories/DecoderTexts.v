(** The text of a generated request decoder, continued: fields, oneofs, the function. *)
From Coq Require Import String Lia.
From Verif Require Import GoStr GoStrProofs GoMap Strs SvcTypes HttpTransport Url GenHttp Generator Template TemplateProofs Render RenderProofs TextProofs WiringSpec GoLex GoLexProofs GoLang DecoderProg DecoderText.

Lemma lex_tab s : lex (9%N :: s) = lex s.
Proof. unfold lex. cbn [app run]. change (step N class_of (fun w => Some (goes_on w)) (Idle false) 9%N) with (@nil (tok N), @Idle N false). cbn iota. destruct (run _ _ _ _ _). reflexivity. Qed.
Lemma lex_newline s : lex (10%N :: s) = lex s. Proof. exact (lex_lines [] s). Qed.
Lemma block_app_toks a b : block_toks (block_app a b) = block_toks a ++ block_toks b.
Proof. induction a as [|s a IH]; [reflexivity|]. cbn [block_app block_toks]. now rewrite IH, <- app_assoc. Qed.
Lemma block_app_assoc a b c : block_app (block_app a b) c = block_app a (block_app b c).
Proof. induction a as [|s a IH]; [reflexivity|]. cbn [block_app]. now rewrite IH. Qed.

(** What is asked of the names of a field that is in the path or the query. *)
Definition named (f : hfield) : Prop := ident (hf_local f) /\ ident (hf_gotype f) /\ ident (hf_camel f) /\ good_tconv (hf_tconv f) /\ safe (hf_query f) /\ safe (hf_loc f).
(** After the conversion *)
Definition check_text (f : hfield) (tabs : str) (loc params : str) : str :=
  concat [tabs; T "if err != nil {
"; tabs; T "	return nil, errors.Wrap(err, fmt.Sprintf(""Error while extracting "; hf_local f; T " from "; loc; T ", "; params; T "Params: %v"", "; params; T "Params))
"; tabs; T "}"].
Definition set_text (f : hfield) (tabs : str) : str := tabs ++ T "req." ++ hf_camel f ++ T " = " ++ tconv_text (hf_local f) (hf_tconv f).
Definition extract_src (f : hfield) (s tabs : str) (loc params : str) : str := s ++ (if hf_check f then 10%N :: check_text f tabs loc params else []) ++ 10%N :: set_text f tabs.
Lemma extract_text f s tabs loc params : named f -> regular f -> safe loc -> In tabs [[]; [9%N]] -> In params [T "path"; T "query"] -> convert_func f = Some s ->
  lex (extract_src f s tabs loc params) = block_toks (extract_code f loc params).
Proof.
  intros (Hl & Hg & Hc & Ht & Hq & _) Hr Hs Htab Hp H. destruct (convert_text f Hl Hg Hr) as (s' & E & L). rewrite H in E. injection E as <-. unfold extract_code. rewrite block_app_toks, <- L.
  assert (FN : Forall ident [hf_local f]) by (apply Forall_cons; [exact Hl|apply Forall_nil]). assert (FT : Forall inner [loc]) by (apply Forall_cons; [apply safe_inner; exact Hs|apply Forall_nil]).
  assert (A : lex (set_text f tabs) = simple_toks (SAssign (ESel (v "req") (hf_camel f)) (tconv_expr (hf_local f) (hf_tconv f))) ++ [Semi]).
  { unfold set_text. destruct Htab as [<-|[<-|[]]]; cbn [app]; rewrite ?lex_tab; apply assign_text; assumption. }
  unfold extract_src. destruct (hf_check f).
  - rewrite <- app_comm_cons, lex_lines, lex_lines, A. f_equal. cbn [block_of block_toks app].
    assert (B : lex (check_text f tabs loc params) = stmt_toks (extract_check f loc params) ++ [Semi]).
    { unfold check_text. destruct Htab as [<-|[<-|[]]]; destruct Hp as [<-|[<-|[]]]; (eapply eq_trans; [lexes [hf_local f] [loc]|reflexivity]). }
    rewrite B, <- app_assoc. reflexivity.
  - cbn [app]. rewrite lex_lines, A. f_equal.
Qed.

(** ** A field *)
Lemma conv_get f s : convert_func f = Some s -> get_plain (OField f) (T "ConvertFunc") = Some (VStr s).
Proof. intro H. cbn [get_plain]. unfold get_field. change (str_eqb (T "ConvertFunc") (T "ConvertFunc")) with true. rewrite H. reflexivity. Qed.
Lemma conv_action f s e n : convert_func f = Some s -> n = T "ConvertFunc" -> exec_node obj get_plain e (VObj (OField f)) (NAction [[AField [n]]]) = Some s.
Proof. intros H ->. rewrite exec_action. unfold eval_cmds, eval_cmd. cbn [eval_arg fields_of Template.field_of]. rewrite (conv_get _ _ H). reflexivity. Qed.
Lemma conv_action_var f s e dot x n : convert_func f = Some s -> lookup obj e x = Some (VObj (OField f)) -> n = T "ConvertFunc" -> exec_node obj get_plain e dot (NAction [[AVar x [n]]]) = Some s.
Proof. intros H L ->. eapply exec_act_get; [exact L|]. apply conv_get. exact H. Qed.
Definition field_template (f : hfield) : str := if str_eqb (hf_loc f) (T "path") then path_logic ++ generic_logic else query_logic ++ generic_logic ++ T "}".
Definition field_text (f : hfield) : option str := apply_template obj get_plain (field_template f) (OField f).
Ltac execs2 Hs :=
  lazymatch goal with
  | |- exec_nodes _ _ _ _ [] = _ => apply exec_nil
  | |- exec_nodes _ _ _ _ (_ :: _) = _ => eapply exec_cons; [execn2 Hs|execs2 Hs]
  end
with execn2 Hs :=
  lazymatch goal with
  | |- exec_node _ _ _ _ (NText _) = _ => apply exec_text
  | |- exec_node _ _ _ _ (NAction _) = _ => first [apply (conv_action _ _ _ _ Hs); reflexivity | apply (conv_action_var _ _ _ _ _ _ Hs); reflexivity | eapply exec_act; [reflexivity|reflexivity]]
  | |- exec_node _ _ _ _ (NIf _ _ _) = _ => first [eapply exec_if_no; [reflexivity|first [reflexivity|rewrite truth_bool; assumption]|execs2 Hs] | eapply exec_if_yes; [reflexivity|reflexivity|execs2 Hs]]
  end.
Definition path_src (f : hfield) (s : str) : str := concat [T "
"; hf_local f; T "Str := pathParams["""; hf_query f; T """]"] ++ 10%N :: extract_src f s [] (T "path") (T "path") ++ T "
".
Definition query_src (f : hfield) (s : str) : str := concat [T "
if "; hf_local f; T "StrArr, ok := queryParams["""; hf_query f; T """]; ok {
"; hf_local f; T "Str := "; hf_local f; T "StrArr[0]"] ++ 10%N :: extract_src f s [] (T "query") (T "query") ++ T "
}".
Lemma path_made f s : hf_loc f = T "path" -> convert_func f = Some s -> field_text f = Some (path_src f s).
Proof.
  intros Hloc Hs. unfold field_text, field_template. rewrite Hloc. change (str_eqb (T "path") (T "path")) with true. cbn iota.
  eapply applied; [vm_compute; reflexivity|]. unfold path_src, extract_src, check_text, set_text.
  destruct f as [nm qu ca lo l loc g star conv check tc base enum rep zero]. cbn [hf_loc] in Hloc. subst loc. cbn [hf_local hf_query hf_check hf_camel hf_tconv].
  destruct check; (eapply eq_trans; [execs2 Hs|]); apply f_equal; cbn [concat app]; rewrite ?app_nil_r; repeat first [rewrite <- app_assoc | rewrite <- app_comm_cons]; reflexivity.
Qed.
Lemma query_made f s : hf_loc f = T "query" -> convert_func f = Some s -> field_text f = Some (query_src f s).
Proof.
  intros Hloc Hs. unfold field_text, field_template. rewrite Hloc. change (str_eqb (T "query") (T "path")) with false. cbn iota.
  eapply applied; [vm_compute; reflexivity|]. unfold query_src, extract_src, check_text, set_text.
  destruct f as [nm qu ca lo l loc g star conv check tc base enum rep zero]. cbn [hf_loc] in Hloc. subst loc. cbn [hf_local hf_query hf_check hf_camel hf_tconv].
  destruct check; (eapply eq_trans; [execs2 Hs|]); apply f_equal; cbn [concat app]; rewrite ?app_nil_r; repeat first [rewrite <- app_assoc | rewrite <- app_comm_cons]; reflexivity.
Qed.

Lemma lex_end s : lex (s ++ T "
") = lex s.
Proof. change (T "
") with (10%N :: []). rewrite lex_lines. apply app_nil_r. Qed.
Lemma field_lexed f : In (hf_loc f) [T "path"; T "query"] -> named f -> regular f -> exists s, field_text f = Some s /\ lex s = block_toks (field_code f).
Proof.
  intros Hloc Hn Hr. destruct (convert_func_made f) as [s Hs]. pose proof Hn as (Hl & Hg & Hc & Ht & Hq & _).
  assert (FN : Forall ident [hf_local f]) by (apply Forall_cons; [exact Hl|apply Forall_nil]). assert (FT : Forall inner [hf_query f]) by (apply Forall_cons; [apply safe_inner; exact Hq|apply Forall_nil]).
  assert (X : forall p, In p [T "path"; T "query"] -> lex (extract_src f s [] p p) = block_toks (extract_code f p p)).
  { intros p Hp. apply extract_text; try assumption; [|left; reflexivity]. intros c Hc'. destruct Hp as [<-|[<-|[]]]; vm_compute in Hc'; repeat (destruct Hc' as [<-|Hc']; [vm_compute; repeat split; discriminate|]); destruct Hc'. }
  destruct Hloc as [E|[E|[]]]; symmetry in E.
  - eexists. split; [exact (path_made f s E Hs)|]. unfold path_src, field_code. rewrite E. change (str_eqb (T "path") (T "path")) with true. cbn iota. rewrite lex_lines, lex_end, X by (left; reflexivity).
    cbn [block_toks]. change (stmt_toks (Do ?s)) with (simple_toks s). eapply eq_trans; [apply (f_equal (fun l => l ++ _)); lexes [hf_local f] [hf_query f]|]. reflexivity.
  - eexists. split; [exact (query_made f s E Hs)|]. unfold query_src, field_code. rewrite E. change (str_eqb (T "query") (T "path")) with false. cbn iota.
    change (T "
}") with (10%N :: T "}"). rewrite lex_lines, lex_lines, X by (right; left; reflexivity).
    cbn [block_toks stmt_toks]. eapply eq_trans; [apply (f_equal (fun l => l ++ _)); lexes [hf_local f] [hf_query f]|].
    change (lex (T "}")) with [@op "}"; @Semi N]. generalize (block_toks (extract_code f (T "query") (T "query"))). intro B. cbn. rewrite <- app_assoc. reflexivity.
Qed.

(** ** A oneof *)
Definition conv_src (f : hfield) : str := match convert_func f with Some s => s | None => [] end.
Lemma conv_src_eq f : convert_func f = Some (conv_src f).
Proof. unfold conv_src. destruct (convert_func_made f) as [s ->]. reflexivity. Qed.
Definition opt_body (o : honeof) (f : hfield) : str := concat [T "
		var "; hf_local f; T "Str string
		"; hf_local f; T "StrArr, "; hf_local f; T "OK := "; ho_loc o; T "Params["""; hf_query f; T """]
		if "; hf_local f; T "OK {
			"; hf_local f; T "Str = "; hf_local f; T "StrArr[0]
			"; ho_name o; T "CountSet++
		}
	"].
Definition opt_quote (f : hfield) : str := concat [[c_backslash; c_dquote]; hf_query f; [c_backslash; c_dquote; 44%N]].
Definition case_body (o : honeof) (f : hfield) : str := concat [T "case "; hf_local f; T "OK:"] ++ 10%N :: 9%N :: extract_src f (conv_src f) [9%N] (hf_loc f) (ho_loc o) ++ T "
".
Definition lines (body : hfield -> str) (l : list hfield) : str := TextSpec.each (fun f => 10%N :: body f) l.
Definition oneof_text (o : honeof) : option str := apply_template obj get_plain oneof_tmpl (OOneof o).
Definition oneof_src (o : honeof) : str :=
  concat [T "// "; ho_name o; T " oneof
	"; ho_name o; T "CountSet := 0
	"; lines (opt_body o) (ho_options o); T "

if "; ho_name o; T "CountSet > 1 {
	return nil, errors.Errorf(""only one of ("; TextSpec.each opt_quote (ho_options o); T ") allowed"")
}

switch {
"; lines (case_body o) (ho_options o); T "
}"].
Definition oneof_nodes : list node := Eval vm_compute in match parse_template oneof_tmpl with Some l => l | None => [] end.
Lemma oneof_parses : parse_template oneof_tmpl = Some oneof_nodes. Proof. vm_compute. reflexivity. Qed.
Ltac nodes :=
  lazymatch goal with
  | |- exec_nodes _ _ _ _ [] = Some _ => apply exec_nil
  | |- exec_nodes _ _ _ _ (_ :: _) = Some _ => apply exec_cons; [node1|nodes]
  end
with node1 :=
  lazymatch goal with
  | |- exec_node _ _ _ _ (NText _) = _ => reflexivity
  | |- exec_node _ _ _ _ (NAction _) = Some (conv_src ?x) => apply (conv_action_var x _ _ _ _ _ (conv_src_eq x)); reflexivity
  | |- exec_node _ _ _ _ (NAction _) = _ => eapply exec_act; [reflexivity|reflexivity]
  | |- exec_node _ _ _ _ (NRange _ _ _) = Some (TextSpec.each ?f ?l) => eapply (exec_range_map _ _ _ _ _ _ _ _ l f); [reflexivity|intro]
  | |- exec_node _ _ _ _ (NIf _ _ _) = Some (if ?b then _ else _) => apply (exec_if_b _ _ _ _ _ _ _ (VBool b)); [reflexivity|apply truth_bool|nodes|nodes]
  end.
Lemma oneof_made o : oneof_text o = Some (oneof_src o).
Proof.
  unfold oneof_text. eapply applied; [exact oneof_parses|]. unfold oneof_nodes. eapply eq_trans.
  - eapply exec_cons; [|apply exec_nil]. eapply exec_with_t; [reflexivity|reflexivity|].
    instantiate (1 := concat [T "// "; ho_name o; T " oneof
	"; ho_name o; T "CountSet := 0
	"; TextSpec.each (fun f => 10%N :: opt_body o f) (ho_options o); T "

if "; ho_name o; T "CountSet > 1 {
	return nil, errors.Errorf(""only one of ("; TextSpec.each opt_quote (ho_options o); T ") allowed"")
}

switch {
"; TextSpec.each (fun f => 10%N :: case_body o f) (ho_options o); T "
}"]).
    nodes.
    + change (10%N :: opt_body o x) with (concat [T "

		var "; hf_local x; T "Str string
		"; hf_local x; T "StrArr, "; hf_local x; T "OK := "; ho_loc o; T "Params["""; hf_query x; T """]
		if "; hf_local x; T "OK {
			"; hf_local x; T "Str = "; hf_local x; T "StrArr[0]
			"; ho_name o; T "CountSet++
		}
	"]). nodes.
    + unfold opt_quote. nodes.
    + eapply eq_trans.
      * instantiate (1 := Some (concat [T "
case "; hf_local x; T "OK:
	"; conv_src x; if hf_check x then concat [T "
	if err != nil {
		return nil, errors.Wrap(err, fmt.Sprintf(""Error while extracting "; hf_local x; T " from "; hf_loc x; T ", "; ho_loc o; T "Params: %v"", "; ho_loc o; T "Params))
	}"] else concat []; T "
	req."; hf_camel x; T " = "; tconv_text (hf_local x) (hf_tconv x); T "
"])). nodes.
      * apply f_equal. unfold case_body, extract_src, check_text, set_text. destruct (hf_check x); cbn [concat app]; rewrite ?app_nil_r; repeat first [rewrite <- app_assoc | rewrite <- app_comm_cons]; reflexivity.
  - cbn [concat]. rewrite app_nil_r. reflexivity.
Qed.
