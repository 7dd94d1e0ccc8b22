(** The text of a generated request encoder has the tokens of EncoderProg.encoder_prog. *)
From Coq Require Import String Lia.
From Verif Require Import GoStr GoStrProofs GoMap Strs SvcTypes HttpTransport Url GenHttp Render WiringSpec GoLex GoLexProofs GoLang GoEncode DecoderProg DecoderText DecoderTexts DecoderTexts2 EncoderProg.
From Verif Require TextSpec PropText.

Ltac names := repeat (apply Forall_cons; [assumption|]); apply Forall_nil.
Definition zero_text (z : str) : Prop := In z [T "0"; [c_dquote; c_dquote]; T "false"; T "nil"].
(** ** One field of the query *)
Section Field.
  Variable f : hfield.
  Hypothesis Hc : ident (hf_camel f).
  Hypothesis Hq : safe (hf_query f).
  Hypothesis Hg : ident (hf_gotype f).
  Lemma query_lexed : lex (PropText.query_of f) = block_toks (query_code f).
  Proof.
    assert (FN : Forall ident [hf_camel f]) by names. assert (FT : Forall inner [hf_query f]) by (apply Forall_cons; [apply safe_inner; exact Hq|apply Forall_nil]).
    pose proof (not_contained (hf_gotype f) 91%N (skipn 1 (T "[]string")) Hg eq_refl) as B2. change (91%N :: skipn 1 (T "[]string")) with (T "[]string") in B2.
    unfold PropText.query_of, query_code. rewrite B2. destruct (hf_rep f && hf_base f); [|destruct (negb (hf_base f) || hf_rep f); [|destruct (hf_star f)]].
    - unfold TextSpec.query_list. eapply eq_trans; [lexes [hf_camel f] [hf_query f]|reflexivity].
    - unfold TextSpec.query_json. eapply eq_trans; [lexes [hf_camel f] [hf_query f]|reflexivity].
    - unfold TextSpec.query_pointer. eapply eq_trans; [lexes [hf_camel f] [hf_query f]|reflexivity].
    - unfold TextSpec.query_scalar. eapply eq_trans; [lexes [hf_camel f] [hf_query f]|reflexivity].
  Qed.
  Lemma query_newline : exists body, PropText.query_of f = 10%N :: body.
  Proof.
    unfold PropText.query_of. destruct (hf_rep f && hf_base f); [destruct (contains _ _)|destruct (negb (hf_base f) || hf_rep f); [|destruct (hf_star f)]]; eexists; reflexivity.
  Qed.
  Lemma body_lexed : lex (TextSpec.body_field (hf_camel f)) = block_toks (body_field_code f).
  Proof. assert (FN : Forall ident [hf_camel f]) by names. assert (FT : Forall inner []) by apply Forall_nil. unfold TextSpec.body_field. eapply eq_trans; [lexes [hf_camel f] (@nil str)|reflexivity]. Qed.
  Lemma body_newline : exists body, TextSpec.body_field (hf_camel f) = 10%N :: body. Proof. eexists. reflexivity. Qed.
End Field.
(** ** One option *)
Section Option.
  Variable f : hfield.
  Hypothesis Hn : ident (hf_name f).
  Hypothesis Hq : safe (hf_query f).
  Hypothesis Hz : zero_text (hf_zero f).
  Lemma option_query_lexed : lex (PropText.option_query_of f) = block_toks (option_query_code f).
  Proof.
    assert (FN : Forall ident [hf_name f]) by names. assert (FT : Forall inner [hf_query f]) by (apply Forall_cons; [apply safe_inner; exact Hq|apply Forall_nil]).
    unfold PropText.option_query_of, option_query_code. destruct Hz as [<-|[<-|[<-|[<-|[]]]]]; (destruct (negb (hf_base f) || hf_rep f);
      [unfold TextSpec.oneof_json|unfold TextSpec.oneof_scalar]; (eapply eq_trans; [lexes [hf_name f] [hf_query f]|reflexivity])).
  Qed.
  Lemma option_newline : exists body, PropText.option_query_of f = 10%N :: body.
  Proof. unfold PropText.option_query_of. destruct (negb (hf_base f) || hf_rep f); eexists; reflexivity. Qed.
End Option.
(** ** A part of the path *)
Definition good_section (s : section) : Prop := match s with SecLit p => safe p | SecEnum c | SecVal c => ident c end.
Definition section_line (t : str) : str := concat [T "
			"; t; T ","].
Lemma section_lexed s : good_section s -> lex (section_line (section_text s)) = expr_toks (section_expr s) ++ [op ","].
Proof.
  intro H. unfold section_line. destruct s as [p|c|c]; cbn [section_text good_section] in *.
  - assert (FN : Forall ident []) by names. assert (FT : Forall inner [p]) by (apply Forall_cons; [apply safe_inner; exact H|apply Forall_nil]). unfold quoted. eapply eq_trans; [lexes (@nil str) [p]|reflexivity].
  - assert (FN : Forall ident [c]) by names. assert (FT : Forall inner []) by apply Forall_nil. unfold quoted. eapply eq_trans; [lexes [c] (@nil str)|reflexivity].
  - assert (FN : Forall ident [c]) by names. assert (FT : Forall inner []) by apply Forall_nil. eapply eq_trans; [lexes [c] (@nil str)|reflexivity].
Qed.
Lemma commas (l : list (list (tok N))) r : plain (concat (map (fun x => x ++ [op ","]) l) ++ op "}" :: r) = plain (sep [op ","] l ++ op "}" :: r).
Proof.
  induction l as [|a l IH]; [reflexivity|]. cbn [map concat]. destruct l as [|b l].
  - cbn [map concat sep]. rewrite app_nil_r, <- app_assoc. apply plain_app; reflexivity.
  - change (sep [op ","] (a :: b :: l)) with (a ++ [op ","] ++ sep [op ","] (b :: l)). rewrite <- !app_assoc. apply plain_app; [reflexivity|]. apply (plain_app _ [op ","] [op ","]); [reflexivity|]. exact IH.
Qed.
(** Pieces that begin with a line *)
Lemma lex_pieces {X} (text : X -> str) (toks : X -> list (tok N)) l : (forall x, In x l -> (exists body, text x = 10%N :: body) /\ lex (text x) = toks x) ->
  forall A B, lex (A ++ TextSpec.each text l ++ 10%N :: B) = lex A ++ concat (map toks l) ++ lex B.
Proof.
  induction l as [|x l IH]; intros H A B; [exact (lex_lines A B)|]. change (TextSpec.each text (x :: l)) with (text x ++ TextSpec.each text l).
  destruct (H x (or_introl eq_refl)) as [[body E] L]. rewrite <- app_assoc. rewrite E. rewrite <- app_comm_cons, lex_lines. rewrite IH by (intros y Hy; apply H; right; exact Hy).
  assert (L' : lex body = toks x) by (rewrite <- L, E; symmetry; exact (lex_lines [] body)). rewrite L'. cbn [map concat]. now rewrite <- app_assoc.
Qed.
Definition head_text (label request : str) : str := concat [T "	func EncodeHTTP"; label; T "Request(_ context.Context, r *http.Request, request interface{}) error {
		strval := """"
		_ = strval
		req := request.(*"; request; T ")
		_ = req

		r.Header.Set(""transport"", ""HTTPJSON"")
		r.Header.Set(""request-url"", r.URL.Path)

		// Set the path parameters
		path := strings.Join([]string{"].
Definition mid_text : str := T "		}, ""/"")
		u, err := url.Parse(path)
		if err != nil {
			return errors.Wrapf(err, ""couldn't unmarshal path %q"", path)
		}
		r.URL.RawPath = u.RawPath
		r.URL.Path = u.Path

		// Set the query parameters
		values := r.URL.Query()
		var tmp []byte
		_ = tmp".
Definition query_end : str := T "
		r.URL.RawQuery = values.Encode()".
Definition body_head (request : str) : str := concat [T "		// Set the body parameters
		toRet := request.(*"; request; T ")"].
Definition body_tail : str := T "		marshaler := protojson.MarshalOptions{
			AllowPartial:    true,
			UseProtoNames:   true,
			UseEnumNumbers:  true,
			EmitUnpopulated: true,
		}
		data, err := marshaler.Marshal(req)
		if err != nil {
			return errors.Wrapf(err, ""couldn't encode body as json %v"", toRet)
		}
		r.Body = ioutil.NopCloser(bytes.NewBuffer(data))".
Definition last_text : str := T "		return nil
	}".
Lemma each_app {X} (f : X -> str) a b : TextSpec.each f (a ++ b) = TextSpec.each f a ++ TextSpec.each f b.
Proof. unfold TextSpec.each. now rewrite map_app, concat_app. Qed.
Lemma each_map {X Y} (g : X -> Y) (f : Y -> str) l : TextSpec.each f (map g l) = TextSpec.each (fun x => f (g x)) l.
Proof. unfold TextSpec.each. now rewrite map_map. Qed.
Lemma each_flat {X Y} (g : X -> list Y) (f : Y -> str) l : TextSpec.each (fun x => TextSpec.each f (g x)) l = TextSpec.each f (flat_map g l).
Proof. induction l as [|x l IH]; [reflexivity|]. cbn [flat_map]. rewrite each_app, <- IH. reflexivity. Qed.
Section Function.
  Variables (label request : str) (secs : list section) (fs os : list hfield) (body : option (list hfield)).
  Hypothesis Hl : ident label.
  Hypothesis Hr : ident request.
  Hypothesis Hs : Forall good_section secs.
  Hypothesis Hf : Forall (fun f => ident (hf_camel f) /\ safe (hf_query f) /\ ident (hf_gotype f)) fs.
  Hypothesis Ho : Forall (fun f => ident (hf_name f) /\ safe (hf_query f) /\ zero_text (hf_zero f)) os.
  Hypothesis Hb : match body with Some l => Forall (fun f => ident (hf_camel f)) l | None => True end.
  Definition encoder_text : str :=
    TextSpec.encoder_func label request (map section_text secs) (TextSpec.each PropText.query_of fs ++ TextSpec.each PropText.option_query_of os) (option_map (TextSpec.each (fun f => TextSpec.body_field (hf_camel f))) body).
  Definition body_code : block := match body with Some l => block_app (body_start request) (block_app (blocks (map body_field_code l)) body_end) | None => Nil end.
  Definition tail_text : str := match body with Some l => body_head request ++ TextSpec.each (fun f => TextSpec.body_field (hf_camel f)) l ++ 10%N :: body_tail ++ 10%N :: last_text | None => last_text end.
  Definition pieces : list (str * list (tok N)) := map (fun f => (PropText.query_of f, block_toks (query_code f))) fs ++ map (fun f => (PropText.option_query_of f, block_toks (option_query_code f))) os.
  Lemma text_eq : encoder_text = head_text label request ++ TextSpec.each section_line (map section_text secs) ++ 10%N :: mid_text ++ TextSpec.each fst pieces ++ 10%N :: query_end ++ 10%N :: tail_text.
  Proof.
    assert (E : TextSpec.each fst pieces = TextSpec.each PropText.query_of fs ++ TextSpec.each PropText.option_query_of os) by (unfold pieces; rewrite each_app, !each_map; reflexivity). rewrite E.
    unfold encoder_text, TextSpec.encoder_func, head_text, mid_text, query_end, tail_text. fold section_line. destruct body as [l|]; cbn [option_map].
    - unfold body_head, body_tail, last_text. cbn [concat app]. rewrite ?app_nil_r. repeat first [rewrite <- app_assoc | rewrite <- app_comm_cons]. reflexivity.
    - unfold last_text. cbn [concat app]. rewrite ?app_nil_r. repeat first [rewrite <- app_assoc | rewrite <- app_comm_cons]. reflexivity.
  Qed.
  Lemma lit_toks t l : expr_toks (ELit t [] l) = ty_toks t ++ [op "{"] ++ sep [op ","] (map expr_toks l) ++ [op "}"].
  Proof. cbn [expr_toks]. f_equal. f_equal. f_equal. f_equal. induction l as [|a l IH]; [reflexivity|]. cbn [map]. rewrite <- IH. reflexivity. Qed.
  Definition name : str := concat [T "EncodeHTTP"; label; T "Request"].
  Definition open_toks : list (tok N) := [word "func"; Word name; op "("; word "_"; word "context"; op "."; word "Context"; op ","; word "r"; op "*"; word "http"; op "."; word "Request"; op ","; word "request"; word "interface"; op "{"; op "}"; op ")"; word "error"; op "{"].
  Definition start_a : block := block_of
    [Do (SDefine [T "strval"] (say "")); Do (SAssign (v "_") (v "strval")); Do (SDefine [T "req"] (message_of request)); Do (SAssign (v "_") (v "req"));
     set_header "transport" (say "HTTPJSON"); set_header "request-url" (url_field "Path")].
  Definition start_b : block := block_of
    [Do (SDefine [T "u"; T "err"] (ECall (pkg "url" "Parse") [v "path"]));
     If SNone failed (block_of [Do (SReturn [ECall (pkg "errors" "Wrapf") [v "err"; say "couldn't unmarshal path %q"; v "path"]])]) Nil;
     Do (SAssign (url_field "RawPath") (ESel (v "u") (T "RawPath"))); Do (SAssign (url_field "Path") (ESel (v "u") (T "Path")));
     Do (SDefine [T "values"] (ECall (ESel (ESel (v "r") (T "URL")) (T "Query")) [])); Do (SVar (T "tmp") (TySlice (TyName (T "byte")))); Do (SAssign (v "_") (v "tmp"))].
  Definition join_open : list (tok N) := [word "path"; op ":="; word "strings"; op "."; word "Join"; op "("; op "["; op "]"; word "string"; op "{"].
  Definition join_close : list (tok N) := [op ","; Str (T "/"); op ")"; Semi].
  Lemma start_toks : block_toks (start_code request secs) = block_toks start_a ++ join_open ++ sep [op ","] (map (fun s => expr_toks (section_expr s)) secs) ++ op "}" :: join_close ++ block_toks start_b.
  Proof.
    change (start_code request secs) with (block_app start_a (Cons (Do (SDefine [T "path"] (ECall (pkg "strings" "Join") [ELit (TySlice (TyName (T "string"))) [] (map section_expr secs); say "/"]))) start_b)).
    rewrite block_app_toks. f_equal. cbn [block_toks stmt_toks simple_toks].
    change (expr_toks (ECall (pkg "strings" "Join") [ELit (TySlice (TyName (T "string"))) [] (map section_expr secs); say "/"])) with
      ([word "strings"; op "."; word "Join"] ++ [op "("] ++ (expr_toks (ELit (TySlice (TyName (T "string"))) [] (map section_expr secs)) ++ [op ","] ++ [Str (T "/")]) ++ [op ")"]).
    rewrite lit_toks, map_map. unfold join_open, join_close. cbn [map sep app ty_toks]. rewrite <- !app_assoc. reflexivity.
  Qed.
  Lemma encoder_lexed : tokens encoder_text = plain (encoder_toks name
    (block_app (start_code request secs) (block_app (blocks (map query_code fs)) (block_app (blocks (map option_query_code os)) (block_app query_text_code (block_app body_code (block_of [Do (SReturn [v "nil"])]))))))).
  Proof.
    assert (FN : Forall ident [label; request]) by names. assert (FT : Forall inner []) by apply Forall_nil.
    assert (L1 : lex (head_text label request) = open_toks ++ block_toks start_a ++ join_open) by (unfold head_text; eapply eq_trans; [lexes [label; request] (@nil str)|reflexivity]).
    assert (L2 : lex mid_text = op "}" :: join_close ++ block_toks start_b) by (vm_compute; reflexivity).
    assert (L3 : lex query_end = block_toks query_text_code) by (vm_compute; reflexivity).
    assert (L4 : lex (body_head request) = block_toks (body_start request)) by (unfold body_head; eapply eq_trans; [lexes [label; request] (@nil str)|reflexivity]).
    assert (L5 : plain (lex body_tail) = plain (block_toks body_end)) by (vm_compute; reflexivity).
    assert (L6 : lex last_text = block_toks (block_of [Do (SReturn [v "nil"])]) ++ [op "}"; Semi]) by (vm_compute; reflexivity).
    assert (L7 : plain (lex tail_text) = plain (block_toks body_code ++ block_toks (block_of [Do (SReturn [v "nil"])]) ++ [op "}"; Semi])).
    { unfold tail_text, body_code. destruct body as [l|]; [|rewrite L6; reflexivity].
      rewrite (lex_pieces (fun f => TextSpec.body_field (hf_camel f)) (fun f => block_toks (body_field_code f))).
      - rewrite lex_lines, L4, L6, !block_app_toks, blocks_toks, map_map, <- !app_assoc. apply plain_app; [reflexivity|]. apply plain_app; [reflexivity|]. apply plain_app; [exact L5|reflexivity].
      - intros f Hin. split; [apply body_newline|]. apply body_lexed. exact (proj1 (Forall_forall _ _) Hb f Hin). }
    unfold tokens. rewrite text_eq. rewrite (lex_pieces section_line (fun t => lex (section_line t))) by (intros t _; split; [eexists; reflexivity|reflexivity]).
    rewrite (lex_pieces fst snd).
    2:{ intros x Hx. unfold pieces in Hx. apply in_app_or in Hx. destruct Hx as [Hx|Hx]; apply in_map_iff in Hx; destruct Hx as (f & <- & Hin); cbn [fst snd].
        - destruct (proj1 (Forall_forall _ _) Hf f Hin) as (A & B & C). split; [apply query_newline|apply query_lexed; assumption].
        - destruct (proj1 (Forall_forall _ _) Ho f Hin) as (A & B & C). split; [apply option_newline|apply option_query_lexed; assumption]. }
    rewrite lex_lines, L1, L2, L3, map_map.
    assert (LS : map (fun s => lex (section_line (section_text s))) secs = map (fun x => x ++ [op ","]) (map (fun s => expr_toks (section_expr s)) secs)).
    { rewrite map_map. apply map_ext_in. intros s Hin. apply section_lexed. exact (proj1 (Forall_forall _ _) Hs s Hin). }
    rewrite LS. unfold encoder_toks. fold open_toks. rewrite !block_app_toks, start_toks, !blocks_toks, !map_map. rewrite <- !app_assoc. apply plain_app; [reflexivity|]. apply plain_app; [reflexivity|]. apply plain_app; [reflexivity|].
    rewrite <- !app_comm_cons. rewrite <- (map_map (fun s => expr_toks (section_expr s)) (fun x => x ++ [op ","])), commas. apply plain_app; [reflexivity|]. apply (plain_app _ [op "}"] [op "}"]); [reflexivity|]. rewrite <- !app_assoc. apply plain_app; [reflexivity|]. apply plain_app; [reflexivity|].
    unfold pieces. rewrite map_app, !map_map, concat_app. cbn [snd]. rewrite <- !app_assoc. apply plain_app; [reflexivity|]. apply plain_app; [reflexivity|]. apply plain_app; [reflexivity|]. exact L7.
  Qed.
End Function.
