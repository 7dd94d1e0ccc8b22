(** The text of a generated request decoder, continued: oneofs, the function. *)
From Coq Require Import String Lia.
From Verif Require Import GoStr GoStrProofs GoMap Strs SvcTypes HttpTransport Url GenHttp Generator Template TemplateProofs Render RenderProofs TextProofs WiringSpec GoLex GoLexProofs GoLang DecoderProg DecoderText DecoderTexts.

Lemma lines_lexed body l : forall A B, lex (A ++ lines body l ++ 10%N :: B) = lex A ++ concat (map (fun f => lex (body f)) l) ++ lex B.
Proof.
  induction l as [|f l IH]; intros A B; [exact (lex_lines A B)|].
  change (lines body (f :: l)) with ((10%N :: body f) ++ lines body l). rewrite <- app_assoc, <- app_comm_cons, lex_lines, IH. cbn [map concat]. now rewrite <- app_assoc.
Qed.
Lemma blocks_toks l : block_toks (blocks l) = concat (map block_toks l).
Proof. induction l as [|b l IH]; [reflexivity|]. cbn [blocks map concat]. now rewrite block_app_toks, IH. Qed.
Definition query_loc : str := T "query".
Lemma safe_lit s : forallb (fun c => negb (N.eqb c 10 || N.eqb c c_dquote || N.eqb c c_backslash)) s = true -> safe s.
Proof.
  intros H c Hc. rewrite forallb_forall in H. specialize (H c Hc). rewrite Bool.negb_true_iff, !Bool.orb_false_iff, !N.eqb_neq in H. tauto.
Qed.
Lemma option_lexed o f : ho_loc o = T "query" -> ident (ho_name o) -> named f -> lex (opt_body o f) = block_toks (option_code o f).
Proof.
  intros Hloc Hn (Hl & _ & _ & _ & Hq & _). unfold opt_body, option_code. rewrite Hloc.
  assert (FN : Forall ident [hf_local f; ho_name o]) by (repeat (apply Forall_cons; [assumption|]); apply Forall_nil). assert (FT : Forall inner [hf_query f]) by (apply Forall_cons; [apply safe_inner; exact Hq|apply Forall_nil]).
  eapply eq_trans; [lexes [hf_local f; ho_name o] [hf_query f]|reflexivity].
Qed.
Lemma case_lexed o f cs : ho_loc o = T "query" -> named f -> regular f ->
  lex (case_body o f) ++ clauses_toks cs = clauses_toks (Case (EVar (local f "OK")) (extract_code f (hf_loc f) (ho_loc o)) cs).
Proof.
  intros Hloc Hn Hr. pose proof Hn as (Hl & _ & _ & _ & Hq & Hs). unfold case_body.
  assert (FN : Forall ident [hf_local f]) by (apply Forall_cons; [exact Hl|apply Forall_nil]). assert (FT : Forall inner []) by apply Forall_nil.
  rewrite lex_lines, lex_tab, lex_end. rewrite (extract_text f (conv_src f) [9%N] (hf_loc f) (ho_loc o) Hn Hr Hs); [|right; left; reflexivity|rewrite Hloc; right; left; reflexivity|apply conv_src_eq].
  cbn [clauses_toks]. change (expr_toks (EVar (local f "OK"))) with [@Word N (local f "OK")].
  assert (A : lex (concat [T "case "; hf_local f; T "OK:"]) = [word "case"; Word (local f "OK"); op ":"]) by (eapply eq_trans; [lexes [hf_local f] (@nil str)|reflexivity]).
  rewrite A. rewrite <- app_assoc. reflexivity.
Qed.
Lemma quotes_inner l : Forall named l -> inner (TextSpec.each opt_quote l).
Proof.
  intro F. induction F as [|f l (Hl & _ & _ & _ & Hq & Hs) F IH]; [apply safe_inner; intros c []|].
  change (TextSpec.each opt_quote (f :: l)) with (opt_quote f ++ TextSpec.each opt_quote l). apply inner_app; [|exact IH]. unfold opt_quote. cbn [concat]. rewrite app_nil_r.
  apply inner_app; [apply inner_quote|]. apply inner_app; [apply safe_inner; exact Hq|]. change [c_backslash; c_dquote; 44%N] with ([c_backslash; c_dquote] ++ [44%N]). apply inner_app; [apply inner_quote|].
  apply safe_inner, safe_lit. reflexivity.
Qed.
Lemma quotes_eq l : concat (map (fun f => concat [[c_backslash; c_dquote]; hf_query f; [c_backslash; c_dquote]; T ","]) l) = TextSpec.each opt_quote l.
Proof. reflexivity. Qed.
Lemma oneof_lexed o : ho_loc o = T "query" -> ident (ho_name o) -> Forall named (ho_options o) -> Forall regular (ho_options o) -> lex (oneof_src o) = block_toks (DecoderProg.oneof_code o).
Proof.
  intros Hloc Hn Fn Fr.
  assert (FN : Forall ident [ho_name o]) by (apply Forall_cons; [exact Hn|apply Forall_nil]). assert (FT : Forall inner [TextSpec.each opt_quote (ho_options o)]) by (apply Forall_cons; [apply quotes_inner; exact Fn|apply Forall_nil]).
  set (A1 := concat [T "// "; ho_name o; T " oneof
	"; ho_name o; T "CountSet := 0
	"]).
  set (A2 := concat [T "
if "; ho_name o; T "CountSet > 1 {
	return nil, errors.Errorf(""only one of ("; TextSpec.each opt_quote (ho_options o); T ") allowed"")
}

switch {
"]).
  assert (E : oneof_src o = A1 ++ lines (opt_body o) (ho_options o) ++ 10%N :: A2 ++ lines (case_body o) (ho_options o) ++ 10%N :: T "}").
  { unfold oneof_src, A1, A2. cbn [concat app]. rewrite ?app_nil_r. repeat first [rewrite <- app_assoc | rewrite <- app_comm_cons]. reflexivity. }
  rewrite E, lines_lexed, lines_lexed. unfold DecoderProg.oneof_code. rewrite !block_app_toks, blocks_toks, map_map.
  assert (L1 : lex A1 = block_toks (Cons (Do (SDefine [ho_name o ++ T "CountSet"] (ENum (T "0")))) Nil)) by (unfold A1; eapply eq_trans; [lexes [ho_name o] [TextSpec.each opt_quote (ho_options o)]|reflexivity]).
  rewrite L1. f_equal. f_equal.
  - f_equal. clear -Hloc Hn Fn. induction Fn as [|f l H F IH]; [reflexivity|]. cbn [map]. rewrite IH, option_lexed by assumption. reflexivity.
  - cbn [block_of block_toks stmt_toks].
    assert (L2 : lex A2 = [word "if"; Word (ho_name o ++ T "CountSet"); op ">"; Num (T "1"); op "{"; word "return"; word "nil"; op ","; word "errors"; op "."; word "Errorf"; op "("; Str (only_one o); op ")"; Semi; op "}"; Semi; word "switch"; op "{"]).
    { unfold A2. eapply eq_trans; [lexes [ho_name o] [TextSpec.each opt_quote (ho_options o)]|]. unfold only_one. rewrite quotes_eq. generalize (TextSpec.each opt_quote (ho_options o)). intro q. reflexivity. }
    assert (L3 : concat (map (fun f => lex (case_body o f)) (ho_options o)) = clauses_toks (option_clauses o (ho_options o))).
    { clear -Hloc Fn Fr. induction (ho_options o) as [|f l IH]; [reflexivity|]. inversion Fn; inversion Fr; subst. cbn [map concat]. rewrite IH by assumption. change (option_clauses o (f :: l)) with (Case (EVar (local f "OK")) (extract_code f (hf_loc f) (ho_loc o)) (option_clauses o l)). apply case_lexed; assumption. }
    rewrite L2, L3. generalize (clauses_toks (option_clauses o (ho_options o))). intro cs. change (lex (T "}")) with [@op "}"; @Semi N]. cbn. rewrite <- app_assoc. reflexivity.
Qed.

(** ** The function *)
Lemma lines_of {X} (body : X -> str) l : forall A B, lex (A ++ TextSpec.each (fun x => 10%N :: body x) l ++ 10%N :: B) = lex A ++ concat (map (fun x => lex (body x)) l) ++ lex B.
Proof.
  induction l as [|f l IH]; intros A B; [exact (lex_lines A B)|].
  change (TextSpec.each (fun x => 10%N :: body x) (f :: l)) with ((10%N :: body f) ++ TextSpec.each (fun x => 10%N :: body x) l). rewrite <- app_assoc, <- app_comm_cons, lex_lines, IH. cbn [map concat]. now rewrite <- app_assoc.
Qed.
Definition slot_body (code : option str) : str := concat [T "			"; match code with Some c => concat [T "
				"; c; T "
			"] | None => [] end; T "
		"].
Lemma slot_eq code : TextSpec.decoder_slot code = 10%N :: slot_body code. Proof. reflexivity. Qed.
Lemma slot_lexed code : lex (slot_body code) = match code with Some c => lex c | None => [] end.
Proof.
  destruct code as [c|]; [|reflexivity].
  transitivity (lex ([9%N; 9%N; 9%N] ++ 10%N :: (9%N :: 9%N :: 9%N :: 9%N :: c) ++ 10%N :: [9%N; 9%N; 9%N] ++ 10%N :: [9%N; 9%N])).
  - apply f_equal. unfold slot_body. cbn [concat]. rewrite !app_nil_r. repeat first [rewrite <- app_assoc | rewrite <- app_comm_cons]. reflexivity.
  - rewrite !lex_lines, !lex_tab. change (lex []) with (@nil (tok N)). cbn [app]. apply app_nil_r.
Qed.
Definition pre_text (label request : str) : str := concat [T "	func DecodeHTTP"; label; T "Request(_ context.Context, r *http.Request) (interface{}, error) {
		defer r.Body.Close()
		var req "; request; T "
		buf, err := ioutil.ReadAll(r.Body)
		if err != nil {
			return nil, errors.Wrapf(err, ""cannot read body of http request"")
		}
		if len(buf) > 0 {
			unmarshaller := protojson.UnmarshalOptions{
				AllowPartial:   true,
				DiscardUnknown: true,
			}
			if err = unmarshaller.Unmarshal(buf, &req); err != nil {
				const size = 8196
				if len(buf) > size {
					buf = buf[:size]
				}
				return nil, httpError{errors.Wrapf(err, ""request body '%s': cannot parse non-json request body"", buf),
					http.StatusBadRequest,
					nil,
				}
			}
		}

		pathParams := mux.Vars(r)
		_ = pathParams

		queryParams := r.URL.Query()
		_ = queryParams

		"].
Lemma plain_concat {X} (f g : X -> list (tok N)) l : (forall x, In x l -> plain (f x) = plain (g x)) -> plain (concat (map f l)) = plain (concat (map g l)).
Proof. induction l as [|x l IH]; intro H; [reflexivity|]. cbn [map concat]. apply plain_app; [apply H; left; reflexivity|apply IH; intros y Hy; apply H; right; exact Hy]. Qed.
Definition head_toks (name request : str) : list (tok N) := match decoder_toks name (head_code request) with l => firstn (List.length l - 2) l end.
Lemma decoder_lexed label request (slots oslots : list (option str)) (fs os : list block) :
  ident label -> ident request -> Forall2 (fun c b => plain (match c with Some c => lex c | None => [] end) = plain (block_toks b)) slots fs ->
  Forall2 (fun c b => plain (match c with Some c => lex c | None => [] end) = plain (block_toks b)) oslots os ->
  tokens (TextSpec.decoder_func label request (TextSpec.each TextSpec.decoder_slot slots) (TextSpec.each TextSpec.decoder_slot oslots)) =
  plain (decoder_toks (concat [T "DecodeHTTP"; label; T "Request"]) (block_app (head_code request) (block_app (blocks fs) (block_app (blocks os) (block_of [Do (SReturn [EAddr (v "req"); v "err"])]))))).
Proof.
  intros Hl Hq F1 F2. assert (FN : Forall ident [label; request]) by (repeat (apply Forall_cons; [assumption|]); apply Forall_nil). assert (FT : Forall inner []) by apply Forall_nil.
  set (S1 := TextSpec.each (fun c => 10%N :: slot_body c) slots). set (S2 := TextSpec.each (fun c => 10%N :: slot_body c) oslots).
  assert (E : TextSpec.decoder_func label request (TextSpec.each TextSpec.decoder_slot slots) (TextSpec.each TextSpec.decoder_slot oslots) =
    pre_text label request ++ S1 ++ 10%N :: T "
		" ++ S2 ++ 10%N :: T "		return &req, err
	}").
  { unfold TextSpec.decoder_func, pre_text. change (TextSpec.each TextSpec.decoder_slot slots) with S1. change (TextSpec.each TextSpec.decoder_slot oslots) with S2.
    cbn [concat app]. rewrite ?app_nil_r. repeat first [rewrite <- app_assoc | rewrite <- app_comm_cons]. reflexivity. }
  unfold tokens. rewrite E. unfold S1. rewrite lines_of. unfold S2. rewrite lines_of.
  set (name := concat [T "DecodeHTTP"; label; T "Request"]).
  assert (L1 : plain (lex (pre_text label request)) = plain (head_toks name request)).
  { unfold pre_text. eapply eq_trans; [apply f_equal; lexes [label; request] (@nil str)|]. vm_compute. reflexivity. }
  assert (L2 : lex (T "
		") = []) by reflexivity.
  assert (L3 : lex (T "		return &req, err
	}") = block_toks (block_of [Do (SReturn [EAddr (v "req"); v "err"])]) ++ [op "}"; Semi]) by reflexivity.
  rewrite L2, L3. cbn [app]. unfold decoder_toks. rewrite !block_app_toks. rewrite !blocks_toks.
  assert (L4 : head_toks name request = ([word "func"; Word name; op "("; word "_"; word "context"; op "."; word "Context"; op ","; word "r"; op "*"; word "http"; op "."; word "Request"; op ")"; op "("; word "interface"; op "{"; op "}"; op ","; word "error"; op ")"; op "{"]
    ++ block_toks (head_code request))) by reflexivity.
  assert (P : forall (sl : list (option str)) bs, Forall2 (fun c b => plain (match c with Some c => lex c | None => [] end) = plain (block_toks b)) sl bs -> plain (concat (map (fun x => lex (slot_body x)) sl)) = plain (concat (map block_toks bs))).
  { intros sl bs F. induction F as [|c b sl bs H F IH]; [reflexivity|]. cbn [map concat]. apply plain_app; [rewrite slot_lexed; exact H|exact IH]. }
  set (hd := lex (pre_text label request)) in *. clearbody hd. rewrite L4 in L1. set (fl := block_toks (block_of [Do (SReturn [EAddr (v "req"); v "err"])])). clearbody fl.
  set (fun_toks := [word "func"; Word name; _; _; _; _; _; _; _; _; _; _; _; _; _; _; _; _; _; _; _; _]) in *. clearbody fun_toks. set (hb := block_toks (head_code request)) in *. clearbody hb.
  transitivity (plain ((fun_toks ++ hb) ++ concat (map block_toks fs) ++ concat (map block_toks os) ++ fl ++ [op "}"; Semi])).
  - apply plain_app; [exact L1|]. apply plain_app; [apply P; exact F1|]. apply plain_app; [apply P; exact F2|]. reflexivity.
  - rewrite <- !app_assoc. reflexivity.
Qed.
