(** The brackets of the programs of C80 and C81 match: the text of one is one declaration. *)
From Coq Require Import String Lia.
From Verif Require Import GoStr GoStrProofs GoMap Strs HttpTransport GoLex GoLexProofs GoDecls GoDeclsProofs GoLang GoEncode DecoderProg EncoderProg.

Definition bal (l : list token) : Prop := forall c st, nest (c :: st) l = Some (c :: st).
Lemma bal_nil : bal []. Proof. intros c st. reflexivity. Qed.
Lemma bal_app a b : bal a -> bal b -> bal (a ++ b). Proof. intros H1 H2 c st. rewrite nest_app, H1. apply H2. Qed.
Lemma bal_cons t l : bal [t] -> bal l -> bal (t :: l). Proof. apply (bal_app [t] l). Qed.
Lemma bal_word x : bal [Word x]. Proof. intros c st. reflexivity. Qed.
Lemma bal_num x : bal [Num x]. Proof. intros c st. reflexivity. Qed.
Lemma bal_str x : bal [Str x]. Proof. intros c st. reflexivity. Qed.
Lemma bal_semi : bal [Semi]. Proof. intros c st. reflexivity. Qed.
Definition neutral (o : str) : bool := match closer o with Some _ => false | None => negb (is_closer o) end.
Lemma bal_op o : neutral o = true -> bal [Op o].
Proof. unfold neutral. intros H c st. cbn [nest brackets]. destruct (closer o); [discriminate|]. destruct (is_closer o); [discriminate|]. reflexivity. Qed.
Lemma bal_round l r : bal l -> bal r -> bal (op "(" :: l ++ op ")" :: r).
Proof. intros H1 H2 c st. cbn [nest]. change (brackets (c :: st) (op "(")) with (Some (T ")" :: c :: st)). cbv iota beta. rewrite nest_app, H1. cbn [nest]. change (brackets (T ")" :: c :: st) (op ")")) with (Some (c :: st)). apply H2. Qed.
Lemma bal_square l r : bal l -> bal r -> bal (op "[" :: l ++ op "]" :: r).
Proof. intros H1 H2 c st. cbn [nest]. change (brackets (c :: st) (op "[")) with (Some (T "]" :: c :: st)). cbv iota beta. rewrite nest_app, H1. cbn [nest]. change (brackets (T "]" :: c :: st) (op "]")) with (Some (c :: st)). apply H2. Qed.
Lemma bal_brace l r : bal l -> bal r -> bal (op "{" :: l ++ op "}" :: r).
Proof. intros H1 H2 c st. cbn [nest]. change (brackets (c :: st) (op "{")) with (Some (T "}" :: c :: st)). cbv iota beta. rewrite nest_app, H1. cbn [nest]. change (brackets (T "}" :: c :: st) (op "}")) with (Some (c :: st)). apply H2. Qed.
Lemma bal_sep x l : bal x -> Forall bal l -> bal (sep x l).
Proof. intros Hx. induction 1 as [|a l Ha Hl IH]; [apply bal_nil|]. cbn [sep]. destruct l as [|b l]; [exact Ha|]. apply bal_app; [exact Ha|]. apply bal_app; [exact Hx|exact IH]. Qed.
Ltac bal := repeat first [apply bal_nil | apply bal_word | apply bal_num | apply bal_str | apply bal_semi | assumption
  | apply (bal_op _ eq_refl) | apply bal_round | apply bal_square | apply bal_brace | apply bal_app | apply bal_cons | apply bal_sep].
Lemma bal_ty t : bal (ty_toks t).
Proof. induction t; cbn [ty_toks]; [bal|bal|bal|]. apply (bal_square [] (ty_toks t)); bal. Qed.

(** Operators are no brackets. *)
Fixpoint tame (e : expr) : bool :=
  match e with
  | EVar _ | ENum _ | EStr _ | EType _ => true
  | ESel e _ | EAddr e | EDeref e | EAssert e _ => tame e
  | ECall f args => tame f && forallb tame args
  | EIndex e i | EUpTo e i => tame e && tame i
  | EBin o a b => neutral o && tame a && tame b
  | ELit _ _ args => forallb tame args
  end.
Fixpoint bal_expr (e : expr) : tame e = true -> bal (expr_toks e).
Proof.
  assert (L : forall l : list expr, forallb tame l = true -> Forall bal (map expr_toks l)).
  { induction l as [|a l IH]; cbn [forallb map]; intro H; [constructor|]. apply andb_prop in H. destruct H as [H1 H2]. constructor; [exact (bal_expr a H1)|exact (IH H2)]. }
  destruct e; cbn [tame expr_toks]; intro H.
  - bal.
  - bal.
  - bal.
  - apply bal_ty.
  - pose proof (bal_expr e H). bal.
  - apply andb_prop in H. destruct H as [H1 H2]. pose proof (bal_expr e H1). pose proof (L _ H2). apply bal_app; [assumption|]. cbn [app]. bal.
  - apply andb_prop in H. destruct H as [H1 H2]. pose proof (bal_expr e1 H1). pose proof (bal_expr e2 H2). apply bal_app; [assumption|]. cbn [app]. bal.
  - apply andb_prop in H. destruct H as [H1 H2]. pose proof (bal_expr e1 H1). pose proof (bal_expr e2 H2). apply bal_app; [assumption|]. cbn [app]. apply (bal_square (op ":" :: expr_toks e2) []); bal.
  - pose proof (bal_expr e H). bal.
  - pose proof (bal_expr e H). bal.
  - pose proof (bal_expr e H). pose proof (bal_ty t). apply bal_app; [assumption|]. cbn [app]. bal.
  - apply andb_prop in H. destruct H as [H H3]. apply andb_prop in H. destruct H as [H1 H2]. pose proof (bal_expr e1 H2). pose proof (bal_expr e2 H3). pose proof (bal_op _ H1). bal.
  - apply bal_app; [apply bal_ty|]. cbn [app]. apply bal_brace; [|apply bal_nil]. apply bal_sep; [bal|].
    revert keys H. induction args as [|a args IH]; intros keys H; [constructor|]. cbn [forallb] in H. apply andb_prop in H. destruct H as [H1 H2]. pose proof (bal_expr a H1). destruct keys as [|k keys]; (constructor; [bal|]); apply IH; exact H2.
Qed.
Definition tame_simple (s : simple) : bool :=
  match s with
  | SVar _ _ | SConst _ _ | SInc _ | SNone => true
  | SDefine _ e | SCall e | SDefer e => tame e
  | SAssign x e => tame x && tame e
  | SAssigns xs e => forallb tame xs && tame e
  | SReturn es => forallb tame es
  | SGarbage l => match nest [[]] l with Some [[]] => true | _ => false end
  end.
Lemma nest_any (l : list token) : forall st st', nest (st ++ [[]]) l = Some st' -> forall c r, (exists x, st' = x ++ [[]]) -> nest (st ++ c :: r) l = option_map (fun s => removelast s ++ c :: r) (Some st').
Proof.
  induction l as [|t l IH]; intros st st' H c r X.
  - cbn in *. injection H as <-. rewrite removelast_last. reflexivity.
  - cbn [nest] in *. assert (NE : forall z : str, st ++ [z] <> []) by (intros z E; destruct st; discriminate).
    assert (G : forall t : token, match brackets (st ++ [[]]) t with Some st1 => nest st1 l | None => None end = Some st' ->
      match brackets (st ++ c :: r) t with Some st1 => nest st1 l | None => None end = option_map (fun s => removelast s ++ c :: r) (Some st')).
    { intros t0 K. destruct t0; cbn [brackets] in *; try (apply IH; assumption); [|discriminate]. destruct (closer o) as [c0|].
      - apply (IH (c0 :: st)); assumption.
      - destruct (is_closer o) eqn:Ec; [|apply IH; assumption]. destruct st as [|z st].
        + cbn [app] in K. destruct (str_eqb [] o) eqn:Eo; [|discriminate]. apply str_eqb_eq in Eo. subst o. discriminate.
        + cbn [app] in *. destruct (str_eqb z o); [|discriminate]. apply IH; assumption. }
    destruct t; try (apply G; exact H). specialize (G Semi). destruct (st ++ [[]]) as [|a b] eqn:E; [destruct st; discriminate|]. destruct (st ++ c :: r) as [|a' b'] eqn:E'; [destruct st; discriminate|]. apply G. exact H.
Qed.
Lemma bal_simple s : tame_simple s = true -> bal (simple_toks s).
Proof.
  destruct s; cbn [tame_simple simple_toks]; intro H.
  - pose proof (bal_ty t). bal.
  - bal.
  - pose proof (bal_expr _ H). apply bal_app; [|bal]. apply bal_sep; [bal|]. apply Forall_map, Forall_forall. intros y _. bal.
  - apply andb_prop in H. destruct H as [H1 H2]. pose proof (bal_expr _ H1). pose proof (bal_expr _ H2). bal.
  - apply andb_prop in H. destruct H as [H1 H2]. pose proof (bal_expr _ H2). apply bal_app; [|bal]. apply bal_sep; [bal|]. apply Forall_map, Forall_forall. intros y Hy. apply bal_expr. rewrite forallb_forall in H1. auto.
  - exact (bal_expr _ H).
  - bal.
  - pose proof (bal_expr _ H). bal.
  - apply bal_cons; [bal|]. apply bal_sep; [bal|]. apply Forall_map, Forall_forall. intros y Hy. apply bal_expr. rewrite forallb_forall in H. auto.
  - bal.
  - intros c st. destruct (nest [[]] l) as [[|[|] [|]]|] eqn:E; try discriminate. pose proof (nest_any l [] [[]] E c st (ex_intro _ [] eq_refl)) as K. cbn in K. exact K.
Qed.
Fixpoint tame_stmt (s : stmt) : bool :=
  match s with
  | Do s => tame_simple s
  | If i c yes no => tame_simple i && tame c && tame_block yes && tame_block no
  | For _ _ e b => tame e && tame_block b
  | Switch cs => tame_clauses cs
  end
with tame_block (b : block) : bool := match b with Nil => true | Cons s b => tame_stmt s && tame_block b end
with tame_clauses (cs : clauses) : bool := match cs with NoCase => true | Case c b cs => tame c && tame_block b && tame_clauses cs end.
Fixpoint bal_stmt (s : stmt) : tame_stmt s = true -> bal (stmt_toks s)
with bal_block (b : block) : tame_block b = true -> bal (block_toks b)
with bal_clauses (cs : clauses) : tame_clauses cs = true -> bal (clauses_toks cs).
Proof.
  - destruct s as [s|i c yes no|i v e b|cs]; cbn [tame_stmt stmt_toks]; intro H.
    + apply bal_simple. exact H.
    + repeat (apply andb_prop in H; destruct H as [H ?]). pose proof (bal_simple _ H). pose proof (bal_expr c H2). pose proof (bal_block yes H1). pose proof (bal_block no H0). cbn [app].
      apply bal_cons; [bal|]. apply bal_app; [destruct i; bal|]. apply bal_app; [assumption|]. apply bal_brace; [assumption|]. destruct no; [apply bal_nil|]. cbn [app]. apply bal_cons; [bal|]. apply bal_brace; [assumption|apply bal_nil].
    + apply andb_prop in H. destruct H as [H1 H2]. pose proof (bal_expr _ H1). pose proof (bal_block _ H2). cbn [app]. do 6 (apply bal_cons; [bal|]). apply bal_app; [assumption|]. bal.
    + pose proof (bal_clauses _ H). cbn [app]. bal.
  - destruct b as [|s b]; cbn [tame_block block_toks]; intro H; [apply bal_nil|]. apply andb_prop in H. destruct H as [H1 H2]. apply bal_app; [exact (bal_stmt s H1)|]. apply bal_cons; [bal|exact (bal_block b H2)].
  - destruct cs as [|c b cs]; cbn [tame_clauses clauses_toks]; intro H; [apply bal_nil|]. apply andb_prop in H. destruct H as [H H3]. apply andb_prop in H. destruct H as [H1 H2]. pose proof (bal_expr _ H1). pose proof (bal_block _ H2). pose proof (bal_clauses _ H3). bal.
Qed.
Lemma tame_app a b : tame_block (block_app a b) = tame_block a && tame_block b.
Proof. induction a as [|s a IH]; [reflexivity|]. cbn [block_app tame_block]. rewrite IH. apply Bool.andb_assoc. Qed.
Lemma tame_blocks l : tame_block (blocks l) = forallb tame_block l.
Proof. induction l as [|b l IH]; [reflexivity|]. cbn [blocks forallb]. rewrite tame_app, IH. reflexivity. Qed.
Lemma tame_all {X} (f : X -> block) l : (forall x, tame_block (f x) = true) -> tame_block (blocks (map f l)) = true.
Proof. intro H. rewrite tame_blocks. apply forallb_forall. intros b Hb. apply in_map_iff in Hb. destruct Hb as (x & <- & _). apply H. Qed.

(** ** The programs *)
Lemma tame_tconv x t : tame (tconv_expr x t) = true.
Proof. induction t as [| | | |a m c t IH]; try reflexivity. cbn [tconv_expr]. destruct a; cbn [tame forallb]; rewrite IH; reflexivity. Qed.
Lemma tame_parse p x y : tame_stmt (parse_stmt p x y) = true. Proof. destruct p; reflexivity. Qed.
Lemma tame_convert f : tame_block (convert_code f) = true.
Proof.
  unfold convert_code. destruct (hf_conv f); try reflexivity; try (destruct (hf_star f); reflexivity).
  - cbn [tame_block]. rewrite tame_parse. reflexivity.
  - destruct each as [p|]; [|destruct check, (hf_star f); reflexivity]. cbn [block_of app tame_block tame_stmt]. rewrite tame_parse. destruct narrow, check, (hf_star f); reflexivity.
Qed.
Lemma tame_extract f l p : tame_block (extract_code f l p) = true.
Proof. unfold extract_code. rewrite tame_app, tame_convert. destruct (hf_check f); cbn [app block_of tame_block tame_stmt tame_simple tame]; rewrite tame_tconv; reflexivity. Qed.
Lemma tame_clause o l : tame_clauses (option_clauses o l) = true.
Proof. induction l as [|f l IH]; [reflexivity|]. cbn [option_clauses tame_clauses]. rewrite tame_extract, IH. reflexivity. Qed.
Lemma tame_oneof o : tame_block (oneof_code o) = true.
Proof. unfold oneof_code. rewrite !tame_app, (tame_all (option_code o)); [|reflexivity]. cbn [block_of tame_block tame_stmt]. rewrite tame_clause. reflexivity. Qed.
Lemma tame_decoder request b : tame_block (decoder_prog request b) = true.
Proof.
  unfold decoder_prog, fields_code, oneofs_code. rewrite !tame_app, !tame_all; [reflexivity| |].
  - intro o. destruct (str_eqb _ _); [apply tame_oneof|reflexivity].
  - intro f. destruct (str_eqb (hf_loc f) (T "body")); [reflexivity|]. unfold field_code. destruct (str_eqb _ _); cbn [tame_block tame_stmt]; rewrite tame_extract; reflexivity.
Qed.
Lemma tame_section s : tame (section_expr s) = true. Proof. destruct s; reflexivity. Qed.
Lemma tame_encoder request b : tame_block (encoder_prog request b) = true.
Proof.
  unfold encoder_prog. rewrite !tame_app, !tame_all.
  - destruct (str_eqb (hb_verb b) (T "get")).
    + unfold start_code. cbn [block_of tame_block tame_stmt tame_simple tame forallb]. assert (F : forallb tame (map section_expr (path_sections b)) = true) by (apply forallb_forall; intros x Hx; apply in_map_iff in Hx; destruct Hx as (s & <- & _); apply tame_section). rewrite F. reflexivity.
    + rewrite !tame_app, tame_all; [|reflexivity]. unfold start_code. cbn [block_of tame_block tame_stmt tame_simple tame forallb]. assert (F : forallb tame (map section_expr (path_sections b)) = true) by (apply forallb_forall; intros x Hx; apply in_map_iff in Hx; destruct Hx as (s & <- & _); apply tame_section). rewrite F. reflexivity.
  - intro o. unfold option_query_code, zero_expr. destruct (negb (hf_base o) || hf_rep o), (str_eqb (hf_zero o) (T "0")), (str_eqb (hf_zero o) [c_dquote; c_dquote]); reflexivity.
  - intro f. unfold query_code. destruct (hf_rep f && hf_base f), (negb (hf_base f) || hf_rep f), (hf_star f); reflexivity.
Qed.

(** A text whose tokens are such a function is one declaration. *)
Lemma last_semi (X : list token) l : plain l = X ++ [Semi] -> exists l', l = l' ++ [Semi] /\ plain l' = X.
Proof.
  intro H. destruct (exists_last (l := l)) as (l' & t & E); [intro E; subst l; destruct X; discriminate|]. subst l. exists l'.
  assert (K : exists y, plain (l' ++ [t]) = y ++ [t]).
  { clear H. induction l' as [|u l' (y & IH)]; [exists []; cbn; destruct (optional N t); reflexivity|]. cbn [app plain]. rewrite IH. destruct (optional N u && closes N (y ++ [t])); [exists y|exists (u :: y)]; reflexivity. }
  destruct K as (y & K). rewrite K in H. apply app_inj_tail in H. destruct H as [-> ->]. split; [reflexivity|]. rewrite plain_app_open in K by reflexivity. apply app_inj_tail in K. apply K.
Qed.
Lemma one_decl s X : tokens s = X ++ [Semi] -> decl X -> exists d, parts (lex s) = Some [d] /\ plain d = X.
Proof.
  intros H D. unfold tokens in H. destruct (last_semi X (lex s) H) as (d & E & P). exists d. split; [|exact P]. rewrite E. apply parts_iff. split; [unfold ended; cbn [flat_map]; rewrite app_nil_r; reflexivity|]. constructor; [|constructor].
  apply decl_plain. rewrite P. exact D.
Qed.
(** The declaration of a function: without the semicolon after it *)
Definition decoder_decl (name : str) (body : block) : list token := removelast (plain (decoder_toks name body)).
Definition encoder_decl (name : str) (body : block) : list token := removelast (plain (encoder_toks name body)).
Lemma func_decl head body : nest [] head = Some [T "}"] -> tame_block body = true ->
  exists X, plain (head ++ block_toks body ++ [op "}"; Semi]) = X ++ [Semi] /\ decl X.
Proof.
  intros H1 H2. exists (plain (head ++ block_toks body ++ [op "}"])). split.
  - change [op "}"; Semi] with ([op "}"] ++ [@Semi N]). rewrite !app_assoc, plain_app_open by reflexivity. reflexivity.
  - unfold decl. rewrite nest_plain, nest_app, H1, nest_app, (bal_block body H2). reflexivity.
Qed.
Lemma decoder_is_decl s name body : tame_block body = true -> tokens s = plain (decoder_toks name body) -> exists d, parts (lex s) = Some [d] /\ plain d = decoder_decl name body.
Proof.
  intros H1 H2. unfold decoder_decl. unfold decoder_toks in *. destruct (func_decl [word "func"; Word name; op "("; word "_"; word "context"; op "."; word "Context"; op ","; word "r"; op "*"; word "http"; op "."; word "Request"; op ")"; op "("; word "interface"; op "{"; op "}"; op ","; word "error"; op ")"; op "{"] body eq_refl H1) as (X & E & D). rewrite E in *. rewrite removelast_last. exact (one_decl s X H2 D).
Qed.
Lemma encoder_is_decl s name body : tame_block body = true -> tokens s = plain (encoder_toks name body) -> exists d, parts (lex s) = Some [d] /\ plain d = encoder_decl name body.
Proof.
  intros H1 H2. unfold encoder_decl. unfold encoder_toks in *. destruct (func_decl [word "func"; Word name; op "("; word "_"; word "context"; op "."; word "Context"; op ","; word "r"; op "*"; word "http"; op "."; word "Request"; op ","; word "request"; word "interface"; op "{"; op "}"; op ")"; word "error"; op "{"] body eq_refl H1) as (X & E & D). rewrite E in *. rewrite removelast_last. exact (one_decl s X H2 D).
Qed.
