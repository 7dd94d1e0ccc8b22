(** C92: the request decoders and encoders of the generated baron file keep Go's rules for names (GoBlocks.v). *)
From Coq Require Import String Lia.
From Verif Require Import GoStr GoStrProofs Strs SvcTypes HttpTransport GoLex GoLang DecoderProg EncoderProg GoScope GoBlocks.
From Verif Require BlocksFree StrsSpec PropScope Wiring Render PropGoFile PropHttpWire FileHttp TextProofs Generator DecoderTexts GoEncode GoDecls PropGoEncoder.

Lemma either (b : bool) : (if b then true else true) = true. Proof. destruct b; reflexivity. Qed.
Lemma used_app x a b : used_in x (block_app a b) = used_in x a || used_in x b.
Proof. induction a as [|s a IH]; [reflexivity|]. cbn [block_app used_in]. rewrite IH, orb_assoc. reflexivity. Qed.
Section Codes.
  Variable g : str -> bool.
  Definition consts : list str := [T "error"; T "string"; T "append"; T "len"; T "byte"; T "nil"; T "true"; T "make"; T "context"; T "errors"; T "strconv"; T "fmt"; T "json"; T "ioutil"; T "protojson"; T "http"; T "mux"; T "url"; T "strings"; T "bytes"; T "httpError"].
  Hypothesis Hg : forall x, mem x consts = true -> g x = true.
  Ltac look := repeat match goal with |- context [g ?x] => first [rewrite (Hg x eq_refl) | match goal with H : g _ = true |- _ => rewrite (H : g x = true) end] end.
  Ltac check := cbv; rewrite ?either; look; reflexivity.
  (** Code that declares nothing in its block *)
  Fixpoint quiet (sc : list (list str)) (b : block) : bool :=
    match b with Nil => true | Cons s b' => stmt_ok g sc s && match s with Do (SVar _ _) | Do (SConst _ _) | Do (SDefine _ _) => false | _ => true end && quiet sc b' end.
  Lemma scope_cons top outer s b : scope_ok g top outer (Cons s b) = stmt_ok g (top :: outer) s && top_ok top s && forallb (fun x => used_in x b) (top_names top s) && scope_ok g (names_in s ++ top) outer b.
  Proof. reflexivity. Qed.
  Lemma quiet_app top outer a b : quiet (top :: outer) a = true -> scope_ok g top outer (block_app a b) = scope_ok g top outer b.
  Proof.
    induction a as [|s a IH]; intro H; [reflexivity|]. cbn [quiet] in H. apply andb_true_iff in H. destruct H as [H1 H2]. apply andb_true_iff in H1. destruct H1 as [H1 H3]. cbn [block_app]. rewrite scope_cons, H1.
    destruct s as [s| | |]; [destruct s; try discriminate H3|..]; cbn [top_ok new_ok top_names new_names names_in names_of app forallb andb]; exact (IH H2).
  Qed.
  Lemma quiet_both sc a b : quiet sc (block_app a b) = quiet sc a && quiet sc b.
  Proof. induction a as [|s a IH]; [reflexivity|]. cbn [block_app quiet]. rewrite IH, !andb_assoc. reflexivity. Qed.
  Lemma quiet_blocks {A} sc (code : A -> block) l : (forall x, In x l -> quiet sc (code x) = true) -> quiet sc (blocks (map code l)) = true.
  Proof. induction l as [|x l IH]; intro H; [reflexivity|]. cbn [map blocks]. rewrite quiet_both, (H x (or_introl eq_refl)). apply IH. intros y Hy. apply H. right. exact Hy. Qed.

  (** ** Encoders *)
  Definition enc_names : list str := [T "tmp"; T "values"; T "u"; T "err"; T "path"; T "req"; T "strval"; T "r"; T "request"].
  Lemma query_quiet f : quiet [enc_names] (query_code f) = true.
  Proof. unfold query_code. generalize (hf_camel f) (hf_query f). intros a b. destruct (hf_rep f), (hf_base f), (hf_star f); check. Qed.
  (** The literal that an option is compared with *)
  Definition zero_known (z : str) : Prop := In z [T "nil"; T "false"; [c_dquote; c_dquote]; T "0"].
  Lemma zero_ok sc z : g (T "false") = true -> zero_known z -> e_ok g sc (zero_expr z) = true.
  Proof. intros F [<-|[<-|[<-|[<-|[]]]]]; [exact (PropScope.known_g g sc _ (Hg (T "nil") eq_refl))|exact (PropScope.known_g g sc _ F)|reflexivity|reflexivity]. Qed.
  Lemma option_quiet o : g (T "false") = true -> zero_known (hf_zero o) -> quiet [enc_names] (option_query_code o) = true.
  Proof.
    intros F Z. unfold option_query_code, get_option_expr. pose proof (zero_ok [[T "val"]; enc_names] _ F Z) as K. revert K. generalize (zero_expr (hf_zero o)) (T "Get" ++ hf_name o) (T "Get" ++ hf_name o ++ T "()") (hf_query o). intros ze a b c K.
    destruct (negb (hf_base o) || hf_rep o); cbv in K |- *; rewrite ?either; look; rewrite K; reflexivity.
  Qed.
  Lemma sections_ok sc l : known g sc (T "req") = true -> forallb (e_ok g sc) (map section_expr l) = true.
  Proof.
    intro K. apply forallb_forall. intros e He. apply in_map_iff in He. destruct He as (s & <- & _). destruct s as [p|c|c]; [reflexivity| |].
    - change (known g sc (T "fmt") && (true && (known g sc (T "req") && true)) = true). rewrite K, (PropScope.known_g g sc (T "fmt") (Hg (T "fmt") eq_refl)). reflexivity.
    - change (known g sc (T "fmt") && (known g sc (T "req") && true) = true). rewrite K, (PropScope.known_g g sc (T "fmt") (Hg (T "fmt") eq_refl)). reflexivity.
  Qed.
  Lemma encoder_is_ok request b : g request = true -> g (T "false") = true -> (forall o x, In o (hb_oneofs b) -> In x (ho_options o) -> zero_known (hf_zero x)) -> encoder_ok g (encoder_prog request b) = true.
  Proof.
    intros Hr F Z. unfold encoder_ok, encoder_prog. set (q1 := blocks (map query_code (in_loc "query" (hb_fields b)))). set (q2 := blocks (map option_query_code (flat_map ho_options (query_oneofs_of b)))).
    set (body := if str_eqb (hb_verb b) (T "get") then Nil else _). set (tl := block_app body (block_of [Do (SReturn [v "nil"])])).
    assert (Q1 : quiet [enc_names] q1 = true) by (apply quiet_blocks; intros f _; apply query_quiet).
    assert (Q2 : quiet [enc_names] q2 = true).
    { apply quiet_blocks. intros x Hx. apply in_flat_map in Hx. destruct Hx as (o & Ho & Hx). apply filter_In in Ho. apply option_quiet; [exact F|]. exact (Z o x (proj1 Ho) Hx). }
    assert (TL : scope_ok g enc_names [] tl = true).
    { unfold tl, body. destruct (str_eqb (hb_verb b) (T "get")); [check|]. set (fs := blocks (map body_field_code (in_loc "body" (hb_fields b)))).
      assert (Q3 : quiet [T "toRet" :: enc_names] fs = true) by (apply quiet_blocks; intros f _; unfold body_field_code; generalize (hf_camel f); intro c; check).
      assert (Rest : scope_ok g (T "toRet" :: enc_names) [] (block_app fs (block_app body_end (block_of [Do (SReturn [v "nil"])]))) = true) by (rewrite (quiet_app _ _ _ _ Q3); check).
      assert (U : used_in (T "toRet") (block_app fs (block_app body_end (block_of [Do (SReturn [v "nil"])]))) = true) by (rewrite used_app; apply orb_true_iff; right; reflexivity).
      assert (E : block_app (block_app (body_start request) (block_app fs body_end)) (block_of [Do (SReturn [v "nil"])]) = block_app (body_start request) (block_app fs (block_app body_end (block_of [Do (SReturn [v "nil"])])))).
      { assert (A : forall a c, block_app (block_app a c) (block_of [Do (SReturn [v "nil"])]) = block_app a (block_app c (block_of [Do (SReturn [v "nil"])]))) by (induction a as [|s a IH]; intro c; [reflexivity|cbn [block_app]; rewrite IH; reflexivity]).
        rewrite A, A. reflexivity. }
      rewrite E. revert Rest U. clear E Q3 Q1 Q2 body tl. generalize (block_app fs (block_app body_end (block_of [Do (SReturn [v "nil"])]))). intros R Rest U. cbv in Rest, U |- *. rewrite ?either. look. rewrite U. exact Rest. }
    set (R := block_app q1 (block_app q2 (block_app query_text_code tl))).
    assert (B : scope_ok g enc_names [] R = true).
    { unfold R. rewrite (quiet_app _ _ _ _ Q1), (quiet_app _ _ _ _ Q2). assert (Q : quiet [enc_names] query_text_code = true) by check. rewrite (quiet_app _ _ _ _ Q). exact TL. }
    assert (U : used_in (T "values") R = true) by (unfold R; rewrite !used_app; apply orb_true_iff; right; apply orb_true_iff; right; reflexivity).
    pose proof (sections_ok [[T "req"; T "strval"; T "r"; T "request"]] (path_sections b) (PropScope.known_in g [[T "req"; T "strval"; T "r"; T "request"]] [T "req"; T "strval"; T "r"; T "request"] (T "req") (or_introl eq_refl) (or_introl eq_refl))) as S.
    clearbody R. unfold start_code. revert S. generalize (map section_expr (path_sections b)). intros es S. clear - Hg Hr S B U. cbv in S, B, U |- *. rewrite ?either. look. rewrite S, U. exact B.
  Qed.
End Codes.

(** The zero values of options *)
Lemma zero_values sh : zero_known (get_zero_value sh).
Proof. unfold get_zero_value, zero_known. destruct (_ || _); [left; reflexivity|]. destruct (str_eqb _ (T "bool")); [right; left; reflexivity|]. destruct (str_eqb _ (T "string")); [do 2 right; left; reflexivity|do 3 right; left; reflexivity]. Qed.
Lemma options_zero ms meth parent : forall os xs, new_options ms meth parent os = GoStr.Ret xs -> forall x, In x xs -> zero_known (hf_zero x).
Proof.
  induction os as [|o os IH]; intros xs H x Hx; cbn [new_options] in H; [injection H as <-; destruct Hx|]. destruct (new_option ms meth parent o) as [y| |] eqn:E; try discriminate H. destruct (new_options ms meth parent os) as [ys| |]; try discriminate H. injection H as <-.
  destruct Hx as [<-|Hx]; [|exact (IH ys eq_refl x Hx)]. unfold new_option in E. destruct (ft_msg (fd_type o)); [|discriminate E]. injection E as <-. cbn [hf_zero]. apply zero_values.
Qed.
Lemma oneofs_zero ms meth : forall ps r, oneof_loop ms meth ps = GoStr.Ret r -> forall o x, In o r -> In x (ho_options o) -> zero_known (hf_zero x).
Proof.
  induction ps as [|p ps IH]; intros r H o x Ho Hx; cbn [oneof_loop] in H; [injection H as <-; destruct Ho|]. destruct (ft_oneof (fd_type (pm_field p))) as [os|]; [|exact (IH r H o x Ho Hx)].
  destruct (new_options ms meth (pm_field p) os) as [xs| |] eqn:E; try discriminate H. destruct (oneof_loop ms meth ps) as [r'| |]; try discriminate H. injection H as <-. destruct Ho as [<-|Ho]; [exact (options_zero _ _ _ _ _ E x Hx)|exact (IH r' eq_refl o x Ho Hx)].
Qed.
Lemma binding_zero ms i m b : new_binding ms i m = GoStr.Ret b -> forall o x, In o (hb_oneofs b) -> In x (ho_options o) -> zero_known (hf_zero x).
Proof. unfold new_binding. intros H. destruct (nth_error (sm_bindings m) i) as [sb|]; [|discriminate H]. destruct (oneof_loop ms (sm_name m) (sb_params sb)) as [os| |] eqn:E; try discriminate H. injection H as <-. exact (oneofs_zero _ _ _ _ E). Qed.

Section C92.
  Variable format_source : str -> option str.
  Variables (d : Render.tdata) (s : str) (mm : list message).
  Hypothesis rendered_file : Render.render_asset format_source Generator.BaronPath d = Some s.
  Notation methods := (sv_methods (Render.td_service d)).
  Notation helper := (Render.td_helper d).
  Notation names := (PropGoFile.names d).
  Hypothesis made : new_helper mm methods = GoStr.Ret helper.
  Hypothesis ok : PropGoFile.file_ok mm d.
  Hypothesis lays_f : forall hm b f t, In hm helper -> In b (hm_binds hm) -> In f (hb_fields b) -> DecoderTexts.field_text f = Some t -> lays_out format_source t.
  Hypothesis lays_o : forall hm b o t, In hm helper -> In b (hm_binds hm) -> In o (hb_oneofs b) -> DecoderTexts.oneof_text o = Some t -> lays_out format_source t.
  Ltac there := solve [repeat first [left; reflexivity | right]].
  Lemma all_consts pb x : mem x consts = true -> mem x (PropScope.outside d pb) = true.
  Proof.
    intro H. apply PropScope.mem_in in H. unfold consts in H. cbn [In] in H.
    repeat (destruct H as [<-|H]; [first
      [ apply PropScope.mem_in; unfold PropScope.outside; rewrite !in_app_iff; left; there
      | apply PropScope.in_imports; unfold Wiring.imports; rewrite !in_app_iff; left; there
      | apply PropScope.in_package; unfold Wiring.package_names; rewrite !in_app_iff; do 4 right; left; there ]|]). destruct H.
  Qed.
  (** The request encoder of every binding is a function of the file, and keeps Go's rules: every name it uses is declared by Go, an import, the package or an enclosing block; no block declares a name twice; every variable is used; no literal gives a key twice. *)
  Theorem c92_encoders : forall pb, (forall m, In m methods -> In (go_camel_case (ft_name (sm_req m))) pb) ->
    forall hm b, In hm helper -> In b (hm_binds hm) -> exists prog, PropHttpWire.has_encoder s (T "EncodeHTTP" ++ hb_label b ++ T "Request") prog /\
      prog = encoder_prog (go_camel_case (hm_req hm)) b /\ encoder_ok (fun x => mem x (PropScope.outside d pb)) prog = true.
  Proof.
    intros pb Hp hm b Hm Hb. exists (encoder_prog (go_camel_case (hm_req hm)) b). split; [|split; [reflexivity|]].
    - destruct (PropGoFile.file_is format_source d s mm rendered_file made ok lays_f lays_o) as (ds & D & _ & _).
      destruct (PropGoFile.encoders_are format_source d s mm rendered_file made ok lays_f lays_o ds hm b D Hm Hb) as (I & Tk & _). exists ds, (FileHttp.enc hm b). split; [exact D|]. split; [exact I|exact Tk].
    - destruct (PropGoFile.bind_ok d mm made ok hm b Hm Hb) as (m & i & sb & I & E & N & MB & _). destruct (PropGoFile.made_in mm methods helper hm made Hm) as (m' & I' & E' & _). destruct (PropGoFile.method_made mm m' hm E') as (_ & Q & _). rewrite Q.
      apply encoder_is_ok.
      + exact (all_consts pb).
      + apply PropScope.in_pb. apply Hp. exact I'.
      + apply PropScope.mem_in. unfold PropScope.outside. rewrite !in_app_iff. left. there.
      + exact (binding_zero mm i m b MB).
  Qed.
  (** So every variable that an encoder uses and does not declare itself is a parameter, or of Go, the imports or the package. *)
  Theorem c92_free : forall pb, (forall m, In m methods -> In (go_camel_case (ft_name (sm_req m))) pb) ->
    forall hm b x, In hm helper -> In b (hm_binds hm) -> exists prog, PropHttpWire.has_encoder s (T "EncodeHTTP" ++ hb_label b ++ T "Request") prog /\
      (uses_block x prog = true -> In x (PropScope.outside d pb) \/ x = T "r" \/ x = T "request").
  Proof.
    intros pb Hp hm b x Hm Hb. destruct (c92_encoders pb Hp hm b Hm Hb) as (prog & A & _ & C). exists prog. split; [exact A|]. intro U. destruct (BlocksFree.encoder_free _ x prog C U) as [K|K]; [left; apply PropScope.mem_in; exact K|right; exact K].
  Qed.
End C92.
Print Assumptions c92_encoders.
Print Assumptions c92_free.
(** ** A case: POST /v1/{id}/{kind} of PropGoFile.shop *)
Example c92_case : encoder_ok (fun x => mem x (PropScope.outside PropGoFile.shop PropScope.shop_pb)) (encoder_prog (T "Req") PropGoEncoder.post_b) = true /\
  encoder_ok (fun x => mem x (PropScope.outside PropGoFile.shop [])) (encoder_prog (T "Req") PropGoEncoder.post_b) = false.
Proof. split; vm_compute; reflexivity. Qed.
