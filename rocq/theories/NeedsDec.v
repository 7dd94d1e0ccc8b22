(** For C93: what its hypotheses are needed for. *)
From Coq Require Import String Lia.
From Verif Require Import GoStr GoStrProofs Strs SvcTypes HttpTransport GoLex GoLang DecoderProg GoScope GoBlocks PropBlocks BlocksDec.
From Verif Require PropScope Wiring DecoderProto DecodeProofs.

Section Needs.
  Variable g : str -> bool.
  Notation known := (GoScope.known g).
  (** The names that a block declares at its top *)
  Fixpoint tops (b : block) : list str := match b with Nil => [] | Cons s b' => tops b' ++ names_in s end.
  Lemma tops_app a b : tops (block_app a b) = tops b ++ tops a.
  Proof. induction a as [|s a IH]; [symmetry; apply app_nil_r|]. cbn [block_app tops]. rewrite IH, app_assoc. reflexivity. Qed.
  Lemma scope_at : forall a top outer s c, scope_ok g top outer (block_app a (Cons s c)) = true -> stmt_ok g ((tops a ++ top) :: outer) s = true.
  Proof.
    induction a as [|x a IH]; intros top outer s c H; cbn [block_app] in H; rewrite scope_cons in H; apply andb_true_iff in H; destruct H as [H1 H2]; [apply andb_true_iff in H1; destruct H1 as [H1 _]; apply andb_true_iff in H1; apply H1|].
    apply IH in H2. cbn [tops]. rewrite <- app_assoc. exact H2.
  Qed.
  (** A statement of a block of the decoder *)
  Lemma fields_at : forall fs f, In f fs -> str_eqb (hf_loc f) (T "body") = false -> exists l c, (forall h, In h l -> In h fs) /\ fields_code fs = block_app (fields_code l) (block_app (field_code f) c).
  Proof.
    intros fs f H N. apply in_split in H. destruct H as (l & l' & ->). exists l, (fields_code l'). split; [intros h Hh; apply in_or_app; left; exact Hh|]. unfold fields_code. rewrite map_app. cbn [map]. rewrite N.
    induction (map (fun f0 : hfield => if str_eqb (hf_loc f0) (T "body") then Nil else field_code f0) l) as [|x m IH]; [reflexivity|]. cbn [app blocks]. rewrite IH, app_assoc3. reflexivity.
  Qed.
  Lemma parse_tops p x y b : In b (names_in (parse_stmt p x y)) -> b = x \/ b = T "err".
  Proof. assert (F : forall l, In b (named_only l) -> In b l) by (intros l H; apply filter_In in H; apply H). destruct p; cbn [parse_stmt names_in names_of]; intro H; apply F in H; cbn [In] in H; intuition. Qed.
  Lemma convert_tops f b : In b (tops (convert_code f)) -> b = hf_local f \/ b = T "err".
  Proof.
    unfold convert_code. destruct (hf_conv f) as [p| | |[p|] n c].
    - cbn [tops app]. apply parse_tops.
    - intros [].
    - cbn [tops block_of names_in names_of app from_json decode_check]. intros [<-|[]]. left. reflexivity.
    - destruct c; cbn [tops block_of names_in names_of app from_json decode_check]; intros [<-|[]]; left; reflexivity.
    - destruct c; cbn [tops block_of names_in names_of app from_json decode_check]; intros [<-|[]]; left; reflexivity.
  Qed.
  Lemma extract_tops f loc params b : In b (tops (extract_code f loc params)) -> b = hf_local f \/ b = T "err".
  Proof. unfold extract_code. rewrite tops_app. intro H. apply in_app_or in H. destruct H as [H|H]; [destruct (hf_check f); cbn in H; destruct H|exact (convert_tops f b H)]. Qed.
  Lemma field_tops f b : In b (tops (field_code f)) -> In b (Wiring.path_locals f) \/ b = T "err".
  Proof.
    unfold field_code, Wiring.path_locals. destruct (str_eqb (hf_loc f) (T "path")); cbn [tops]; intro H; [|cbn in H; destruct H]. apply in_app_or in H. destruct H as [H|H]; [destruct (extract_tops _ _ _ _ H) as [->|H']; [left; right; left; reflexivity|right; exact H']|].
    cbn [names_in names_of] in H. apply filter_In in H. destruct H as [[<-|[]] _]. left. left. reflexivity.
  Qed.
  Lemma fields_tops fs b : In b (tops (fields_code fs)) -> In b (flat_map Wiring.path_locals fs) \/ b = T "err".
  Proof.
    unfold fields_code. induction fs as [|f fs IH]; [intros []|]. cbn [map blocks flat_map]. rewrite tops_app. intro H. apply in_app_or in H. destruct H as [H|H]; [destruct (IH H) as [K|K]; [left; apply in_or_app; right; exact K|right; exact K]|].
    destruct (str_eqb (hf_loc f) (T "body")); [destruct H|]. destruct (field_tops f b H) as [K|K]; [left; apply in_or_app; left; exact K|right; exact K].
  Qed.
  Lemma head_tops request b : In b (tops (head_code request) ++ [T "r"]) -> In b [T "r"; T "req"; T "buf"; T "err"; T "pathParams"; T "queryParams"].
  Proof. assert (E : tops (head_code request) = [T "queryParams"; T "pathParams"; T "buf"; T "err"; T "req"]) by reflexivity. rewrite E. cbn [app In]. tauto. Qed.
  Lemma list_field f p n c : hf_loc f = T "path" -> hf_conv f = CvRepeated (Some p) n c -> exists value t y no rest,
    field_code f = Cons (Do (SDefine [local f "Str"] value)) (Cons (Do (SVar (hf_local f) t)) (Cons (If SNone (EBin (T ">") (ECall (v "len") [EVar (local f "StrArr")]) (ENum (T "1"))) y no) rest)).
  Proof. intros L Cv. unfold field_code, extract_code, convert_code. rewrite L, Cv. change (str_eqb (T "path") (T "path")) with true. cbv iota. do 5 eexists. reflexivity. Qed.
  (** A list of scalars in the path: its decoder reads xStrArr *)
  Lemma list_in_path : forall request b f p n c, In f (hb_fields b) -> hf_loc f = T "path" -> hf_conv f = CvRepeated (Some p) n c ->
    g (hf_local f ++ T "StrArr") = false -> ~ In (hf_local f ++ T "StrArr") (Wiring.decoder_locals b) -> decoder_ok g (decoder_prog request b) = false.
  Proof.
    intros request b f p n c Hf L Cv G N. destruct (decoder_ok g (decoder_prog request b)) eqn:D; [|reflexivity]. exfalso. unfold decoder_ok, decoder_prog in D. apply andb_true_iff in D. destruct D as [_ D].
    destruct (fields_at (hb_fields b) f Hf) as (l & rest & Hl & E); [rewrite L; reflexivity|]. rewrite E in D. rewrite !app_assoc3 in D. destruct (list_field f p n c L Cv) as (value & t & y & no & r2 & Ef). rewrite Ef in D. cbn [block_app] in D.
    set (s1 := Do (SDefine [local f "Str"] value)) in D. set (s2 := Do (SVar (hf_local f) t)) in D. set (s3 := If SNone _ y no) in D. set (tl := block_app r2 _) in D.
    assert (D' : scope_ok g [T "r"] [] (block_app (block_app (head_code request) (block_app (fields_code l) (block_of [s1; s2]))) (Cons s3 tl)) = true) by (rewrite !app_assoc3; exact D).
    apply scope_at in D'. unfold s3 in D'. rewrite stmt_if in D'. apply andb_true_iff in D'. destruct D' as [D' _]. apply andb_true_iff in D'. destruct D' as [D' _]. apply andb_true_iff in D'. destruct D' as [_ W].
    cbn [e_ok forallb v names_of] in W. apply andb_true_iff in W. destruct W as [W _]. apply andb_true_iff in W. destruct W as [_ W]. apply andb_true_iff in W. destruct W as [W _]. revert W. unfold GoScope.known. change (local f "StrArr") with (hf_local f ++ T "StrArr"). rewrite G. cbn [existsb orb]. rewrite orb_false_r. change (mem (hf_local f ++ T "StrArr") []) with false. cbn [orb].
    intro W. apply PropScope.mem_in in W. rewrite !tops_app in W. apply N. unfold Wiring.decoder_locals. rewrite !in_app_iff. rewrite !in_app_iff in W.
    assert (A : forall z, In z (flat_map Wiring.path_locals l) -> In z (flat_map Wiring.path_locals (hb_fields b))) by (intros z Hz; apply in_flat_map in Hz; destruct Hz as (h & Hh & Hz); apply in_flat_map; exists h; split; [exact (Hl h Hh)|exact Hz]).
    assert (B : forall z, In z (Wiring.path_locals f) -> In z (flat_map Wiring.path_locals (hb_fields b))) by (intros z Hz; apply in_flat_map; exists f; split; assumption).
    destruct W as [[[W|W]|W]|W].
    - right. left. apply B. unfold Wiring.path_locals. rewrite L. change (str_eqb (T "path") (T "path")) with true. cbv iota. cbn [block_of tops app] in W. unfold s1, s2 in W. cbn [names_in names_of app] in W. destruct W as [W|W]; [right; left; exact W|]. apply filter_In in W. destruct W as [[W|[]] _]. left. exact W.
    - destruct (fields_tops l _ W) as [K|K]; [right; left; exact (A _ K)|left; rewrite K; do 3 right; left; reflexivity].
    - left. apply (head_tops request). apply in_or_app. left. exact W.
    - left. apply (head_tops request). apply in_or_app. right. exact W.
  Qed.
  (** ** A line that is no Go *)
  Lemma garbage_extract f loc params top outer rest : hf_conv f = CvGarbage -> scope_ok g top outer (block_app (extract_code f loc params) rest) = false.
  Proof. intro Cv. unfold extract_code, convert_code. rewrite Cv. reflexivity. Qed.
  Lemma garbage_clauses o sc : forall l f, In f l -> hf_conv f = CvGarbage -> clauses_ok g sc (option_clauses o l) = false.
  Proof.
    induction l as [|h l IH]; intros f H Cv; [destruct H|]. cbn [option_clauses]. change (clauses_ok g sc (Case ?e ?b ?cs)) with (e_ok g sc e && scope_ok g [] sc b && clauses_ok g sc cs).
    destruct H as [->|H]; [|rewrite (IH f H Cv), andb_false_r; reflexivity]. rewrite <- (app_nil (extract_code f (hf_loc f) (ho_loc o))), (garbage_extract f _ _ [] sc Nil Cv), andb_false_r. reflexivity.
  Qed.
  Lemma message_option : forall request b o f, In o (hb_oneofs b) -> ho_loc o = T "query" -> In f (ho_options o) -> hf_conv f = CvGarbage -> decoder_ok g (decoder_prog request b) = false.
  Proof.
    intros request b o f Ho L Hf Cv. destruct (decoder_ok g (decoder_prog request b)) eqn:D; [|reflexivity]. exfalso. unfold decoder_ok, decoder_prog in D. apply andb_true_iff in D. destruct D as [_ D].
    assert (E : exists a c, oneofs_code (hb_oneofs b) = block_app a (block_app (oneof_code o) c)).
    { apply in_split in Ho. destruct Ho as (l & l' & ->). exists (oneofs_code l), (oneofs_code l'). unfold oneofs_code. rewrite map_app. cbn [map]. rewrite L. change (str_eqb (T "query") (T "query")) with true. cbv iota.
      induction (map (fun o0 : honeof => if str_eqb (ho_loc o0) (T "query") then oneof_code o0 else Nil) l) as [|x m IH]; [reflexivity|]. cbn [app blocks]. rewrite IH, app_assoc3. reflexivity. }
    destruct E as (a & c & E). rewrite E in D. unfold oneof_code in D. cbn [block_of] in D. set (s1 := If SNone _ _ Nil) in D. set (s0 := Cons (Do _) Nil) in D.
    rewrite !app_assoc3 in D. set (os := blocks (map _ (ho_options o))) in D. cbn [block_app] in D. set (sw := Switch (option_clauses o (ho_options o))) in D.
    match type of D with context [Cons sw ?r] => set (rest := r) in D end.
    assert (D' : scope_ok g [T "r"] [] (block_app (block_app (head_code request) (block_app (fields_code (hb_fields b)) (block_app a (block_app s0 (block_app os (Cons s1 Nil)))))) (Cons sw rest)) = true) by (rewrite !app_assoc3; exact D).
    unfold sw in D'.
    apply scope_at in D'. change (stmt_ok g ?sc (Switch ?cs)) with (clauses_ok g sc cs) in D'. rewrite (garbage_clauses o _ _ f Hf Cv) in D'. discriminate D'.
  Qed.
End Needs.
(** ** For parameters *)
Lemma table_only : forall n, ~ In n go_base_types -> scalar_table n = None.
Proof.
  intros n H. destruct (scalar_table n) as [p|] eqn:E; [|reflexivity]. exfalso. apply H. apply PropScope.mem_in. unfold scalar_table in E.
  repeat match type of E with (if str_eqb n ?t then _ else _) = _ => let X := fresh "X" in destruct (str_eqb n t) eqn:X; [apply str_eqb_eq in X; rewrite X; reflexivity|] end. discriminate E.
Qed.
Lemma field_of_param ms i m sb b p : nth_error (sm_bindings m) i = Some sb -> new_binding ms i m = GoStr.Ret b -> In p (sb_params sb) -> ft_oneof (fd_type (pm_field p)) = None -> ft_name (fd_type (pm_field p)) <> [] -> In (new_hfield (sm_name m) p) (hb_fields b).
Proof.
  intros Nb MB Hp O Ne. destruct (DecoderProto.binding_is ms i m sb b Nb MB) as [E _]. rewrite E. unfold field_loop. apply in_flat_map. exists p. split; [exact Hp|]. rewrite O. assert (X : str_eqb (ft_name (fd_type (pm_field p))) [] = false) by (apply str_eqb_neq; exact Ne). rewrite X. left. reflexivity.
Qed.
Lemma oneof_of_param ms meth : forall ps os p xs, oneof_loop ms meth ps = Ret os -> In p ps -> ft_oneof (fd_type (pm_field p)) = Some xs -> exists o, In o os /\ ho_loc o = pm_loc p /\ new_options ms meth (pm_field p) xs = Ret (ho_options o).
Proof.
  induction ps as [|q ps IH]; intros os p xs H Hp O; [destruct Hp|]. cbn [oneof_loop] in H. destruct Hp as [->|Hp].
  - rewrite O in H. destruct (new_options ms meth (pm_field p) xs) as [ys| |]; try discriminate H. destruct (oneof_loop ms meth ps) as [r| |]; try discriminate H. injection H as <-. eexists. split; [left; reflexivity|]. split; reflexivity.
  - destruct (ft_oneof (fd_type (pm_field q))) as [zs|]; [|exact (IH os p xs H Hp O)]. destruct (new_options ms meth (pm_field q) zs) as [ys| |]; try discriminate H. destruct (oneof_loop ms meth ps) as [r| |] eqn:El; try discriminate H. injection H as <-.
    destruct (IH r p xs eq_refl Hp O) as (o & A & B). exists o. split; [right; exact A|exact B].
Qed.
Lemma option_of ms meth parent : forall os xs o, new_options ms meth parent os = Ret xs -> In o os -> exists f, In f xs /\ new_option ms meth parent o = Ret f.
Proof.
  induction os as [|q os IH]; intros xs o H Ho; [destruct Ho|]. cbn [new_options] in H. destruct (new_option ms meth parent q) as [x| |] eqn:Eq; try discriminate H. destruct (new_options ms meth parent os) as [ys| |] eqn:Es; try discriminate H. injection H as <-.
  destruct Ho as [->|Ho]; [exists x; split; [left; reflexivity|exact Eq]|]. destruct (IH ys o eq_refl Ho) as (f & A & B). exists f. split; [right; exact A|exact B].
Qed.
Lemma list_param : forall g request ms i m sb b p, nth_error (sm_bindings m) i = Some sb -> new_binding ms i m = GoStr.Ret b -> In p (sb_params sb) ->
  pm_loc p = T "path" -> In (ft_name (fd_type (pm_field p))) go_base_types -> ft_array (fd_type (pm_field p)) = true ->
  ft_oneof (fd_type (pm_field p)) = None -> ft_msg (fd_type (pm_field p)) = None -> ft_enum (fd_type (pm_field p)) = None -> ft_map (fd_type (pm_field p)) = None ->
  let x := go_camel_case (fd_name (pm_field p)) ++ go_camel_case (sm_name m) ++ T "StrArr" in
  g x = false -> ~ In x (Wiring.decoder_locals b) -> decoder_ok g (decoder_prog request b) = false.
Proof.
  intros g request ms i m sb b p Nb MB Hp L B A O M E K x G Nx.
  assert (Ne : ft_name (fd_type (pm_field p)) <> []) by (intro Z; rewrite Z in B; cbn [go_base_types In] in B; repeat (destruct B as [B|B]; [discriminate B|]); destruct B).
  pose proof (field_of_param ms i m sb b p Nb MB Hp O Ne) as Hf. destruct (DecodeProofs.table_base _ B) as (q & Q).
  assert (Ex : x = hf_local (new_hfield (sm_name m) p) ++ T "StrArr") by (unfold x, new_hfield; cbn [hf_local]; rewrite app_assoc; reflexivity). rewrite Ex in G, Nx.
  assert (C : contains (ft_name (fd_type (pm_field p))) (T "[]byte") = false) by (cbn [go_base_types In] in B; repeat (destruct B as [<-|B]; [reflexivity|]); destruct B).
  assert (Ba : is_go_base_type (ft_name (fd_type (pm_field p))) = true) by (apply PropScope.mem_in; exact B).
  assert (Cv : exists n c, hf_conv (new_hfield (sm_name m) p) = CvRepeated (Some q) n c).
  { unfold new_hfield, create_decode_convert, field_shape. cbn [hf_conv sh_enum sh_rep sh_base sh_gotype]. rewrite M, E, K, A, Ba, C, Q. cbn [andb negb orb fst]. do 2 eexists. reflexivity. }
  destruct Cv as (n & c & Cv). exact (list_in_path g request b _ q n c Hf L Cv G Nx).
Qed.
Lemma message_param : forall g request ms i m sb b p os o, nth_error (sm_bindings m) i = Some sb -> new_binding ms i m = GoStr.Ret b -> In p (sb_params sb) ->
  pm_loc p = T "query" -> ft_oneof (fd_type (pm_field p)) = Some os -> In o os -> ~ In (ft_name (fd_type o)) go_base_types ->
  ft_enum (fd_type o) = None -> ft_map (fd_type o) = None -> ft_array (fd_type o) = false -> decoder_ok g (decoder_prog request b) = false.
Proof.
  intros g request ms i m sb b p os o Nb MB Hp L O Ho B E K A. destruct (DecoderProto.binding_is ms i m sb b Nb MB) as [_ Eo]. destruct (oneof_of_param _ _ _ _ p os Eo Hp O) as (h & H1 & H2 & H3). destruct (option_of _ _ _ _ _ o H3 Ho) as (f & F1 & F2).
  rewrite L in H2. apply (message_option g request b h f H1 H2 F1). unfold new_option in F2. destruct (ft_msg (fd_type o)); [|discriminate F2]. injection F2 as <-. cbn [hf_conv]. rewrite E, K, A. unfold create_decode_convert. cbn [sh_enum sh_rep sh_base sh_gotype andb negb orb]. rewrite (table_only _ B). reflexivity.
Qed.
