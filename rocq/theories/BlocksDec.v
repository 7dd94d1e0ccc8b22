(** For C93: what a request decoder is made of keeps Go's rules for names (GoBlocks.v). *)
From Coq Require Import String Lia.
From Verif Require Import GoStr GoStrProofs Strs SvcTypes HttpTransport GoLex GoLang DecoderProg GoScope GoBlocks PropBlocks.
From Verif Require PropScope Wiring.
Notation mem_in := PropScope.mem_in. Notation mem_not := PropScope.mem_not.

Section Dec.
  Variable g : str -> bool.
  Hypothesis Hg : forall x, mem x consts = true -> g x = true.
  Notation known := (GoScope.known g).
  Notation scope := (scope_ok g).
  Lemma uses_cons x s b : uses_block x (Cons s b) = uses_stmt x s || (negb (mem x (names_in s)) && uses_block x b). Proof. reflexivity. Qed.
  Lemma stmt_if sc i c y n : stmt_ok g sc (If i c y n) = simple_ok g ([] :: sc) i && new_ok [] i && forallb (fun x => uses_e x c || uses_block x y || uses_block x n) (new_names [] i)
                       && e_ok g (names_of i :: sc) c && scope [] (names_of i :: sc) y && scope [] (names_of i :: sc) n. Proof. reflexivity. Qed.
  Lemma stmt_for sc i v e body : stmt_ok g sc (For i v e body) = e_ok g sc e && distinct (named_only [i; v]) && forallb (fun x => uses_block x body) (named_only [i; v]) && scope [] (named_only [i; v] :: sc) body. Proof. reflexivity. Qed.
  Lemma known_up l sc x : known sc x = true -> known (l :: sc) x = true.
  Proof. unfold GoScope.known. cbn [existsb]. rewrite !orb_true_iff. tauto. Qed.
  Lemma known_here l sc x : In x l -> known (l :: sc) x = true.
  Proof. intro H. apply (PropScope.known_in g _ l); [exact H|left; reflexivity]. Qed.
  (** ** Statements *)
  Lemma r_quiet top outer st b : stmt_ok g (top :: outer) st = true -> names_in st = [] -> top_ok top st = true -> top_names top st = [] -> scope top outer b = true -> scope top outer (Cons st b) = true.
  Proof. intros H1 H2 H3 H4 H5. rewrite scope_cons, H1, H2, H3, H4. cbn [forallb andb app]. exact H5. Qed.
  Lemma named x : x <> T "_" -> named_only [x] = [x].
  Proof. intro H. unfold named_only. cbn [filter]. rewrite (proj2 (str_eqb_neq x (T "_")) H). reflexivity. Qed.
  Lemma named2 x y : x <> T "_" -> y <> T "_" -> named_only [x; y] = [x; y].
  Proof. intros H H'. unfold named_only. cbn [filter]. rewrite (proj2 (str_eqb_neq x (T "_")) H), (proj2 (str_eqb_neq y (T "_")) H'). reflexivity. Qed.
  Lemma r_def1 top outer x e b : x <> T "_" -> ~ In x top -> e_ok g (top :: outer) e = true -> used_in x b = true -> scope (x :: top) outer b = true -> scope top outer (Cons (Do (SDefine [x] e)) b) = true.
  Proof.
    intros H1 H2 H3 H4 H5. rewrite scope_cons. change (stmt_ok g (top :: outer) (Do (SDefine [x] e))) with (e_ok g (top :: outer) e). rewrite H3. cbn [top_ok new_ok top_names new_names names_in names_of]. rewrite (named x H1).
    cbn [existsb distinct mem filter]. rewrite (proj2 (mem_not x top) H2). cbn [negb orb andb forallb app]. rewrite H4. exact H5.
  Qed.
  Lemma r_def2 top outer x y e b : x <> T "_" -> y <> T "_" -> x <> y -> ~ In x top -> e_ok g (top :: outer) e = true -> used_in x b = true -> (In y top \/ used_in y b = true) -> scope (x :: y :: top) outer b = true ->
    scope top outer (Cons (Do (SDefine [x; y] e)) b) = true.
  Proof.
    intros H1 H1' N H2 H3 H4 H4' H5. rewrite scope_cons. change (stmt_ok g (top :: outer) (Do (SDefine [x; y] e))) with (e_ok g (top :: outer) e). rewrite H3. cbn [top_ok new_ok top_names new_names names_in names_of]. rewrite (named2 x y H1 H1').
    assert (D : distinct [x; y] = true) by (unfold distinct, mem; cbn [existsb]; rewrite (proj2 (str_eqb_neq x y) N); reflexivity). rewrite D. cbn [existsb filter]. rewrite (proj2 (mem_not x top) H2). cbn [negb orb andb]. cbn [forallb]. rewrite H4.
    destruct H4' as [H4'|H4']; [rewrite (proj2 (mem_in y top) H4'); cbn [negb forallb andb app]; exact H5|]. destruct (mem y top); cbn [negb forallb andb app]; [exact H5|]. rewrite H4'. exact H5.
  Qed.
  Lemma r_var top outer x t b : ~ In x top -> ty_ok g (top :: outer) t = true -> used_in x b = true -> scope (x :: top) outer b = true -> scope top outer (Cons (Do (SVar x t)) b) = true.
  Proof.
    intros H2 H3 H4 H5. rewrite scope_cons. change (stmt_ok g (top :: outer) (Do (SVar x t))) with (ty_ok g (top :: outer) t). rewrite H3. cbn [top_ok new_ok top_names new_names names_in names_of]. rewrite (proj2 (mem_not x top) H2). cbn [negb andb forallb app]. rewrite H4. exact H5.
  Qed.
  Lemma r_if sc c y n : e_ok g ([] :: sc) c = true -> scope [] ([] :: sc) y = true -> scope [] ([] :: sc) n = true -> stmt_ok g sc (If SNone c y n) = true.
  Proof. intros H1 H2 H3. rewrite stmt_if. change (names_of SNone) with (@nil str). rewrite H1, H2, H3. reflexivity. Qed.
  (** ** Tactics *)
  Ltac inl := solve [repeat first [left; reflexivity | assumption | right]].
  Ltac kn := first [assumption | apply known_here; inl | apply PropScope.known_g; first [assumption | apply Hg; reflexivity] | apply known_up; kn].
  Ltac ek := unfold v, pkg, failed, say; cbn [e_ok forallb simple_ok target_ok ty_ok distinct mem existsb]; repeat (apply andb_true_iff; split); first [reflexivity | kn | apply orb_true_iff; right; kn].
  Lemma dc_ok sc f : known sc (T "err") = true -> known sc (local f "Str") = true -> stmt_ok g sc (decode_check f) = true.
  Proof. intros H1 H2. unfold decode_check. apply r_if; [ek| |reflexivity]. apply r_quiet; try reflexivity. change (stmt_ok g ([] :: [] :: sc) (Do ?s)) with (simple_ok g ([] :: [] :: sc) s). ek. Qed.
  Lemma ec_ok sc f loc params : known sc (T "err") = true -> known sc (params ++ T "Params") = true -> stmt_ok g sc (extract_check f loc params) = true.
  Proof. intros H1 H2. unfold extract_check. apply r_if; [ek| |reflexivity]. apply r_quiet; try reflexivity. change (stmt_ok g ([] :: [] :: sc) (Do ?s)) with (simple_ok g ([] :: [] :: sc) s). ek. Qed.
  Lemma fj_ok sc f t : known sc (T "err") = true -> known sc (local f "Str") = true -> e_ok g sc t = true -> stmt_ok g sc (from_json f t) = true.
  Proof. intros H1 H2 H3. unfold from_json. change (stmt_ok g sc (Do ?s)) with (simple_ok g sc s). unfold v, pkg. cbn [e_ok forallb simple_ok target_ok ty_ok]. rewrite H3. ek. Qed.
  (** ** A conversion and its assignment *)
  Fixpoint tc_ok (t : tconv) : Prop := match t with TcVar | TcAddr => True | TcCast n | TcAddrCast n => g n = true | TcWrap _ m _ y => g m = true /\ tc_ok y end.
  Definition fine (f : hfield) : Prop :=
    hf_local f <> T "_" /\ hf_local f <> T "err" /\ g (hf_gotype f) = true /\ tc_ok (hf_tconv f) /\
    match hf_conv f with CvGarbage => False | CvScalar PCopy => True | CvScalar _ => hf_check f = true | _ => True end.
  Lemma tc_e sc x : known sc x = true -> forall t, tc_ok t -> e_ok g sc (tconv_expr x t) = true.
  Proof.
    intro K. induction t as [|n| |n|a m c y IH]; cbn [tconv_expr tc_ok]; intro H.
    - exact K.
    - cbn [e_ok forallb]. rewrite (PropScope.known_g g sc n H), K. reflexivity.
    - exact K.
    - cbn [e_ok forallb]. rewrite (PropScope.known_g g sc n H), K. reflexivity.
    - destruct H as [H1 H2]. assert (Z : e_ok g sc (ELit (TyName m) [c] [tconv_expr x y]) = true) by (cbn [e_ok ty_ok forallb distinct mem existsb negb]; rewrite (PropScope.known_g g sc m H1), (IH H2); reflexivity).
      destruct a; exact Z.
  Qed.
  Lemma tc_used x t : uses_e x (tconv_expr x t) = true.
  Proof. induction t as [|n| |n|a m c y IH]; cbn [tconv_expr uses_e existsb]; rewrite ?str_eqb_refl, ?orb_true_r; try reflexivity. destruct a; cbn [uses_e existsb]; rewrite IH; reflexivity. Qed.
  Definition tail (f : hfield) (loc params : str) : block :=
    block_of ((if hf_check f then [extract_check f loc params] else []) ++ [Do (SAssign (ESel (v "req") (hf_camel f)) (tconv_expr (hf_local f) (hf_tconv f)))]).
  Lemma tail_used f loc params : used_in (hf_local f) (tail f loc params) = true.
  Proof.
    unfold tail. assert (Z : uses_stmt (hf_local f) (Do (SAssign (ESel (v "req") (hf_camel f)) (tconv_expr (hf_local f) (hf_tconv f)))) = true) by (cbn [uses_stmt uses_simple]; rewrite tc_used; apply orb_true_r).
    destruct (hf_check f); cbn [app block_of used_in]; rewrite Z, ?orb_true_r; reflexivity.
  Qed.
  Lemma tail_err f loc params : hf_check f = true -> used_in (T "err") (tail f loc params) = true.
  Proof. intro E. unfold tail. rewrite E. reflexivity. Qed.
  Lemma tail_quiet sc f loc params : known sc (hf_local f) = true -> known sc (T "err") = true -> known sc (T "req") = true -> known sc (params ++ T "Params") = true -> tc_ok (hf_tconv f) -> quiet g sc (tail f loc params) = true.
  Proof.
    intros H1 H2 H3 H4 H5. unfold tail. assert (Z : quiet g sc (block_of [Do (SAssign (ESel (v "req") (hf_camel f)) (tconv_expr (hf_local f) (hf_tconv f)))]) = true).
    { cbn [block_of quiet]. change (stmt_ok g sc (Do ?s)) with (simple_ok g sc s). cbn [simple_ok target_ok]. rewrite (tc_e sc _ H1 _ H5). unfold v. cbn [e_ok]. rewrite H3. reflexivity. }
    destruct (hf_check f); [|exact Z]. change (stmt_ok g sc (extract_check f loc params) && true && quiet g sc (block_of [Do (SAssign (ESel (v "req") (hf_camel f)) (tconv_expr (hf_local f) (hf_tconv f)))]) = true). rewrite (ec_ok sc f loc params H2 H4), Z. reflexivity.
  Qed.
  Lemma app_nil b : block_app b Nil = b. Proof. induction b as [|s b IH]; [reflexivity|]. cbn [block_app]. rewrite IH. reflexivity. Qed.
  Lemma app_assoc3 a b c : block_app (block_app a b) c = block_app a (block_app b c). Proof. induction a as [|s a IH]; [reflexivity|]. cbn [block_app]. rewrite IH. reflexivity. Qed.
  Lemma elem_known sc f : g (hf_gotype f) = true -> ty_ok g sc (elem_ty f) = true.
  Proof. intro H. unfold elem_ty. destruct (hf_star f); cbn [ty_ok]; apply PropScope.known_g; exact H. Qed.
  Lemma local_ne f s : s <> EmptyString -> local f s <> hf_local f.
  Proof. intros H E. apply (f_equal (@length N)) in E. unfold local in E. rewrite app_length in E. destruct s as [|a s]; [destruct (H eq_refl)|]. change (length (T (String a s))) with (S (length (T s))) in E. lia. Qed.
  Lemma conv_single sc f : known sc (hf_local f) = true -> known sc (T "err") = true -> known sc (local f "Str") = true -> g (hf_gotype f) = true ->
    quiet g sc (block_of [Do (SAssign (EVar (hf_local f)) (let e := ELit (TyName (hf_gotype f)) [] [] in if hf_star f then EAddr e else e)); from_json f (EVar (hf_local f)); decode_check f]) = true.
  Proof.
    intros H1 H2 H3 H4. cbn [block_of quiet]. rewrite (dc_ok sc f H2 H3), (fj_ok sc f (EVar (hf_local f)) H2 H3 H1). unfold from_json. change (stmt_ok g sc (Do ?s)) with (simple_ok g sc s). cbn [simple_ok target_ok]. rewrite H1, orb_true_r.
    destruct (hf_star f); cbn [e_ok ty_ok forallb distinct]; rewrite (PropScope.known_g g sc _ H4); reflexivity.
  Qed.
  Lemma conv_json sc f (check : bool) : known sc (hf_local f) = true -> known sc (T "err") = true -> known sc (local f "Str") = true ->
    quiet g sc (block_of ([from_json f (EAddr (EVar (hf_local f)))] ++ if check then [decode_check f] else [])) = true.
  Proof. intros H1 H2 H3. destruct check; cbn [app block_of quiet]; rewrite ?(dc_ok sc f H2 H3), (fj_ok sc f (EAddr (EVar (hf_local f))) H2 H3 H1); reflexivity. Qed.
  Lemma loop_ok sc f p (narrow : bool) : known sc (hf_local f) = true -> known sc (T "err") = true -> known sc (local f "Str") = true -> known sc (local f "StrArr") = true -> g (hf_gotype f) = true ->
    stmt_ok g sc (For (T "i") (T "v") (EVar (local f "StrArr")) (block_of [parse_stmt p (T "converted") (T "v"); decode_check f; Do (SAssign (EIndex (EVar (hf_local f)) (v "i")) (if narrow then ECall (EVar (hf_gotype f)) [v "converted"] else v "converted"))])) = true.
  Proof.
    intros H1 H2 H3 H4 H5. rewrite stmt_for. cbn [e_ok]. rewrite H4. change (named_only [T "i"; T "v"]) with [T "i"; T "v"]. change (distinct [T "i"; T "v"]) with true. cbn [andb].
    set (b2 := block_of [decode_check f; Do (SAssign (EIndex (EVar (hf_local f)) (v "i")) (if narrow then ECall (EVar (hf_gotype f)) [v "converted"] else v "converted"))]).
    assert (Q : forall top, In (T "converted") top -> scope top ([T "i"; T "v"] :: sc) b2 = true).
    { intros top I. rewrite <- (app_nil b2), quiet_app; [reflexivity|]. unfold b2. cbn [block_of quiet]. rewrite dc_ok; [|kn|kn]. change (stmt_ok g ?s (Do ?t)) with (simple_ok g s t). cbn [simple_ok target_ok]. destruct narrow; ek. }
    assert (U : forallb (fun x => uses_block x (block_of [parse_stmt p (T "converted") (T "v"); decode_check f; Do (SAssign (EIndex (EVar (hf_local f)) (v "i")) (if narrow then ECall (EVar (hf_gotype f)) [v "converted"] else v "converted"))])) [T "i"; T "v"] = true).
    { assert (UI : uses_stmt (T "i") (Do (SAssign (EIndex (EVar (hf_local f)) (v "i")) (if narrow then ECall (EVar (hf_gotype f)) [v "converted"] else v "converted"))) = true).
      { cbn [uses_stmt uses_simple uses_target uses_e v]. change (str_eqb (T "i") (T "i")) with true. rewrite orb_true_r. reflexivity. }
      cbn [forallb block_of]. rewrite !uses_cons, UI. assert (UV : uses_stmt (T "v") (parse_stmt p (T "converted") (T "v")) = true) by (destruct p; reflexivity). rewrite UV.
      assert (NI : mem (T "i") (names_in (parse_stmt p (T "converted") (T "v"))) = false) by (destruct p; reflexivity). rewrite NI. change (names_in (decode_check f)) with (@nil str). cbn [mem existsb negb andb orb]. rewrite !orb_true_r. reflexivity. }
    rewrite U. cbn [andb]. change (scope [] ([T "i"; T "v"] :: sc) (Cons (parse_stmt p (T "converted") (T "v")) b2) = true).
    assert (UC : used_in (T "converted") b2 = true) by (unfold b2; cbn [block_of used_in]; destruct narrow; cbn [uses_stmt uses_simple uses_target uses_e existsb v]; change (str_eqb (T "converted") (T "converted")) with true; rewrite ?orb_true_r; reflexivity).
    assert (UE : used_in (T "err") b2 = true) by reflexivity.
    destruct p as [n|n| |n|]; unfold parse_stmt; try (apply r_def2; [intro X; discriminate X|intro X; discriminate X|intro X; discriminate X|intros []| |exact UC|right; exact UE|apply Q; left; reflexivity]; ek).
    apply r_def1; [intro X; discriminate X|intros []|ek|exact UC|apply Q; left; reflexivity].
  Qed.
  Lemma q_if sc i c y n b : stmt_ok g sc (If i c y n) = true -> quiet g sc b = true -> quiet g sc (Cons (If i c y n) b) = true.
  Proof. intros H1 H2. cbn [quiet]. rewrite H1. exact H2. Qed.
  Lemma extract_ok f loc params top outer rest : fine f -> ~ In (hf_local f) top -> known (top :: outer) (T "err") = true -> known (top :: outer) (T "req") = true -> known (top :: outer) (params ++ T "Params") = true -> known (top :: outer) (local f "Str") = true ->
    (match hf_conv f with CvRepeated (Some _) _ _ => known (top :: outer) (local f "StrArr") = true | _ => True end) ->
    (forall top', incl top top' -> (forall y, In y top' -> In y top \/ y = hf_local f \/ y = T "err") -> scope top' outer rest = true) ->
    scope top outer (block_app (extract_code f loc params) rest) = true.
  Proof.
    intros (N1 & N2 & G & Tc & Cv) NI K1 K2 K3 K4 K5 R. unfold extract_code. change (block_of _) with (tail f loc params) at 1. rewrite app_assoc3.
    assert (KX : forall l x, known (top :: outer) x = true -> known ((l ++ top) :: outer) x = true).
    { intros l x H. unfold GoScope.known in *. cbn [existsb] in *. rewrite !orb_true_iff in *. destruct H as [H|[H|H]]; [left; exact H| |right; right; exact H]. right. left. apply mem_in. apply in_or_app. right. apply mem_in. exact H. }
    assert (KH : forall l, In (hf_local f) l -> known ((l ++ top) :: outer) (hf_local f) = true) by (intros l H; apply known_here; apply in_or_app; left; exact H).
    assert (TQ : forall l, In (hf_local f) l -> quiet g ((l ++ top) :: outer) (tail f loc params) = true).
    { intros l H. apply tail_quiet; [exact (KH l H)|exact (KX l _ K1)|exact (KX l _ K2)|exact (KX l _ K3)|exact Tc]. }
    assert (R1 : scope ([hf_local f] ++ top) outer rest = true) by (apply R; [intros y H; right; exact H|intros y [H|H]; [right; left; symmetry; exact H|left; exact H]]).
    assert (R2 : scope ([hf_local f; T "err"] ++ top) outer rest = true) by (apply R; [intros y H; do 2 right; exact H|intros y [H|[H|H]]; [right; left; symmetry; exact H|right; right; symmetry; exact H|left; exact H]]).
    assert (UX : forall q, used_in (hf_local f) (block_app q (block_app (tail f loc params) rest)) = true) by (intro q; rewrite !used_app, tail_used; cbn [orb]; apply orb_true_r).
    (* var x T, then code that declares nothing *)
    assert (V : forall q t, ty_ok g (top :: outer) t = true -> quiet g (([hf_local f] ++ top) :: outer) q = true -> scope top outer (Cons (Do (SVar (hf_local f) t)) (block_app q (block_app (tail f loc params) rest))) = true).
    { intros q t Ht Q. apply r_var; [exact NI|exact Ht|apply UX|]. rewrite (quiet_app g (hf_local f :: top) outer q _ Q), (quiet_app g (hf_local f :: top) outer _ _ (TQ [hf_local f] (or_introl eq_refl))). exact R1. }
    pose proof (KH [hf_local f] (or_introl eq_refl)) as KL. pose proof (KX [hf_local f] _ K1) as KE. pose proof (KX [hf_local f] _ K4) as KS.
    unfold convert_code. destruct (hf_conv f) as [p| | |e narrow check].
    - cbn [block_app].
      assert (D : forall fn args, e_ok g (top :: outer) (ECall (pkg "strconv" fn) args) = true -> hf_check f = true -> scope top outer (Cons (Do (SDefine [hf_local f; T "err"] (ECall (pkg "strconv" fn) args))) (block_app (tail f loc params) rest)) = true).
      { intros fn args He Hc. apply r_def2; [exact N1|intro X; discriminate X|exact N2|exact NI|exact He|exact (UX Nil)|right; rewrite used_app, (tail_err f loc params Hc); reflexivity|].
        rewrite (quiet_app g (hf_local f :: T "err" :: top) outer _ _ (TQ [hf_local f; T "err"] (or_introl eq_refl))). exact R2. }
      destruct p as [n|n| |n|]; unfold parse_stmt; try (apply D; [ek|exact Cv]).
      apply r_def1; [exact N1|exact NI|exact K4|exact (UX Nil)|]. rewrite (quiet_app g (hf_local f :: top) outer _ _ (TQ [hf_local f] (or_introl eq_refl))). exact R1.
    - destruct Cv.
    - apply (V (block_of [_; _; _])); [exact (elem_known _ f G)|]. apply conv_single; assumption.
    - destruct e as [p|].
      + pose proof (KX [hf_local f] _ K5) as KA. apply (V (block_of ([_] ++ if check then [decode_check f] else []))); [exact (elem_known _ f G)|].
        assert (S : stmt_ok g (([hf_local f] ++ top) :: outer) (If SNone (EBin (T ">") (ECall (v "len") [EVar (local f "StrArr")]) (ENum (T "1")))
          (block_of [Do (SAssign (EVar (hf_local f)) (ECall (v "make") [EType (TySlice (elem_ty f)); ECall (v "len") [EVar (local f "StrArr")]]));
                     For (T "i") (T "v") (EVar (local f "StrArr"))
                       (block_of [parse_stmt p (T "converted") (T "v"); decode_check f;
                                  Do (SAssign (EIndex (EVar (hf_local f)) (v "i")) (if narrow then ECall (EVar (hf_gotype f)) [v "converted"] else v "converted"))])])
          (block_of [from_json f (EAddr (EVar (hf_local f)));
                     If SNone failed (Cons (Do (SAssign (EVar (local f "Str")) (EBin (T "+") (EBin (T "+") (say "[") (EVar (local f "Str"))) (say "]")))) Nil) Nil;
                     from_json f (EAddr (EVar (hf_local f)))])) = true).
        { revert KL KE KS KA. generalize (([hf_local f] ++ top) :: outer). intros sc KL KE KS KA. apply r_if.
          - ek.
          - cbn [block_of]. apply r_quiet; try reflexivity.
            + change (stmt_ok g ([] :: [] :: sc) (Do ?t)) with (simple_ok g ([] :: [] :: sc) t). cbn [simple_ok target_ok e_ok forallb ty_ok v]. rewrite (elem_known _ f G). ek.
            + apply r_quiet; try reflexivity. apply loop_ok; try exact G; kn.
          - cbn [block_of]. apply r_quiet; try reflexivity; [apply fj_ok; [kn|kn|cbn [e_ok]; kn]|]. apply r_quiet; try reflexivity; [|apply r_quiet; try reflexivity; apply fj_ok; [kn|kn|cbn [e_ok]; kn]].
            apply r_if; [ek| |reflexivity]. apply r_quiet; try reflexivity. change (stmt_ok g ([] :: [] :: [] :: [] :: sc) (Do ?t)) with (simple_ok g ([] :: [] :: [] :: [] :: sc) t). ek. }
        apply (fun H => q_if _ _ _ _ _ (if check then Cons (decode_check f) Nil else Nil) H) in S; [destruct check; exact S|]. destruct check; [|reflexivity]. cbn [quiet]. rewrite (dc_ok _ f KE KS). reflexivity.
      + apply (V (block_of ([_] ++ if check then [decode_check f] else []))); [exact (elem_known _ f G)|]. apply conv_json; assumption.
  Qed.
  (** The text of a parameter is used by its conversion *)
  Lemma uses_is x : forall b, uses_block x b = true -> used_in x b = true.
  Proof. induction b as [|s b IH]; intro H; [discriminate H|]. rewrite uses_cons in H. cbn [used_in]. apply orb_true_iff in H. apply orb_true_iff. destruct H as [H|H]; [left; exact H|right]. apply andb_true_iff in H. apply IH. apply H. Qed.
  Lemma uses_block_app x a b : uses_block x a = true -> uses_block x (block_app a b) = true.
  Proof. induction a as [|s a IH]; intro H; [discriminate H|]. cbn [block_app]. rewrite uses_cons in *. apply orb_true_iff in H. apply orb_true_iff. destruct H as [H|H]; [left; exact H|right]. apply andb_true_iff in H. apply andb_true_iff. split; [apply H|apply IH; apply H]. Qed.
  Lemma uses_if x i c y n : uses_stmt x (If i c y n) = uses_simple x i || (negb (mem x (names_of i)) && (uses_e x c || uses_block x y || uses_block x n)). Proof. reflexivity. Qed.
  Lemma fj_uses f t : uses_stmt (local f "Str") (from_json f t) = true.
  Proof. unfold from_json. cbn [uses_stmt uses_simple uses_target uses_e existsb v pkg]. rewrite str_eqb_refl, ?orb_true_r. reflexivity. Qed.
  Lemma str_used f loc params : fine f -> uses_block (local f "Str") (extract_code f loc params) = true.
  Proof.
    intros (_ & _ & _ & _ & Cv). unfold extract_code. apply uses_block_app. unfold convert_code.
    assert (Ne : mem (local f "Str") [hf_local f] = false) by (unfold mem; cbn [existsb]; rewrite (proj2 (str_eqb_neq _ _) (local_ne f "Str" ltac:(discriminate))); reflexivity).
    assert (V : forall t b, uses_block (local f "Str") b = true -> uses_block (local f "Str") (Cons (Do (SVar (hf_local f) t)) b) = true).
    { intros t b H. rewrite uses_cons. change (names_in (Do (SVar (hf_local f) t))) with [hf_local f]. rewrite Ne, H. reflexivity. }
    destruct (hf_conv f) as [p| | |e narrow check].
    - destruct p; cbn [parse_stmt]; rewrite uses_cons; cbn [uses_stmt uses_simple uses_e existsb]; rewrite str_eqb_refl, ?orb_true_r; reflexivity.
    - destruct Cv.
    - apply V. rewrite !uses_cons. rewrite fj_uses. cbn [names_in names_of mem existsb negb andb orb]. rewrite !orb_true_r. reflexivity.
    - destruct e as [p|].
      + apply V. cbn [app block_of]. rewrite uses_cons. apply orb_true_iff. left. rewrite uses_if. change (uses_simple (local f "Str") SNone) with false. change (mem (local f "Str") (names_of SNone)) with false. cbn [negb andb orb].
        apply orb_true_iff. right. rewrite uses_cons. rewrite fj_uses. reflexivity.
      + apply V. cbn [app block_of]. rewrite uses_cons, fj_uses. reflexivity.
  Qed.
  (** ** Fields *)
  Definition head_names : list str := [T "queryParams"; T "pathParams"; T "buf"; T "err"; T "req"; T "r"].
  Definition placed (f : hfield) : Prop := hf_loc f = T "body" \/ fine f /\ (hf_loc f = T "query" \/ hf_loc f = T "path" /\ match hf_conv f with CvRepeated (Some _) _ _ => False | _ => True end).
  Lemma head_known top x : incl head_names top -> In x head_names -> known [top] x = true.
  Proof. intros H I. apply known_here. apply H. exact I. Qed.
  Lemma long_ne f s w : (length (T w) < length (T s))%nat -> local f s <> T w.
  Proof. intros H E. apply (f_equal (@length N)) in E. unfold local in E. rewrite app_length in E. lia. Qed.
  Ltac hn := solve [unfold head_names; repeat first [left; reflexivity | right]].
  Lemma field_is_ok f top rest : placed f -> incl head_names top -> NoDup (Wiring.path_locals f) -> (forall y, In y (Wiring.path_locals f) -> ~ In y top) ->
    (forall top', incl top top' -> (forall y, In y top' -> In y top \/ In y (Wiring.path_locals f)) -> scope top' [] rest = true) ->
    scope top [] (block_app (if str_eqb (hf_loc f) (T "body") then Nil else field_code f) rest) = true.
  Proof.
    intros [L|[F L]] H D NI R.
    - rewrite L. change (str_eqb (T "body") (T "body")) with true. cbn [block_app]. apply R; [intros y Hy; exact Hy|intros y Hy; left; exact Hy].
    - unfold field_code, Wiring.path_locals in *. destruct L as [L|[L Cv]]; rewrite L in *; revert D NI R.
      + change (str_eqb (T "query") (T "body")) with false. change (str_eqb (T "query") (T "path")) with false. intros D NI R. cbn [block_app]. apply r_quiet; try reflexivity; [|apply R; [intros y Hy; exact Hy|intros y Hy; left; exact Hy]].
        rewrite stmt_if. assert (NO : local f "StrArr" <> T "ok") by (apply long_ne; apply Nat.leb_le; reflexivity).
        assert (E1 : named_only [local f "StrArr"; T "ok"] = [local f "StrArr"; T "ok"]) by (apply named2; [apply long_ne; apply Nat.leb_le; reflexivity|intro X; discriminate X]).
        assert (E2 : distinct [local f "StrArr"; T "ok"] = true) by (unfold distinct, mem; cbn [existsb]; rewrite (proj2 (str_eqb_neq _ _) NO); reflexivity).
        cbn [new_names new_ok names_of simple_ok]. rewrite E1. cbn [filter mem existsb negb]. rewrite E2. cbn [orb andb].
        assert (EV : e_ok g ([] :: [top]) (EIndex (EVar (T "query" ++ T "Params")) (EStr (hf_query f))) = true) by exact (f_equal (fun z => z && true) (known_up [] [top] (T "queryParams") (head_known top (T "queryParams") H ltac:(hn)))). rewrite EV.
        assert (KOK : e_ok g ([local f "StrArr"; T "ok"] :: [top]) (v "ok") = true) by (apply known_here; right; left; reflexivity). rewrite KOK.
        assert (U1 : uses_block (local f "StrArr") (Cons (Do (SDefine [local f "Str"] (EIndex (EVar (local f "StrArr")) (ENum (T "0"))))) (extract_code f (T "query") (T "query"))) = true) by (rewrite uses_cons; cbn [uses_stmt uses_simple uses_e]; rewrite str_eqb_refl; reflexivity).
        cbn [forallb]. rewrite U1, orb_true_r. change (uses_e (T "ok") (v "ok")) with true. cbn [orb andb]. rewrite andb_true_r.
        apply r_def1; [apply long_ne; apply Nat.leb_le; reflexivity|intros []|apply andb_true_iff; split; [apply known_up, known_here; left; reflexivity|reflexivity]|apply uses_is, str_used; exact F|].
        rewrite <- (app_nil (extract_code f (T "query") (T "query"))).
        assert (KT : forall x, In x head_names -> known ([local f "Str"] :: [local f "StrArr"; T "ok"] :: [top]) x = true) by (intros x Hx; apply known_up, known_up, head_known; assumption).
        apply extract_ok; [exact F|intros [X|[]]; exact (local_ne f "Str" ltac:(discriminate) X)|apply KT; hn|apply KT; hn|apply KT; hn|apply known_here; left; reflexivity| |reflexivity].
        destruct (hf_conv f) as [| | |[?|]]; try exact I. apply known_up, known_here. left. reflexivity.
      + change (str_eqb (T "path") (T "body")) with false. change (str_eqb (T "path") (T "path")) with true. intros D NI R. cbn [block_app].
        assert (NS : ~ In (local f "Str") top) by (apply NI; left; reflexivity). assert (NX : ~ In (hf_local f) top) by (apply NI; right; left; reflexivity).
        apply r_def1; [apply long_ne; apply Nat.leb_le; reflexivity|exact NS|exact (f_equal (fun z => z && true) (head_known top (T "pathParams") H ltac:(hn)))|apply uses_is, uses_block_app, str_used; exact F|].
        assert (KT : forall x, In x head_names -> known [local f "Str" :: top] x = true) by (intros x Hx; apply known_here; right; apply H; exact Hx).
        apply extract_ok; [exact F|intros [X|X]; [exact (local_ne f "Str" ltac:(discriminate) X)|exact (NX X)]|apply KT; hn|apply KT; hn|apply KT; hn|apply known_here; left; reflexivity| |].
        * destruct (hf_conv f) as [| | |[?|]]; try exact I. destruct Cv.
        * intros top' I1 I2. apply R; [intros y Hy; apply I1; right; exact Hy|]. intros y Hy. destruct (I2 y Hy) as [[<-|K]|[->| ->]]; [right; left; reflexivity|left; exact K|right; right; left; reflexivity|left; apply H; hn].
  Qed.
  Lemma nodup_app {A} (a b : list A) : NoDup (a ++ b) -> NoDup a /\ NoDup b /\ forall x, In x a -> ~ In x b.
  Proof. induction a as [|x a IH]; cbn [app]; intro H; [split; [constructor|]; split; [exact H|intros x []]|]. inversion H as [|? ? N D]; subst. destruct (IH D) as (A1 & A2 & A3). split; [constructor; [intro I; apply N; apply in_or_app; left; exact I|exact A1]|]. split; [exact A2|]. intros y [<-|Hy]; [intro I; apply N; apply in_or_app; right; exact I|exact (A3 y Hy)]. Qed.
  (** Pieces of code one after the other, each with its own names at the top of the function *)
  Lemma pieces_ok {A} (code : A -> block) (locals : A -> list str) (good : A -> Prop) :
    (forall a top rest, good a -> incl head_names top -> NoDup (locals a) -> (forall y, In y (locals a) -> ~ In y top) ->
      (forall top', incl top top' -> (forall y, In y top' -> In y top \/ In y (locals a)) -> scope top' [] rest = true) -> scope top [] (block_app (code a) rest) = true) ->
    forall l top rest, (forall a, In a l -> good a) -> incl head_names top -> NoDup (flat_map locals l) -> (forall y, In y (flat_map locals l) -> ~ In y top) ->
      (forall top', incl top top' -> (forall y, In y top' -> In y top \/ In y (flat_map locals l)) -> scope top' [] rest = true) -> scope top [] (block_app (blocks (map code l)) rest) = true.
  Proof.
    intro One. induction l as [|a l IH]; intros top rest Hg' H D NI R; [apply R; [intros y Hy; exact Hy|intros y Hy; left; exact Hy]|]. cbn [map blocks flat_map] in *. rewrite app_assoc3. destruct (nodup_app _ _ D) as (D1 & D2 & D3).
    apply One; [apply Hg'; left; reflexivity|exact H|exact D1|intros y Hy; apply NI; apply in_or_app; left; exact Hy|]. intros top' I1 I2.
    apply IH; [intros b Hb; apply Hg'; right; exact Hb|intros y Hy; apply I1, H, Hy|exact D2| |].
    - intros y Hy Ht. destruct (I2 y Ht) as [K|K]; [exact (NI y (in_or_app _ _ _ (or_intror Hy)) K)|exact (D3 y K Hy)].
    - intros top2 J1 J2. apply R; [intros y Hy; apply J1, I1, Hy|]. intros y Hy. rewrite in_app_iff. destruct (J2 y Hy) as [K|K]; [destruct (I2 y K) as [K'|K']; auto|auto].
  Qed.
  Lemma fields_ok fs top rest : (forall f, In f fs -> placed f) -> incl head_names top -> NoDup (flat_map Wiring.path_locals fs) -> (forall y, In y (flat_map Wiring.path_locals fs) -> ~ In y top) ->
    (forall top', incl top top' -> (forall y, In y top' -> In y top \/ In y (flat_map Wiring.path_locals fs)) -> scope top' [] rest = true) -> scope top [] (block_app (fields_code fs) rest) = true.
  Proof. unfold fields_code. apply (pieces_ok (fun f => if str_eqb (hf_loc f) (T "body") then Nil else field_code f) Wiring.path_locals placed). intros a t r. apply field_is_ok. Qed.
  (** ** Oneofs *)
  Definition count (o : honeof) : str := ho_name o ++ T "CountSet".
  Lemma option_ok o f top rest : ho_loc o = T "query" -> NoDup (Wiring.option_locals f) -> (forall y, In y (Wiring.option_locals f) -> ~ In y top) -> known [top] (T "queryParams") = true -> known [top] (count o) = true ->
    used_in (local f "Str") rest = true -> scope ([local f "StrArr"; local f "OK"; local f "Str"] ++ top) [] rest = true -> scope top [] (block_app (option_code o f) rest) = true.
  Proof.
    intros L D NI K1 K2 U R. unfold Wiring.option_locals in *. inversion D as [|? ? D1 D2]; subst. inversion D2 as [|? ? D3 _]; subst.
    assert (NE : forall s w, (length (T w) < length (T s))%nat -> local f s <> T w) by (intros s w; apply long_ne).
    unfold option_code. cbn [block_of block_app]. apply r_var; [apply NI; left; reflexivity|apply PropScope.known_g, Hg; reflexivity| |].
    - cbn [used_in]. rewrite U, !orb_true_r. reflexivity.
    - apply r_def2; [apply NE; apply Nat.leb_le; reflexivity|apply NE; apply Nat.leb_le; reflexivity|intro E; apply D3; left; symmetry; exact E| | | | |].
      + intros [E|E]; [apply D1; left; symmetry; exact E|exact (NI (local f "StrArr") ltac:(right; left; reflexivity) E)].
      + rewrite L. apply andb_true_iff; split; [|reflexivity]. change (known [local f "Str" :: top] (T "queryParams") = true). revert K1. unfold GoScope.known. cbn [existsb]. unfold mem. cbn [existsb]. rewrite !orb_true_iff. tauto.
      + cbn [used_in]. apply orb_true_iff. left. rewrite uses_if. change (mem (local f "StrArr") (names_of SNone)) with false. cbn [negb andb block_of]. rewrite uses_cons. cbn [uses_stmt uses_simple uses_target uses_e]. rewrite str_eqb_refl. cbn [orb]. rewrite !orb_true_r. reflexivity.
      + right. cbn [used_in]. apply orb_true_iff. left. rewrite uses_if. change (mem (local f "OK") (names_of SNone)) with false. cbn [negb andb uses_e]. rewrite str_eqb_refl. cbn [orb]. rewrite !orb_true_r. reflexivity.
      + apply r_quiet; try reflexivity; [|exact R]. set (t3 := local f "StrArr" :: local f "OK" :: local f "Str" :: top).
        assert (A1 : known [t3] (local f "StrArr") = true) by (apply known_here; left; reflexivity). assert (A2 : known [t3] (local f "OK") = true) by (apply known_here; right; left; reflexivity). assert (A3 : known [t3] (local f "Str") = true) by (apply known_here; do 2 right; left; reflexivity).
        assert (A4 : known [t3] (count o) = true) by (revert K2; unfold GoScope.known, t3; cbn [existsb]; unfold mem; cbn [existsb]; rewrite !orb_true_iff; tauto).
        apply r_if; [exact (known_up [] _ _ A2)| |reflexivity]. cbn [block_of]. apply r_quiet; try reflexivity; [|apply r_quiet; try reflexivity; change (known ([] :: [] :: [t3]) (count o) = true); kn].
        change (stmt_ok g ([] :: [] :: [t3]) (Do ?s)) with (simple_ok g ([] :: [] :: [t3]) s). ek.
  Qed.
  Lemma clause_uses o f : fine f -> forall l, In f l -> uses_clauses (local f "Str") (option_clauses o l) = true.
  Proof.
    intros F. induction l as [|h l IH]; intros []; [subst h|]; cbn [option_clauses].
    - change (uses_e (local f "Str") (EVar (local f "OK")) || uses_block (local f "Str") (extract_code f (hf_loc f) (ho_loc o)) || uses_clauses (local f "Str") (option_clauses o l) = true). rewrite (str_used f _ _ F), orb_true_r. reflexivity.
    - match goal with |- _ = true => change (uses_e (local f "Str") (EVar (local h "OK")) || uses_block (local f "Str") (extract_code h (hf_loc h) (ho_loc o)) || uses_clauses (local f "Str") (option_clauses o l) = true) end. rewrite (IH ltac:(assumption)), orb_true_r. reflexivity.
  Qed.
  Lemma clauses_are_ok o top : ho_loc o = T "query" -> incl head_names top -> forall l, (forall f, In f l -> fine f /\ incl (Wiring.option_locals f) top) -> clauses_ok g [top] (option_clauses o l) = true.
  Proof.
    intros L H. induction l as [|f l IH]; intro A; [reflexivity|]. cbn [option_clauses]. rewrite L. destruct (A f (or_introl eq_refl)) as [F I].
    change (known [top] (local f "OK") && scope [] [top] (extract_code f (hf_loc f) (T "query")) && clauses_ok g [top] (option_clauses o l) = true). rewrite (IH (fun h Hh => A h (or_intror Hh))).
    assert (KT : forall x, In x top -> known ([] :: [top]) x = true) by (intros x Hx; apply known_up, known_here; exact Hx).
    rewrite (known_here top [] (local f "OK")); [|apply I; do 2 right; left; reflexivity]. rewrite <- (app_nil (extract_code f (hf_loc f) (T "query"))). rewrite extract_ok; [reflexivity|exact F|intros []|apply KT, H; hn|apply KT, H; hn|apply KT, H; hn|apply KT, I; left; reflexivity| |reflexivity].
    destruct (hf_conv f) as [| | |[?|]]; try exact Logic.I. apply KT, I. right. left. reflexivity.
  Qed.
  Definition oneof_fine (o : honeof) : Prop := ho_loc o = T "query" -> forall f, In f (ho_options o) -> fine f.
  Lemma options_ok o rest : ho_loc o = T "query" -> forall l top, incl head_names top -> In (count o) top -> NoDup (flat_map Wiring.option_locals l) -> (forall y, In y (flat_map Wiring.option_locals l) -> ~ In y top) ->
    (forall f, In f l -> used_in (local f "Str") rest = true) ->
    (forall top', incl top top' -> incl (flat_map Wiring.option_locals l) top' -> (forall y, In y top' -> In y top \/ In y (flat_map Wiring.option_locals l)) -> scope top' [] rest = true) ->
    scope top [] (block_app (blocks (map (option_code o) l)) rest) = true.
  Proof.
    intro L. induction l as [|f l IH]; intros top H C D NI U R; [apply R; [intros y Hy; exact Hy|intros y []|intros y Hy; left; exact Hy]|]. cbn [map blocks flat_map] in *. rewrite app_assoc3. destruct (nodup_app _ _ D) as (D1 & D2 & D3).
    assert (S : forall y, In y ([local f "StrArr"; local f "OK"; local f "Str"] ++ top) <-> In y (Wiring.option_locals f) \/ In y top) by (intro y; unfold Wiring.option_locals, local; rewrite in_app_iff; cbn [In]; tauto).
    apply option_ok; [exact L|exact D1|intros y Hy; apply NI; apply in_or_app; left; exact Hy|apply head_known; [exact H|hn]|apply known_here; exact C|rewrite used_app, (U f (or_introl eq_refl)); apply orb_true_r|].
    apply IH; [intros y Hy; apply S; right; apply H; exact Hy|apply S; right; exact C|exact D2| |intros h Hh; apply U; right; exact Hh|].
    - intros y Hy K. apply S in K. destruct K as [K|K]; [exact (D3 y K Hy)|exact (NI y (in_or_app _ _ _ (or_intror Hy)) K)].
    - intros top' I1 I2 I3. apply R.
      + intros y Hy. apply I1, S. right. exact Hy.
      + intros y Hy. apply in_app_or in Hy. destruct Hy as [Hy|Hy]; [apply I1, S; left; exact Hy|exact (I2 y Hy)].
      + intros y Hy. rewrite in_app_iff. destruct (I3 y Hy) as [K|K]; [apply S in K; tauto|tauto].
  Qed.
  Lemma oneof_is_ok o top rest : oneof_fine o -> incl head_names top -> NoDup (Wiring.oneof_locals o) -> (forall y, In y (Wiring.oneof_locals o) -> ~ In y top) ->
    (forall top', incl top top' -> (forall y, In y top' -> In y top \/ In y (Wiring.oneof_locals o)) -> scope top' [] rest = true) ->
    scope top [] (block_app (if str_eqb (ho_loc o) (T "query") then oneof_code o else Nil) rest) = true.
  Proof.
    intros F H D NI R. unfold Wiring.oneof_locals in *. destruct (str_eqb (ho_loc o) (T "query")) eqn:L; [|apply R; [intros y Hy; exact Hy|intros y Hy; left; exact Hy]]. apply str_eqb_eq in L. pose proof (F L) as FF. inversion D as [|? ? D1 D2]; subst.
    unfold oneof_code. cbn [block_app]. fold (count o) in *.
    set (fin := block_of [If SNone (EBin (T ">") (EVar (count o)) (ENum (T "1"))) (block_of [Do (SReturn [v "nil"; ECall (pkg "errors" "Errorf") [EStr (only_one o)]])]) Nil; Switch (option_clauses o (ho_options o))]).
    assert (UC : used_in (count o) fin = true) by (unfold fin; cbn [block_of used_in]; apply orb_true_iff; left; rewrite uses_if; change (mem (count o) (names_of SNone)) with false; cbn [negb andb uses_e]; rewrite str_eqb_refl; cbn [orb]; apply orb_true_r).
    rewrite app_assoc3. apply r_def1.
    - intro E. apply (f_equal (@length N)) in E. unfold count in E. rewrite app_length in E. change (length (T "CountSet")) with 8%nat in E. change (length (T "_")) with 1%nat in E. lia.
    - apply NI. left. reflexivity.
    - reflexivity.
    - rewrite !used_app, UC. cbn [orb]. apply orb_true_r.
    - apply (options_ok o (block_app fin rest) L (ho_options o) (count o :: top)); [intros y Hy; right; apply H; exact Hy|left; reflexivity|exact D2| | |].
      + intros y Hy [E|E]; [subst y; exact (D1 Hy)|exact (NI y (or_intror Hy) E)].
      + intros f Hf. rewrite used_app. apply orb_true_iff. left. unfold fin. cbn [block_of used_in]. apply orb_true_iff. right. change (uses_stmt (local f "Str") (Switch (option_clauses o (ho_options o)))) with (uses_clauses (local f "Str") (option_clauses o (ho_options o))). rewrite (clause_uses o f (FF f Hf) _ Hf). reflexivity.
      + intros top' I1 I2 I3. unfold fin. cbn [block_of block_app]. apply r_quiet; try reflexivity; [|apply r_quiet; try reflexivity].
        * apply r_if; [|apply r_quiet; try reflexivity|reflexivity].
          -- assert (A : known [top'] (count o) = true) by (apply known_here, I1; left; reflexivity). ek.
          -- change (stmt_ok g ([] :: [] :: [top']) (Do ?s)) with (simple_ok g ([] :: [] :: [top']) s). ek.
        * change (clauses_ok g [top'] (option_clauses o (ho_options o)) = true). apply clauses_are_ok; [exact L|intros y Hy; apply I1; right; apply H; exact Hy|]. intros f Hf. split; [exact (FF f Hf)|]. intros y Hy. apply I2. apply in_flat_map. exists f. split; assumption.
        * apply R; [intros y Hy; apply I1; right; exact Hy|]. intros y Hy. destruct (I3 y Hy) as [[E|K]|K]; [right; left; exact E|left; exact K|right; right; exact K].
  Qed.
  Lemma oneofs_ok os top rest : (forall o, In o os -> oneof_fine o) -> incl head_names top -> NoDup (flat_map Wiring.oneof_locals os) -> (forall y, In y (flat_map Wiring.oneof_locals os) -> ~ In y top) ->
    (forall top', incl top top' -> (forall y, In y top' -> In y top \/ In y (flat_map Wiring.oneof_locals os)) -> scope top' [] rest = true) -> scope top [] (block_app (oneofs_code os) rest) = true.
  Proof. unfold oneofs_code. apply (pieces_ok (fun o => if str_eqb (ho_loc o) (T "query") then oneof_code o else Nil) Wiring.oneof_locals oneof_fine). intros a t r. apply oneof_is_ok. Qed.
  (** ** A decoder *)
  Ltac look := repeat match goal with |- context [g ?x] => first [rewrite (Hg x eq_refl) | match goal with H : g _ = true |- _ => rewrite (H : g x = true) end] end.
  Lemma head_ok request rest : g request = true -> scope head_names [] rest = true -> scope [T "r"] [] (block_app (head_code request) rest) = true.
  Proof. intros Hr R. unfold head_code. clear - Hg Hr R. cbv in R |- *. rewrite ?either. look. exact R. Qed.
  Lemma decoder_is_ok request b : g request = true -> NoDup (Wiring.decoder_locals b) -> (forall f, In f (hb_fields b) -> placed f) -> (forall o, In o (hb_oneofs b) -> oneof_fine o) -> decoder_ok g (decoder_prog request b) = true.
  Proof.
    intros Hr D F O. unfold decoder_ok, decoder_prog. apply andb_true_iff. split; [cbn [forallb]; rewrite !Hg by reflexivity; reflexivity|]. apply head_ok; [exact Hr|].
    unfold Wiring.decoder_locals in D. destruct (nodup_app _ _ D) as (_ & D2 & D3). destruct (nodup_app _ _ D2) as (D4 & D5 & D6).
    assert (HH : forall y, In y head_names -> In y [T "r"; T "req"; T "buf"; T "err"; T "pathParams"; T "queryParams"]) by (intros y; unfold head_names; cbn [In]; tauto).
    apply fields_ok; [exact F|intros y Hy; exact Hy|exact D4|intros y Hy K; exact (D3 y (HH y K) (in_or_app _ _ _ (or_introl Hy)))|]. intros top I1 I2.
    apply oneofs_ok; [exact O|exact I1|exact D5|intros y Hy K; destruct (I2 y K) as [K'|K']; [exact (D3 y (HH y K') (in_or_app _ _ _ (or_intror Hy)))|exact (D6 y K' Hy)]|]. intros top' J1 _.
    cbn [block_of]. apply r_quiet; try reflexivity. assert (A : forall y, In y head_names -> known [top'] y = true) by (intros y Hy; apply known_here, J1, I1, Hy).
    change (stmt_ok g [top'] (Do ?s)) with (simple_ok g [top'] s). pose proof (A (T "req") ltac:(hn)). pose proof (A (T "err") ltac:(hn)). ek.
  Qed.
End Dec.
