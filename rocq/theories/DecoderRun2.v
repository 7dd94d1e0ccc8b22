(** Running the tree of a generated request decoder: its fields, its oneofs and its whole body. *)
From Coq Require Import String Lia.
From Verif Require Import GoStr GoStrProofs GoMap Strs HttpTransport Url GenHttp GoLex GoLang GoLangProofs DecoderProg DecoderText DecoderRun.
From Verif Require Wiring.

Definition head_names : list str := [T "r"; T "req"; T "buf"; T "err"; T "pathParams"; T "queryParams"].
(** A place that is converted: names start with an upper case letter, nothing is to be unquoted, and the type is no variable. *)
Definition well_made (vs : list str) (f : hfield) : Prop :=
  cap (hf_local f) = true /\ regular f /\ type_name (hf_gotype f) /\ fits f /\ contains1 (hf_query f) c_backslash = false /\
  ~ In (hf_gotype f) (hf_local f :: local f "Str" :: local f "StrArr" :: vs).
Lemma in_eqb a b l : ~ In a (b :: l) -> str_eqb a b = false. Proof. intro H. apply neq_eqb. intros ->. apply H. left. reflexivity. Qed.
Lemma in_top_one e y : tl e = [] -> in_top e y = match look e y with Some _ => true | None => false end.
Proof. destruct e as [|sc [|]]; [reflexivity| |discriminate]. intros _. cbn [in_top look]. destruct (find_in sc y); reflexivity. Qed.
Lemma look_two sc e y : look (sc :: e) y = match find_in sc y with Some d => Some d | None => look e y end. Proof. reflexivity. Qed.

Lemma NoDup_app_in {A} (a b : list A) : NoDup (a ++ b) -> (forall x, In x a -> ~ In x b) /\ NoDup a /\ NoDup b.
Proof.
  induction a as [|z a IH]; intro H; [split; [intros x []|split; [constructor|exact H]]|]. inversion H as [|? ? H1 H2]; subst. destruct (IH H2) as (I1 & I2 & I3). split; [|split; [|exact I3]].
  - intros x [<-|I]; [intro J; apply H1; apply in_or_app; right; exact J|apply I1; exact I].
  - constructor; [intro J; apply H1; apply in_or_app; left; exact J|exact I2].
Qed.

Section Run.
  Variable K : codecs.
  Variable zero : request.
  Variable request_type : str.
  Variable vars : gomap str.
  Variable query : values.
  Variable body : option str.
  Notation eval := (GoLang.eval K zero request_type vars query body).
  Notation exec := (GoLang.exec K zero request_type vars query body).
  Notation exec_block := (GoLang.exec_block K zero request_type vars query body).
  Notation exec_clauses := (GoLang.exec_clauses K zero request_type vars query body).
  Notation run_simple := (GoLang.run_simple K zero request_type vars query body).
  Hypothesis Hq : forall k l, mget query k = Some l -> l <> [].

  (** The variables at the top of the function, after those of [L] have been declared. *)
  Record state (L : list str) (e : env) (r : request) (err : bool) : Prop := mkState {
    s_some : e <> [];
    s_one : tl e = [];
    s_err : exists t, look e (T "err") = Some (t, VErr err);
    s_req : exists t, look e (T "req") = Some (t, VReq r);
    s_path : exists t, look e (T "pathParams") = Some (t, VVars vars);
    s_query : exists t, look e (T "queryParams") = Some (t, VQuery query);
    s_dom : forall y, look e y <> None -> In y head_names \/ In y L }.
  Definition caps (L : list str) : Prop := forall y, In y L -> cap y = true.
  Lemma state_free L e r err y : state L e r err -> ~ In y head_names -> ~ In y L -> look e y = None.
  Proof. intros S A B. destruct (look e y) eqn:E; [|reflexivity]. destruct (s_dom _ _ _ _ S y); [rewrite E; discriminate|contradiction|contradiction]. Qed.
  Lemma cap_head y : cap y = true -> ~ In y head_names.
  Proof. intros C H. cbn [head_names In] in H. repeat (destruct H as [<-|H]; [discriminate|]). destruct H. Qed.
  Lemma type_head g : type_name g -> ~ In g head_names.
  Proof.
    intros [H|H]; [|apply cap_head; exact H]. intro A. cbn [go_base_types In] in H. cbn [head_names In] in A.
    repeat (destruct H as [<-|H]; [repeat (destruct A as [A|A]; [discriminate|]); exact A|]). exact H.
  Qed.
  Lemma state_quiet L e r err : state L e r err -> caps L -> quiet e.
  Proof.
    intros S C n Hn. eapply state_free; [exact S| |].
    - intro A. cbn [library map In] in Hn. cbn [head_names In] in A. repeat (destruct Hn as [<-|Hn]; [repeat (destruct A as [A|A]; [discriminate|]); exact A|]). exact Hn.
    - intro A. apply C in A. cbn [library map In] in Hn. repeat (destruct Hn as [<-|Hn]; [discriminate|]). exact Hn.
  Qed.
  Lemma state_fresh L e r err y : state L e r err -> cap y = true -> ~ In y L -> look e y = None /\ in_top e y = false.
  Proof. intros S C N. assert (E : look e y = None) by (eapply state_free; [exact S|apply cap_head; exact C|exact N]). split; [exact E|]. rewrite in_top_one by exact (s_one _ _ _ _ S). rewrite E. reflexivity. Qed.
  Lemma state_more L L' e r err : state L e r err -> (forall y, In y L -> In y L') -> state L' e r err.
  Proof. intros [A B C D P Q R] H. split; try assumption. intros y Y. destruct (R y Y); auto. Qed.
  Lemma state_declare L e r err y t w : state L e r err -> cap y = true -> state (y :: L) (declare e y t w) r err.
  Proof.
    intros [A B (t1 & C) (t2 & D) (t3 & P) (t4 & Q) R] Cy. split; [apply declare_nonempty|rewrite tl_declare by exact A; exact B| | | | |].
    - exists t1. lk.
    - exists t2. lk.
    - exists t3. lk.
    - exists t4. lk.
    - intros z Z. rewrite look_declare in Z. destruct (str_eqb z y) eqn:E; [apply str_eqb_eq in E; subst z; right; left; reflexivity|]. destruct (R z Z) as [H|H]; [left; exact H|right; right; exact H].
  Qed.
  Lemma state_set L e r err y w : state L e r err -> cap y = true -> state L (set e y w) r err.
  Proof.
    intros [A B (t1 & C) (t2 & D) (t3 & P) (t4 & Q) R] Cy. split; [apply set_nonempty; exact A| | | | | |].
    - destruct e as [|sc [|]]; [destruct (A eq_refl)| |discriminate]. cbn [set]. destruct (find_in sc y); reflexivity.
    - exists t1. rewrite look_set. eqs. exact C.
    - exists t2. rewrite look_set. eqs. exact D.
    - exists t3. rewrite look_set. eqs. exact P.
    - exists t4. rewrite look_set. eqs. exact Q.
    - intros z Z. apply R. rewrite look_set in Z. destruct (str_eqb z y) eqn:E; [|exact Z]. apply str_eqb_eq in E. subst z. destruct (look e y) as [[? ?]|]; [discriminate|exact Z].
  Qed.
  Lemma state_result L e r err r' err' : state L e r err -> state L (set (set e (T "err") (VErr err')) (T "req") (VReq r')) r' err'.
  Proof.
    intros [A B (t1 & C) (t2 & D) (t3 & P) (t4 & Q) R].
    assert (D' : look (set e (T "err") (VErr err')) (T "req") = Some (t2, VReq r)) by (rewrite look_set; exact D).
    split; [apply set_nonempty, set_nonempty; exact A| | | | | |].
    - destruct e as [|sc [|]]; [destruct (A eq_refl)| |discriminate]. cbn [set]. destruct (find_in sc (T "err")); cbn [set]; [destruct (find_in (set_in _ _ _) _)|destruct (find_in sc (T "req"))]; reflexivity.
    - exists t1. rewrite look_set. change (str_eqb (T "err") (T "req")) with false. cbn iota. rewrite look_set, str_eqb_refl, C. reflexivity.
    - exists t2. rewrite look_set, str_eqb_refl, D'. reflexivity.
    - exists t3. rewrite !look_set. exact P.
    - exists t4. rewrite !look_set. exact Q.
    - intros z Z. apply R. rewrite look_set in Z. destruct (str_eqb z (T "req")) eqn:E; [apply str_eqb_eq in E; subst z; rewrite D; discriminate|]. rewrite look_set in Z.
      destruct (str_eqb z (T "err")) eqn:E2; [apply str_eqb_eq in E2; subst z; rewrite C; discriminate|exact Z].
  Qed.
  (** The result of a part of the function, and what the specification says *)
  Definition agrees (L : list str) (d : dres) (x : res) : Prop :=
    match d with
    | DOk r err => exists e, x = Next e /\ state L e r err
    | DErr => exists e, x = Return [VNil; VErr true] e
    | DBroken => x = Stop Reject
    end.

  (** ** A value in a block *)
  Lemma run_inner f L sc mid e r err s arr loc params : let inner := sc :: mid ++ e in
    well_made L f -> caps L -> state L e r err -> In params [T "path"; T "query"] ->
    (forall y, find_in sc y <> None -> y = local f "Str") ->
    (forall y, look mid y <> None -> y = local f "StrArr" \/ y = T "ok") ->
    forall ts, look inner (local f "Str") = Some (ts, VG (VS s)) -> (exists t, look inner (local f "StrArr") = Some (t, VG (VList (map VS arr)))) -> (hf_rep f = true -> in_top inner (local f "Str") = true) ->
    match assign f (run_convert K f (Some arr) s true err) r with
    | DOk r' err' => exists e1, exec_block (extract_code f loc params) inner = Next e1 /\ e1 <> [] /\ tl e1 = mid ++ set (set e (T "err") (VErr err')) (T "req") (VReq r')
    | DErr => exists e1, exec_block (extract_code f loc params) inner = Return [VNil; VErr true] e1
    | DBroken => exec_block (extract_code f loc params) inner = Stop Reject
    end.
  Proof.
    intros inner (Cx & Hr & Hg & Hf & _ & Ng) CL S Hp Hs Hm ts L1 L2 Htop.
    pose proof (cap_app _ (T "Str") Cx) as Cs. fold (local f "Str") in Cs. pose proof (cap_app _ (T "StrArr") Cx) as Ca. fold (local f "StrArr") in Ca.
    assert (LM : forall y, cap y = false -> y <> T "ok" -> look inner y = look e y).
    { intros y Cy Oy. unfold inner. rewrite look_two. destruct (find_in sc y) eqn:E; [assert (y = local f "Str") by (apply Hs; rewrite E; discriminate); congruence|].
      assert (A : forall m, look (m ++ e) y = match look m y with Some d => Some d | None => look e y end) by (induction m as [|c m IH]; [reflexivity|]; cbn [app look]; destruct (find_in c y); [reflexivity|exact IH]).
      rewrite A. destruct (look mid y) eqn:E2; [|reflexivity]. destruct (Hm y); [rewrite E2; discriminate|congruence|contradiction]. }
    destruct (s_err _ _ _ _ S) as (te & Le). destruct (s_req _ _ _ _ S) as (tr & Lr).
    assert (Lpar : exists dp, look inner (params ++ T "Params") = Some dp).
    { destruct (s_path _ _ _ _ S) as (t3 & P). destruct (s_query _ _ _ _ S) as (t4 & Q). destruct Hp as [<-|[<-|[]]]; eexists; (rewrite LM; [eassumption|reflexivity|discriminate]). }
    destruct Lpar as (dp & Lpar).
    assert (T0 : forall y, y <> local f "Str" -> in_top inner y = false).
    { intros y Ny. unfold inner. cbn [in_top]. destruct (find_in sc y) eqn:E; [|reflexivity]. destruct Ny. apply Hs. rewrite E. discriminate. }
    assert (LMg : look inner (hf_gotype f) = None).
    { assert (A : forall m, look (m ++ e) (hf_gotype f) = match look m (hf_gotype f) with Some d => Some d | None => look e (hf_gotype f) end) by (induction m as [|c m IH]; [reflexivity|]; cbn [app look]; destruct (find_in c _); [reflexivity|exact IH]).
      unfold inner. rewrite look_two. destruct (find_in sc (hf_gotype f)) eqn:E; [destruct Ng; right; left; symmetry; apply Hs; rewrite E; discriminate|].
      rewrite A. destruct (look mid (hf_gotype f)) eqn:E2.
      - destruct (Hm (hf_gotype f)) as [H|H]; [rewrite E2; discriminate|destruct Ng; right; right; left; symmetry; exact H|]. exfalso. destruct Hg as [Hg|Hg]; [|rewrite H in Hg; discriminate]. rewrite H in Hg. cbn [go_base_types In] in Hg.
        repeat (destruct Hg as [Hg|Hg]; [discriminate|]). exact Hg.
      - eapply state_free; [exact S|apply type_head; exact Hg|]. intro I. apply Ng. right. right. right. exact I. }
    pose proof (run_extract K zero request_type vars query body f loc params Cx Hr Hg (in_eqb _ _ _ Ng) inner te ts tr true err s (Some arr) dp r Hf) as R.
    assert (R' : match assign f (run_convert K f (Some arr) s true err) r with
      | DOk r' err' => exists e1, exec_block (extract_code f loc params) inner = Next e1 /\ e1 <> [] /\ tl e1 = set (set (tl inner) (T "err") (VErr err')) (T "req") (VReq r')
      | DErr => exists e1, exec_block (extract_code f loc params) inner = Return [VNil; VErr true] e1
      | DBroken => exec_block (extract_code f loc params) inner = Stop Reject
      end).
    { apply R.
      - apply neq_eqb. intro E. apply Ng. right. left. symmetry. exact E.
      - discriminate.
      - intros n Hn. rewrite LM; [exact (state_quiet _ _ _ _ S CL n Hn)| |]; cbn [library map In] in Hn; repeat (destruct Hn as [<-|Hn]; [first [reflexivity|discriminate]|]); destruct Hn.
      - rewrite LM; [exact Le|reflexivity|discriminate].
      - apply T0. intro E. rewrite <- E in Cs. discriminate.
      - rewrite LM; [exact Lr|reflexivity|discriminate].
      - apply T0. intro E. rewrite <- E in Cs. discriminate.
      - exact L1.
      - exact L2.
      - apply T0. intro E. pose proof (Nxs f) as N. rewrite <- E, str_eqb_refl in N. discriminate.
      - exact LMg.
      - exact Lpar.
      - exact Hp.
      - intros Er _. exact (Htop Er). }
    clear R. destruct (assign f _ r) as [r' err'| |]; [|exact R'|exact R']. destruct R' as (e1 & X & Ne & Et). exists e1. split; [exact X|]. split; [exact Ne|]. rewrite Et. unfold inner. cbn [tl].
    assert (SM : forall m y w, (forall z, look m z <> None -> z = local f "StrArr" \/ z = T "ok") -> cap y = false -> y <> T "ok" -> forall e0, set (m ++ e0) y w = m ++ set e0 y w).
    { clear -Ca. induction m as [|c m IH]; intros y w Hm Cy Oy e0; [reflexivity|]. cbn [app set]. destruct (find_in c y) eqn:E.
      - destruct (Hm y); [cbn [look]; rewrite E; discriminate|congruence|contradiction].
      - f_equal. apply IH; [|exact Cy|exact Oy]. intros z Z. apply Hm. cbn [look]. destruct (find_in c z); [discriminate|exact Z]. }
    rewrite !SM; first [reflexivity|exact Hm|discriminate].
  Qed.

  (** ** A field *)
  Definition places (f : hfield) : Prop := In (hf_loc f) [T "path"; T "query"].
  Lemma run_field f L e r err : well_made L f -> caps L -> places f -> state L e r err ->
    (hf_loc f = T "path" -> ~ In (hf_local f) L /\ ~ In (local f "Str") L /\ ~ In (local f "StrArr") L) ->
    agrees (Wiring.path_locals f ++ L) (decode_field K vars query f r err) (exec_block (field_code f) e).
  Proof.
    intros W CL P S Fr. pose proof W as (Cx & Hr & Hg & Hf & Hb & Ng).
    pose proof (cap_app _ (T "Str") Cx) as Cs. fold (local f "Str") in Cs. pose proof (cap_app _ (T "StrArr") Cx) as Ca. fold (local f "StrArr") in Ca.
    assert (LQ : literal (hf_query f) = VG (VS (hf_query f))) by (unfold literal; rewrite Hb; reflexivity).
    pose proof (Nxs f) as Nxs. pose proof (Nxa f) as Nxa. pose proof (Nsa f) as Nsa. cbv zeta in *.
    unfold decode_field, field_code, Wiring.path_locals. destruct P as [El|[El|[]]]; rewrite <- El.
    - change (str_eqb (T "path") (T "path")) with true. cbn iota. destruct (Fr (eq_sym El)) as (F1 & F2 & F3).
      destruct (state_fresh _ _ _ _ _ S Cx F1) as [X1 X2]. destruct (state_fresh _ _ _ _ _ S Cs F2) as [X3 X4]. destruct (state_fresh _ _ _ _ _ S Ca F3) as [X5 X6].
      set (s := match mget vars (hf_query f) with Some s => s | None => [] end).
      set (e0 := declare e (local f "Str") None (VG (VS s))).
      assert (S0 : state (local f "Str" :: L) e0 r err) by (apply state_declare; assumption).
      assert (E0 : exec (Do (SDefine [local f "Str"] (EIndex (EVar (T "path" ++ T "Params")) (EStr (hf_query f))))) e = Next e0).
      { destruct (s_path _ _ _ _ S) as (t & Lp). unfold e0. apply ex_define; [|reflexivity|exact X4]. eapply ev_index; [eapply ev_var; exact Lp|apply ev_str; exact LQ|reflexivity]. }
      rewrite eq_cons, E0. destruct (s_err _ _ _ _ S0) as (te & Le). destruct (s_req _ _ _ _ S0) as (tr & Lr). destruct (s_path _ _ _ _ S0) as (tp & Lp).
      assert (C0 : caps (local f "Str" :: L)) by (intros y [<-|Hy]; [exact Cs|apply CL; exact Hy]).
      pose proof (run_extract K zero request_type vars query body f (T "path") (T "path") Cx Hr Hg (in_eqb _ _ _ Ng) e0 te None tr false err s None (tp, VVars vars) r Hf) as R.
      assert (O : forall y, in_top e0 y = match look e0 y with Some _ => true | None => false end) by (intro y; apply in_top_one; exact (s_one _ _ _ _ S0)).
      assert (R' := R ltac:(apply neq_eqb; intro E; apply Ng; right; left; symmetry; exact E) (s_some _ _ _ _ S0) (state_quiet _ _ _ _ S0 C0) Le ltac:(rewrite O, Le; reflexivity) Lr ltac:(rewrite O, Lr; reflexivity)
        ltac:(unfold e0; rewrite look_declare, str_eqb_refl; reflexivity) ltac:(unfold array_in, e0; rewrite look_declare, (str_eqb_sym _ (local f "Str")), Nsa; exact X5)
        ltac:(unfold e0; rewrite in_top_declare, (str_eqb_sym _ (local f "Str")), Nxs; exact X2)
        ltac:(eapply state_free; [exact S0|apply type_head; exact Hg|]; intros [A|A]; apply Ng; [right; left; exact A|right; right; right; exact A]) Lp ltac:(left; reflexivity) ltac:(intros _ A; destruct (A eq_refl))).
      clear R. unfold agrees. destruct (assign f (run_convert K f None s false err) r) as [r' err'| |]; [|exact R'|exact R'].
      destruct R' as (e1 & -> & N1 & T1 & E1 & R1 & O1). exists e1. split; [reflexivity|]. split; try assumption.
      + rewrite T1. exact (s_one _ _ _ _ S0).
      + destruct (s_path _ _ _ _ S0) as (t & H). exists t. rewrite O1; [exact H|neq|reflexivity|neq|reflexivity].
      + destruct (s_query _ _ _ _ S0) as (t & H). exists t. rewrite O1; [exact H|neq|reflexivity|neq|reflexivity].
      + intros y Y. change ([local f "Str"; hf_local f] ++ L) with (local f "Str" :: hf_local f :: L).
        destruct (str_eqb y (hf_local f)) eqn:Y1; [apply str_eqb_eq in Y1; subst y; right; right; left; reflexivity|].
        destruct (str_eqb y (T "err")) eqn:Y2; [apply str_eqb_eq in Y2; subst y; left; cbn [head_names In]; auto|].
        destruct (str_eqb y (local f "Str")) eqn:Y3; [apply str_eqb_eq in Y3; subst y; right; left; reflexivity|].
        destruct (str_eqb y (T "req")) eqn:Y4; [apply str_eqb_eq in Y4; subst y; left; cbn [head_names In]; auto|].
        rewrite O1 in Y by assumption. destruct (s_dom _ _ _ _ S0 y Y) as [H|[H|H]]; [left; exact H|right; left; exact H|right; right; right; exact H].
    - change (str_eqb (T "query") (T "path")) with false. cbn iota. cbn [app].
      destruct (s_query _ _ _ _ S) as (tq & Lq).
      set (l := match mget query (hf_query f) with Some l => map VS l | None => [] end).
      set (b := match mget query (hf_query f) with Some _ => true | None => false end).
      set (e1 := declare (declare ([] :: e) (local f "StrArr") None (VG (VList l))) (T "ok") None (VG (VB b))).
      assert (E1 : run_simple (SDefine [local f "StrArr"; T "ok"] (EIndex (EVar (T "query" ++ T "Params")) (EStr (hf_query f)))) ([] :: e) = Next e1).
      { apply run_lookup; [eapply ev_var; exact Lq|apply ev_str; exact LQ|reflexivity|neq|reflexivity]. }
      assert (B1 : eval e1 (v "ok") = Ok (VG (VB b))) by (eapply ev_var; reflexivity).
      assert (M1 : exists mid, e1 = mid ++ e /\ mid = [[(T "ok", (None, VG (VB b))); (local f "StrArr", (None, VG (VList l)))]]) by (exists [[(T "ok", (None, VG (VB b))); (local f "StrArr", (None, VG (VList l)))]]; split; reflexivity).
      destruct M1 as (mid & M1 & M2).
      set (blk := Cons (Do (SDefine [local f "Str"] (EIndex (EVar (local f "StrArr")) (ENum (T "0"))))) (extract_code f (T "query") (T "query"))).
      assert (LA : forall sc, find_in sc (local f "StrArr") = None -> look (sc :: e1) (local f "StrArr") = Some (None, VG (VList l))).
      { intros sc Hsc. rewrite look_two, Hsc. unfold e1. rewrite look_declare. eqs. rewrite look_declare, str_eqb_refl. reflexivity. }
      destruct (mget query (hf_query f)) as [[|s arr]|] eqn:Em; [destruct (Hq _ _ Em eq_refl)| |].
      + set (sc := [(local f "Str", (@None ty, VG (VS s)))]).
        assert (X1 : exec_block blk ([] :: e1) = exec_block (extract_code f (T "query") (T "query")) (sc :: e1)).
        { unfold blk. rewrite eq_cons. rewrite (ex_define K zero request_type vars query body (local f "Str") _ (VG (VS s))); [reflexivity| |reflexivity|reflexivity].
          eapply ev_index; [eapply ev_var; apply LA; reflexivity|apply ev_num; reflexivity|]. unfold l. reflexivity. }
        assert (R := run_inner f L sc mid e r err s (s :: arr) (T "query") (T "query") W CL S ltac:(right; left; reflexivity)).
        rewrite <- M1 in R. unfold agrees.
        assert (R' := R ltac:(intros y Y; unfold sc in Y; cbn [find_in] in Y; destruct (str_eqb y (local f "Str")) eqn:E; [apply str_eqb_eq in E; exact E|destruct (Y eq_refl)])
          ltac:(intros y Y; rewrite M2 in Y; cbn [look find_in] in Y; destruct (str_eqb y (T "ok")) eqn:E; [apply str_eqb_eq in E; right; exact E|]; destruct (str_eqb y (local f "StrArr")) eqn:E'; [apply str_eqb_eq in E'; left; exact E'|destruct (Y eq_refl)])
          None ltac:(cbn [look sc find_in]; rewrite str_eqb_refl; reflexivity)
          ltac:(exists None; rewrite LA; [reflexivity|unfold sc; cbn [find_in]; rewrite (str_eqb_sym _ (local f "Str")), Nsa; reflexivity])
          ltac:(intros _; unfold sc; cbn [in_top find_in]; rewrite str_eqb_refl; reflexivity)).
        clear R. destruct (assign f _ r) as [r' err'| |].
        * destruct R' as (e2 & R1 & R2 & R3). exists (set (set e (T "err") (VErr err')) (T "req") (VReq r')). split; [|apply state_result with (r := r) (err := err); exact S].
          eapply ex_cons; [|apply ex_nil]. rewrite (ex_if K zero request_type vars query body _ _ _ _ e e1 true (Next e2) E1 B1); [|cbn iota; fold blk; rewrite X1; exact R1].
          rewrite (leave_next e2 R2), R3, M2. reflexivity.
        * destruct R' as (e2 & R1). exists e2. apply ex_ret. rewrite (ex_if K zero request_type vars query body _ _ _ _ e e1 true (Return [VNil; VErr true] e2) E1 B1); [reflexivity|]. cbn iota. fold blk. rewrite X1. exact R1.
        * apply ex_stop. rewrite (ex_if K zero request_type vars query body _ _ _ _ e e1 true (Stop Reject) E1 B1); [reflexivity|]. cbn iota. fold blk. rewrite X1. exact R'.
      + exists e. split; [|exact S]. eapply ex_cons; [|apply ex_nil]. rewrite (ex_if K zero request_type vars query body _ _ _ _ e e1 false (Next ([] :: e1)) E1 B1); [reflexivity|reflexivity].
  Qed.
  (** ** The fields *)
  Lemma run_fields : forall fs L e r err, Forall (fun f => str_eqb (hf_loc f) (T "body") = true \/ places f /\ well_made (L ++ flat_map Wiring.path_locals fs) f) fs ->
    caps L -> NoDup (L ++ flat_map Wiring.path_locals fs) -> (forall f, In f fs -> hf_loc f = T "path" -> ~ In (local f "StrArr") (L ++ flat_map Wiring.path_locals fs)) -> state L e r err ->
    agrees (L ++ flat_map Wiring.path_locals fs) (decode_fields K vars query fs r err) (exec_block (fields_code fs) e).
  Proof.
    unfold fields_code. induction fs as [|f fs IH]; intros L e r err H CL ND A S.
    - cbn [decode_fields map blocks flat_map]. rewrite app_nil_r. exists e. split; [apply ex_nil|exact S].
    - cbn [decode_fields map blocks flat_map] in *. inversion H as [|? ? H1 H2]; subst. destruct (str_eqb (hf_loc f) (T "body")) eqn:Eb.
      + assert (Pn : Wiring.path_locals f = []) by (apply str_eqb_eq in Eb; unfold Wiring.path_locals; rewrite Eb; reflexivity). rewrite Pn in *. cbn [block_app app] in *. apply IH; try assumption. intros f' I. apply A. right. exact I.
      + destruct H1 as [H1|[P W]]; [discriminate|]. rewrite ex_app.
        assert (W' : well_made L f).
        { destruct W as (W1 & W2 & W3 & W4 & W5 & W6). repeat (split; [assumption|]). intro I. apply W6. destruct I as [I|[I|[I|I]]]; [left; exact I|right; left; exact I|right; right; left; exact I|]. do 3 right. apply in_or_app. left. exact I. }
        pose proof W' as (Cx & _).
        assert (Fr : hf_loc f = T "path" -> ~ In (hf_local f) L /\ ~ In (local f "Str") L /\ ~ In (local f "StrArr") L).
        { intro Ep. assert (Pl : Wiring.path_locals f = [local f "Str"; hf_local f]) by (unfold Wiring.path_locals; rewrite Ep; reflexivity). rewrite Pl in *. split; [|split].
          - intro I. apply (proj1 (NoDup_app_in L _ ND) (hf_local f) I). right. left. reflexivity.
          - intro I. apply (proj1 (NoDup_app_in L _ ND) (local f "Str") I). left. reflexivity.
          - intro I. apply (A f (or_introl eq_refl) Ep). apply in_or_app. left. exact I. }
        pose proof (run_field f L e r err W' CL P S Fr) as R. unfold agrees in R. destruct (decode_field K vars query f r err) as [r' err'| |].
        * destruct R as (e1 & -> & S1).
          assert (Q : forall y, In y ((L ++ Wiring.path_locals f) ++ flat_map Wiring.path_locals fs) <-> In y (L ++ Wiring.path_locals f ++ flat_map Wiring.path_locals fs)) by (intro y; rewrite app_assoc; reflexivity).
          assert (G : agrees ((L ++ Wiring.path_locals f) ++ flat_map Wiring.path_locals fs) (decode_fields K vars query fs r' err') (exec_block (blocks (map (fun f => if str_eqb (hf_loc f) (T "body") then Nil else field_code f) fs)) e1)).
          { apply IH.
            - rewrite <- app_assoc. exact H2.
            - intros y I. apply in_app_or in I. destruct I as [I|I]; [apply CL; exact I|]. unfold Wiring.path_locals in I. destruct (str_eqb (hf_loc f) (T "path")); [|destruct I]. destruct I as [<-|[<-|[]]]; [apply cap_app; exact Cx|exact Cx].
            - rewrite <- app_assoc. exact ND.
            - intros f' I E'. rewrite <- app_assoc. apply A; [right; exact I|exact E'].
            - eapply state_more; [exact S1|]. intros y I. apply in_app_or in I. apply in_or_app. tauto. }
          rewrite <- app_assoc in G. exact G.
        * destruct R as (e1 & ->). exists e1. reflexivity.
        * rewrite R. reflexivity.
  Qed.

  (** ** The options of a oneof *)
  Definition present (f : hfield) : bool := match mget query (hf_query f) with Some _ => true | None => false end.
  Definition option_in (e : env) (f : hfield) : Prop :=
    (exists t, look e (local f "OK") = Some (t, VG (VB (present f)))) /\
    forall s l, mget query (hf_query f) = Some (s :: l) -> (exists t, look e (local f "Str") = Some (t, VG (VS s))) /\ exists t, look e (local f "StrArr") = Some (t, VG (VList (map VS (s :: l)))).
  Definition option_made (f : hfield) : Prop := cap (hf_local f) = true /\ contains1 (hf_query f) c_backslash = false.
  Lemma caps_app a b : caps a -> caps b -> caps (a ++ b). Proof. intros A B y I. apply in_app_or in I. destruct I; [apply A|apply B]; assumption. Qed.
  Lemma caps_option f : cap (hf_local f) = true -> caps (Wiring.option_locals f).
  Proof. intros C y [<-|[<-|[<-|[]]]]; apply cap_app; exact C. Qed.
  Lemma run_option o f L e r err n tn : let cs := ho_name o ++ T "CountSet" in
    ho_loc o = T "query" -> option_made f -> cap cs = true -> In cs L -> state L e r err -> look e cs = Some (tn, VG (VZ n)) -> NoDup (L ++ Wiring.option_locals f) ->
    exists e1, exec_block (option_code o f) e = Next e1 /\ state (L ++ Wiring.option_locals f) e1 r err /\ look e1 cs = Some (tn, VG (VZ (n + if present f then 1 else 0))) /\ option_in e1 f /\
      (forall y, In y L -> str_eqb y cs = false -> look e1 y = look e y).
  Proof.
    intros cs Ho (Cx & Hb) Cc Ic S Lc ND. unfold option_code. rewrite Ho. fold cs. cbn [block_of].
    assert (LQ : literal (hf_query f) = VG (VS (hf_query f))) by (unfold literal; rewrite Hb; reflexivity).
    pose proof (cap_app _ (T "Str") Cx) as C1. fold (local f "Str") in C1. pose proof (cap_app _ (T "StrArr") Cx) as C2. fold (local f "StrArr") in C2. pose proof (cap_app _ (T "OK") Cx) as C3. fold (local f "OK") in C3.
    destruct (NoDup_app_in L _ ND) as (N1 & _ & _).
    assert (F1 : ~ In (local f "Str") L) by (intro I; apply (N1 _ I); left; reflexivity). assert (F2 : ~ In (local f "StrArr") L) by (intro I; apply (N1 _ I); right; left; reflexivity). assert (F3 : ~ In (local f "OK") L) by (intro I; apply (N1 _ I); right; right; left; reflexivity).
    assert (D1 : str_eqb (local f "Str") (local f "StrArr") = false) by (apply suffixes_neq; discriminate). assert (D2 : str_eqb (local f "Str") (local f "OK") = false) by (apply suffixes_neq; discriminate). assert (D3 : str_eqb (local f "StrArr") (local f "OK") = false) by (apply suffixes_neq; discriminate).
    assert (G1 : str_eqb cs (local f "Str") = false) by (apply neq_eqb; intro E; apply F1; rewrite <- E; exact Ic). assert (G2 : str_eqb cs (local f "StrArr") = false) by (apply neq_eqb; intro E; apply F2; rewrite <- E; exact Ic). assert (G3 : str_eqb cs (local f "OK") = false) by (apply neq_eqb; intro E; apply F3; rewrite <- E; exact Ic).
    destruct (state_fresh _ _ _ _ _ S C1 F1) as [_ X1]. destruct (state_fresh _ _ _ _ _ S C2 F2) as [_ X2]. destruct (state_fresh _ _ _ _ _ S C3 F3) as [_ X3]. destruct (s_query _ _ _ _ S) as (tq & Lq).
    set (l := match mget query (hf_query f) with Some l => map VS l | None => [] end).
    set (ea := declare e (local f "Str") (Some (TyName (T "string"))) (VG (VS []))).
    set (eb := declare (declare ea (local f "StrArr") None (VG (VList l))) (local f "OK") None (VG (VB (present f)))).
    assert (Sa : state (local f "Str" :: L) ea r err) by (apply state_declare; assumption).
    assert (Sb : state (local f "OK" :: local f "StrArr" :: local f "Str" :: L) eb r err) by (apply state_declare; [apply state_declare; assumption|assumption]).
    assert (Ea : exec (Do (SVar (local f "Str") (TyName (T "string")))) e = Next ea) by (apply ex_var; exact X1).
    assert (Eb : exec (Do (SDefine [local f "StrArr"; local f "OK"] (EIndex (EVar (T "query" ++ T "Params")) (EStr (hf_query f))))) ea = Next eb).
    { rewrite eq_do. apply run_lookup; [|apply ev_str; exact LQ| |exact D3|].
      - eapply ev_var. unfold ea. rewrite look_declare. eqs. exact Lq.
      - unfold ea. rewrite in_top_declare, (str_eqb_sym _ (local f "Str")), D1. exact X2.
      - unfold ea. rewrite in_top_declare, (str_eqb_sym _ (local f "Str")), D2. exact X3. }
    assert (LO : look eb (local f "OK") = Some (None, VG (VB (present f)))) by (unfold eb; rewrite look_declare, str_eqb_refl; reflexivity).
    assert (LA : look eb (local f "StrArr") = Some (None, VG (VList l))) by (unfold eb; rewrite look_declare, D3, look_declare, str_eqb_refl; reflexivity).
    assert (LS : look eb (local f "Str") = Some (Some (TyName (T "string")), VG (VS []))) by (unfold eb, ea; rewrite look_declare, D2, look_declare, D1, look_declare, str_eqb_refl; reflexivity).
    assert (LC : look eb cs = Some (tn, VG (VZ n))) by (unfold eb, ea; rewrite look_declare, G3, look_declare, G2, look_declare, G1; exact Lc).
    assert (LL : forall y, In y L -> look eb y = look e y).
    { intros y I. unfold eb, ea. rewrite look_declare, look_declare, look_declare.
      assert (forall z, ~ In z L -> str_eqb y z = false) by (intros z Hz; apply neq_eqb; intro E; apply Hz; rewrite <- E; exact I). rewrite !H by assumption. reflexivity. }
    assert (SL : forall e', state (local f "OK" :: local f "StrArr" :: local f "Str" :: L) e' r err -> state (L ++ Wiring.option_locals f) e' r err).
    { intros e' He. eapply state_more; [exact He|]. intros y I. apply in_or_app. unfold Wiring.option_locals, local in *. cbn [In] in *. tauto. }
    rewrite eq_cons, Ea, eq_cons, Eb. unfold option_in, present in *. destruct (mget query (hf_query f)) as [[|s arr]|] eqn:Em; [destruct (Hq _ _ Em eq_refl)| |].
    - set (ec := set eb (local f "Str") (VG (VS s))). set (ed := set ec cs (VG (VZ (n + 1)))).
      exists ed. split.
      + eapply ex_cons; [|apply ex_nil]. rewrite (ex_if K zero request_type vars query body SNone (EVar (local f "OK")) _ Nil eb ([] :: eb) true (Next ([] :: [] :: ed))); [reflexivity|reflexivity|eapply ev_var; rewrite look_push; exact LO|].
        cbn iota. eapply ex_cons; [eapply ex_assign; [reflexivity|eapply ev_index; [eapply ev_var; rewrite !look_push; exact LA|apply ev_num; reflexivity|unfold l; reflexivity]|eapply store_var; [neq|rewrite !look_push; exact LS]]|].
        eapply ex_cons; [|apply ex_nil]. rewrite eq_do. cbn [GoLang.run_simple]. change (set ([] :: [] :: eb) (local f "Str") (VG (VS s))) with ([] :: [] :: ec). rewrite !look_push.
        assert (E : look ec cs = Some (tn, VG (VZ n))) by (unfold ec; rewrite look_set, G1; exact LC). rewrite E. reflexivity.
      + split; [apply SL; unfold ed, ec; apply state_set; [apply state_set; assumption|assumption]|]. split; [|split; [split|]].
        * unfold ed, ec. rewrite look_set, str_eqb_refl, look_set, G1, LC. reflexivity.
        * exists None. unfold ed, ec. rewrite look_set, (str_eqb_sym _ cs), G3, look_set, (str_eqb_sym _ (local f "Str")), D2. exact LO.
        * intros s' l' E. injection E as <- <-. split.
          -- eexists. unfold ed, ec. rewrite look_set, (str_eqb_sym _ cs), G1, look_set, str_eqb_refl, LS. reflexivity.
          -- exists None. unfold ed, ec. rewrite look_set, (str_eqb_sym _ cs), G2, look_set, (str_eqb_sym _ (local f "Str")), D1. exact LA.
        * intros y I Y. unfold ed, ec. rewrite look_set, Y, look_set. assert (E : str_eqb y (local f "Str") = false) by (apply neq_eqb; intro E; apply F1; rewrite <- E; exact I). rewrite E. apply LL. exact I.
    - exists eb. split; [|split; [apply SL; exact Sb|split; [rewrite Z.add_0_r; exact LC|split; [split|]]]].
      + eapply ex_cons; [|apply ex_nil]. apply ex_skip. eapply ev_var. rewrite look_push. exact LO.
      + exists None. exact LO.
      + discriminate.
      + intros y I _. apply LL. exact I.
  Qed.
  Lemma run_options o : let cs := ho_name o ++ T "CountSet" in
    forall fs L e r err n tn, ho_loc o = T "query" -> Forall option_made fs -> cap cs = true -> In cs L -> state L e r err -> look e cs = Some (tn, VG (VZ n)) -> NoDup (L ++ flat_map Wiring.option_locals fs) ->
    exists e1, exec_block (blocks (map (option_code o) fs)) e = Next e1 /\ state (L ++ flat_map Wiring.option_locals fs) e1 r err /\ look e1 cs = Some (tn, VG (VZ (n + Z.of_nat (length (filter present fs))))) /\ Forall (option_in e1) fs /\
      (forall y, In y L -> str_eqb y cs = false -> look e1 y = look e y).
  Proof.
    intro cs. induction fs as [|f fs IH]; intros L e r err n tn Ho Hm Cc Ic S Lc ND.
    - exists e. cbn [map blocks flat_map filter length]. rewrite app_nil_r, Z.add_0_r. split; [apply ex_nil|]. split; [exact S|]. split; [exact Lc|]. split; [apply Forall_nil|reflexivity].
    - inversion Hm as [|? ? M1 M2]; subst. cbn [flat_map] in ND. rewrite app_assoc in ND.
      assert (N1 : NoDup (L ++ Wiring.option_locals f)) by (apply (NoDup_app_in _ _ ND)).
      destruct (run_option o f L e r err n tn Ho M1 Cc Ic S Lc N1) as (e1 & X1 & S1 & C1 & O1 & K1). fold cs in C1, K1.
      assert (Ic' : In cs (L ++ Wiring.option_locals f)) by (apply in_or_app; left; exact Ic).
      destruct (IH _ e1 r err _ tn Ho M2 Cc Ic' S1 C1 ND) as (e2 & X2 & S2 & C2 & O2 & K2).
      exists e2. cbn [map blocks flat_map]. rewrite ex_app, X1. split; [exact X2|]. split; [rewrite app_assoc; exact S2|]. split; [|split].
      + rewrite C2. f_equal. f_equal. f_equal. f_equal. cbn [filter]. destruct (present f); cbn [length]; lia.
      + assert (NC : forall y, In y (Wiring.option_locals f) -> look e2 y = look e1 y).
        { intros y I. apply K2; [apply in_or_app; right; exact I|]. apply neq_eqb. intros ->. destruct (NoDup_app_in _ _ N1) as (Q & _). exact (Q cs Ic I). }
        apply Forall_cons; [|exact O2]. destruct O1 as [(t & A1) A2]. split.
        * exists t. rewrite NC; [exact A1|]. right. right. left. reflexivity.
        * intros s l E. destruct (A2 s l E) as [(t1 & B1) (t2 & B2)]. split; [exists t1; rewrite NC; [exact B1|left; reflexivity]|exists t2; rewrite NC; [exact B2|right; left; reflexivity]].
      + intros y I Y. rewrite K2; [apply K1; assumption|apply in_or_app; left; exact I|exact Y].
  Qed.
  (** ** The choice *)
  Lemma run_clauses o e : forall fs, Forall (option_in e) fs ->
    exec_clauses (option_clauses o fs) e = match filter present fs with [] => Next e | p :: _ => leave (exec_block (extract_code p (hf_loc p) (ho_loc o)) ([] :: e)) end.
  Proof.
    induction fs as [|f fs IH]; intro H; [reflexivity|]. inversion H as [|? ? [(t & H1) _] H2]; subst. cbn [option_clauses filter]. destruct (present f) eqn:E.
    - apply ex_case_yes. eapply ev_var. exact H1.
    - rewrite ex_case_no; [apply IH; exact H2|]. eapply ev_var. exact H1.
  Qed.
  Lemma filter_sub {A} (p : A -> bool) (l : list A) x r : filter p l = x :: r -> In x l /\ p x = true.
  Proof. intro H. assert (I : In x (filter p l)) by (rewrite H; left; reflexivity). apply filter_In in I. exact I. Qed.
  Lemma run_oneof o L e r err : ho_loc o = T "query" -> cap (ho_name o) = true -> caps L -> state L e r err -> NoDup (L ++ Wiring.oneof_locals o) ->
    Forall (fun f => well_made (L ++ Wiring.oneof_locals o) f /\ hf_rep f = false) (ho_options o) ->
    agrees (L ++ Wiring.oneof_locals o) (decode_oneof K query o r err) (exec_block (oneof_code o) e).
  Proof.
    intros Ho Cn CL S ND H. assert (Ol : Wiring.oneof_locals o = (ho_name o ++ T "CountSet") :: flat_map Wiring.option_locals (ho_options o)) by (unfold Wiring.oneof_locals; rewrite Ho; reflexivity).
    set (cs := ho_name o ++ T "CountSet") in *. assert (Cc : cap cs = true) by (apply cap_app; exact Cn).
    assert (LE : (L ++ [cs]) ++ flat_map Wiring.option_locals (ho_options o) = L ++ Wiring.oneof_locals o) by (rewrite Ol, <- app_assoc; reflexivity).
    assert (ND' : NoDup ((L ++ [cs]) ++ flat_map Wiring.option_locals (ho_options o))) by (rewrite LE; exact ND).
    assert (Fc : ~ In cs L).
    { rewrite Ol in ND. intro I. destruct (NoDup_app_in _ _ ND) as (Q & _). apply (Q cs I). left. reflexivity. }
    destruct (state_fresh _ _ _ _ _ S Cc Fc) as [_ Xc].
    set (e0 := declare e cs None (VG (VZ 0))).
    assert (E0 : exec (Do (SDefine [cs] (ENum (T "0")))) e = Next e0) by (apply ex_define; [apply ev_num; reflexivity|reflexivity|exact Xc]).
    assert (S0 : state (L ++ [cs]) e0 r err) by (eapply state_more; [apply state_declare; [exact S|exact Cc]|]; intros y [<-|I]; apply in_or_app; [right; left; reflexivity|left; exact I]).
    assert (L0 : look e0 cs = Some (None, VG (VZ 0))) by (unfold e0; rewrite look_declare, str_eqb_refl; reflexivity).
    assert (Hm : Forall option_made (ho_options o)) by (eapply Forall_impl; [|exact H]; intros f ((A & _ & _ & _ & B & _) & _); split; assumption).
    destruct (run_options o (ho_options o) (L ++ [cs]) e0 r err 0%Z None Ho Hm Cc ltac:(apply in_or_app; right; left; reflexivity) S0 L0 ND') as (e1 & X1 & S1 & C1 & O1 & _). fold cs in C1.
    assert (S2 : state (L ++ Wiring.oneof_locals o) e1 r err) by (rewrite <- LE; exact S1). clear LE S1. rename S2 into S1.
    assert (CL1 : caps (L ++ Wiring.oneof_locals o)).
    { apply caps_app; [exact CL|]. rewrite Ol. intros y [<-|I]; [exact Cc|]. apply in_flat_map in I. destruct I as (f & If & I). eapply caps_option; [|exact I]. rewrite Forall_forall in H. apply (H f If). }
    pose proof (state_quiet _ _ _ _ S1 CL1) as Q1.
    unfold oneof_code. fold cs. cbn [block_app]. rewrite eq_cons, E0, ex_app, X1. cbn [block_of].
    assert (CND : forall e', look e' cs = look e1 cs -> eval e' (EBin (T ">") (EVar cs) (ENum (T "1"))) = Ok (VG (VB (Z.ltb 1 (Z.of_nat (length (filter present (ho_options o)))))))).
    { intros e' E. eapply ev_bin; [eapply ev_var; rewrite E; exact C1|apply ev_num; reflexivity|reflexivity]. }
    unfold decode_oneof. change (filter (fun p => match mget query (hf_query p) with Some _ => true | None => false end) (ho_options o)) with (filter present (ho_options o)).
    pose proof (run_clauses o e1 (ho_options o) O1) as CLS.
    destruct (filter present (ho_options o)) as [|p [|p' ps]] eqn:Ef.
    - exists e1. split; [|exact S1]. eapply ex_cons; [apply ex_skip; rewrite CND by reflexivity; reflexivity|]. eapply ex_cons; [|apply ex_nil]. exact CLS.
    - rewrite eq_cons, ex_skip by (rewrite CND by reflexivity; reflexivity). rewrite eq_cons. change (exec (Switch (option_clauses o (ho_options o))) e1) with (exec_clauses (option_clauses o (ho_options o)) e1). rewrite CLS.
      destruct (filter_sub _ _ _ _ Ef) as [Ip Pp]. rewrite Forall_forall in H. destruct (H p Ip) as (W & Rp). rewrite Forall_forall in O1. destruct (O1 p Ip) as [_ Op]. unfold present in Pp.
      destruct (mget query (hf_query p)) as [[|s arr]|] eqn:Em; [destruct (Hq _ _ Em eq_refl)| |discriminate]. destruct (Op s arr eq_refl) as [(t1 & A1) A2].
      assert (R := run_inner p (L ++ Wiring.oneof_locals o) [] [] e1 r err s (s :: arr) (hf_loc p) (ho_loc o) W CL1 S1 ltac:(rewrite Ho; right; left; reflexivity)
        ltac:(intros y Y; destruct (Y eq_refl)) ltac:(intros y Y; destruct (Y eq_refl)) t1 A1 A2 ltac:(rewrite Rp; discriminate)). cbn [app] in R.
      unfold agrees. destruct (assign p _ r) as [r' err'| |].
      + destruct R as (e2 & R1 & N2 & T2). lazymatch goal with |- context[leave ?x] => replace x with (Next e2) by (symmetry; exact R1) end. rewrite (leave_next e2 N2), T2. exists (set (set e1 (T "err") (VErr err')) (T "req") (VReq r')). split; [apply ex_nil|]. apply state_result with (r := r) (err := err). exact S1.
      + destruct R as (e2 & R1). exists e2. lazymatch goal with |- context[leave ?x] => replace x with (Return [VNil; VErr true] e2) by (symmetry; exact R1) end. reflexivity.
      + lazymatch goal with |- context[leave ?x] => replace x with (Stop Reject) by (symmetry; exact R) end. reflexivity.
    - eexists. apply ex_ret. rewrite (ex_if K zero request_type vars query body SNone _ _ Nil e1 ([] :: e1) true (Return [VNil; VErr true] ([] :: [] :: e1))); [reflexivity|reflexivity| |].
      + rewrite CND by reflexivity. f_equal. f_equal. f_equal. apply Z.ltb_lt. cbn [length]. lia.
      + cbn iota. apply ex_ret, ex_return2; unfold v, pkg.
        * eapply ev_free; [rewrite !look_push; apply Q1; cbn [library map In]; tauto|reflexivity].
        * eapply ev_lib; [rewrite !look_push; apply Q1; cbn [library map In]; tauto|eapply all_cons; [apply ev_str; reflexivity|apply all_nil]|apply lib_errorf].
  Qed.
  Lemma run_oneofs : forall os L e r err, caps L -> state L e r err -> NoDup (L ++ flat_map Wiring.oneof_locals os) ->
    Forall (fun o => str_eqb (ho_loc o) (T "query") = true -> cap (ho_name o) = true /\
      Forall (fun f => well_made (L ++ flat_map Wiring.oneof_locals os) f /\ hf_rep f = false) (ho_options o)) os ->
    agrees (L ++ flat_map Wiring.oneof_locals os) (decode_oneofs K query os r err) (exec_block (oneofs_code os) e).
  Proof.
    unfold oneofs_code. induction os as [|o os IH]; intros L e r err CL S ND H.
    - cbn [decode_oneofs map blocks flat_map]. rewrite app_nil_r. exists e. split; [apply ex_nil|exact S].
    - cbn [decode_oneofs map blocks flat_map] in *. inversion H as [|? ? H1 H2]; subst. destruct (str_eqb (ho_loc o) (T "query")) eqn:Eo.
      + destruct (H1 eq_refl) as [Cn Hf]. apply str_eqb_eq in Eo. rewrite ex_app. rewrite app_assoc in ND.
        assert (LL : forall y, In y (L ++ Wiring.oneof_locals o) -> In y (L ++ Wiring.oneof_locals o ++ flat_map Wiring.oneof_locals os)) by (intros y I; rewrite app_assoc; apply in_or_app; left; exact I).
        assert (Hf' : Forall (fun f => well_made (L ++ Wiring.oneof_locals o) f /\ hf_rep f = false) (ho_options o)).
        { eapply Forall_impl; [|exact Hf]. intros f ((W1 & W2 & W3 & W4 & W5 & W6) & Rf). split; [|exact Rf]. repeat (split; [assumption|]). intro I. apply W6.
          destruct I as [I|[I|[I|I]]]; [left; exact I|right; left; exact I|right; right; left; exact I|]. do 3 right. apply LL. exact I. }
        pose proof (run_oneof o L e r err Eo Cn CL S (proj1 (proj2 (NoDup_app_in _ _ ND))) Hf') as R. unfold agrees in R. destruct (decode_oneof K query o r err) as [r' err'| |].
        * destruct R as (e1 & -> & S1). rewrite app_assoc. apply IH; [|exact S1|exact ND|rewrite <- app_assoc; exact H2].
          apply caps_app; [exact CL|]. unfold Wiring.oneof_locals. destruct (str_eqb (ho_loc o) (T "query")); [|intros y []]. intros y [<-|I]; [apply cap_app; exact Cn|]. apply in_flat_map in I. destruct I as (f & If & I).
          eapply caps_option; [|exact I]. rewrite Forall_forall in Hf. apply (Hf f If).
        * destruct R as (e1 & ->). exists e1. reflexivity.
        * rewrite R. reflexivity.
      + assert (Pn : Wiring.oneof_locals o = []) by (unfold Wiring.oneof_locals; rewrite Eo; reflexivity). rewrite Pn in *. cbn [block_app app] in *. apply IH; assumption.
  Qed.

  Lemma effect_options e p a x s t1 t2 r : look e p = Some (t1, VOptions) -> eval e a = Ok (VBytes s) -> look e x = Some (t2, VReq r) ->
    effect K zero request_type vars query body e (ECall (ESel (EVar p) (T "Unmarshal")) [a; EAddr (EVar x)]) = match pj_dec K s with Some r' => (Ok (VErr false), set e x (VReq r')) | None => (Ok (VErr true), e) end.
  Proof. intros A B C. unfold effect. rewrite A, B, C. change (str_eqb (T "Unmarshal") (T "Unmarshal")) with true. reflexivity. Qed.
  (** ** The head *)
  Hypothesis Hs : str_eqb request_type (T "string") = false.
  Definition top0 : scope := [(T "r", (None, VHttp))].
  Lemma run_head : match body with
    | None => exists e, exec_block (head_code request_type) [top0] = Return [VNil; VErr true] e
    | Some s => match (match s with [] => Some zero | _ => pj_dec K s end) with
                | Some r => exists e, exec_block (head_code request_type) [top0] = Next e /\ state [] e r false
                | None => exists e, exec_block (head_code request_type) [top0] = Return [VNil; VErr true] e
                end
    end.
  Proof.
    set (sc1 := (T "req", (Some (TyName request_type), VReq zero)) :: top0).
    set (s0 := match body with Some s => s | None => [] end). set (b0 := match body with Some _ => false | None => true end).
    set (sc2 := (T "err", (@None ty, VErr b0)) :: (T "buf", (None, VBytes s0)) :: sc1).
    unfold head_code. cbn [block_of].
    assert (E1 : exec (Do (SDefer (ECall (ESel (pkg "r" "Body") (T "Close")) []))) [top0] = Next [top0]) by reflexivity.
    assert (E2 : exec (Do (SVar (T "req") (TyName request_type))) [top0] = Next [sc1]).
    { rewrite ex_var by reflexivity. cbn [zero_of]. rewrite Hs, str_eqb_refl. reflexivity. }
    assert (E3 : exec (Do (SDefine [T "buf"; T "err"] (ECall (pkg "ioutil" "ReadAll") [pkg "r" "Body"]))) [sc1] = Next [sc2]).
    { rewrite eq_do. rewrite (run_define2_new K zero request_type vars query body _ _ _ (VBytes s0) (VErr b0)); [reflexivity| |reflexivity|reflexivity|reflexivity|reflexivity].
      eapply ev_lib; [reflexivity|eapply all_cons; [eapply ev_field; [reflexivity|reflexivity]|apply all_nil]|]. unfold s0, b0. destruct body; reflexivity. }
    rewrite eq_cons, E1, eq_cons, E2, eq_cons, E3. clear E1 E2 E3. rewrite eq_cons.
    set (tail := Cons (Do (SDefine [T "pathParams"] _)) _).
    assert (TAIL : forall sc r, find_in sc (T "r") = Some (None, VHttp) -> (exists t, find_in sc (T "err") = Some (t, VErr false)) -> (exists t, find_in sc (T "req") = Some (t, VReq r)) ->
      find_in sc (T "pathParams") = None -> find_in sc (T "queryParams") = None -> find_in sc (T "mux") = None -> (forall y, find_in sc y <> None -> In y head_names) ->
      exists e, exec_block tail [sc] = Next e /\ state [] e r false).
    { intros sc r Lr (te & Le) (tr & Lq) P1 P2 P3 D. set (sp := (T "pathParams", (@None ty, VVars vars)) :: sc). set (sq := (T "queryParams", (@None ty, VQuery query)) :: sp).
      exists [sq]. split.
      - unfold tail. assert (F1 : exec (Do (SDefine [T "pathParams"] (ECall (pkg "mux" "Vars") [v "r"]))) [sc] = Next [sp]).
        { eapply eq_trans; [eapply ex_define with (v := VVars vars); [|reflexivity|cbn [in_top]; rewrite P1; reflexivity]|reflexivity]. eapply ev_lib; [cbn [look]; rewrite P3; reflexivity|eapply all_cons; [eapply ev_var; cbn [look]; rewrite Lr; reflexivity|apply all_nil]|reflexivity]. }
        assert (F2 : exec (Do (SAssign (v "_") (v "pathParams"))) [sp] = Next [sp]) by reflexivity.
        assert (F3 : exec (Do (SDefine [T "queryParams"] (ECall (ESel (pkg "r" "URL") (T "Query")) []))) [sp] = Next [sq]).
        { eapply eq_trans; [eapply ex_define with (v := VQuery query); [|reflexivity|]|reflexivity]. 2: { unfold sp. cbn [in_top find_in]. change (str_eqb (T "queryParams") (T "pathParams")) with false. cbn iota. rewrite P2. reflexivity. }
          eapply ev_method with (v := VUrl); [discriminate|eapply ev_field with (v := VHttp) (t := None); [|reflexivity]|apply all_nil|reflexivity].
          unfold sp. cbn [look find_in]. change (str_eqb (T "r") (T "pathParams")) with false. cbn iota. rewrite Lr. reflexivity. }
        assert (F4 : exec (Do (SAssign (v "_") (v "queryParams"))) [sq] = Next [sq]) by reflexivity.
        rewrite eq_cons, F1, eq_cons, F2, eq_cons, F3, eq_cons, F4. apply ex_nil.
      - split; [discriminate|reflexivity| | | | |].
        + exists te. unfold sq, sp. cbn [look find_in]. change (str_eqb (T "err") (T "queryParams")) with false. change (str_eqb (T "err") (T "pathParams")) with false. cbn iota. rewrite Le. reflexivity.
        + exists tr. unfold sq, sp. cbn [look find_in]. change (str_eqb (T "req") (T "queryParams")) with false. change (str_eqb (T "req") (T "pathParams")) with false. cbn iota. rewrite Lq. reflexivity.
        + exists None. reflexivity.
        + exists None. reflexivity.
        + intros y Y. left. unfold sq, sp in Y. cbn [look find_in] in Y. destruct (str_eqb y (T "queryParams")) eqn:Y1; [apply str_eqb_eq in Y1; subst y; cbn [head_names In]; auto 8|].
          destruct (str_eqb y (T "pathParams")) eqn:Y2; [apply str_eqb_eq in Y2; subst y; cbn [head_names In]; auto 8|]. apply D. destruct (find_in sc y); [discriminate|exact Y]. }
    assert (DOM : forall r0 y, find_in ((T "err", (@None ty, VErr false)) :: (T "buf", (None, VBytes s0)) :: (T "req", (Some (TyName request_type), VReq r0)) :: top0) y <> None -> In y head_names).
    { intros r0 y Y. cbn [find_in top0] in Y. destruct (str_eqb y (T "err")) eqn:Y1; [apply str_eqb_eq in Y1; subst y; cbn [head_names In]; auto 8|]. destruct (str_eqb y (T "buf")) eqn:Y2; [apply str_eqb_eq in Y2; subst y; cbn [head_names In]; auto 8|].
      destruct (str_eqb y (T "req")) eqn:Y3; [apply str_eqb_eq in Y3; subst y; cbn [head_names In]; auto 8|]. destruct (str_eqb y (T "r")) eqn:Y4; [apply str_eqb_eq in Y4; subst y; cbn [head_names In]; auto 8|]. destruct (Y eq_refl). }
    destruct body as [bs|] eqn:Ebody.
    - unfold s0, b0 in *. clear s0 b0. rewrite <- Ebody in *. rewrite ex_skip by reflexivity. rewrite eq_cons.
      destruct bs as [|c bs].
      + rewrite ex_skip by reflexivity. apply TAIL; try reflexivity; [eexists; reflexivity|eexists; reflexivity|exact (DOM zero)].
      + set (bs' := c :: bs) in *.
        assert (CND : eval [[]; sc2] (EBin (T ">") (ECall (v "len") [v "buf"]) (ENum (T "0"))) = Ok (VG (VB true))).
        { eapply ev_bin; [eapply ev_len; [reflexivity|eapply ev_var; reflexivity|reflexivity]|apply ev_num; reflexivity|]. reflexivity. }
        set (um := (T "unmarshaller", (@None ty, VOptions))).
        assert (U : exec (Do (SDefine [T "unmarshaller"] (ELit (TySel (T "protojson") (T "UnmarshalOptions")) [T "AllowPartial"; T "DiscardUnknown"] [v "true"; v "true"]))) [[]; []; sc2] = Next [[um]; []; sc2]).
        { eapply eq_trans; [eapply ex_define with (v := VOptions); [|reflexivity|reflexivity]|reflexivity]. eapply ev_lit; [eapply all_cons; [eapply ev_free; reflexivity|eapply all_cons; [eapply ev_free; reflexivity|apply all_nil]]|reflexivity]. }
        destruct (pj_dec K bs') as [r|] eqn:Ep.
        * set (sc3 := (T "err", (@None ty, VErr false)) :: (T "buf", (None, VBytes bs')) :: (T "req", (Some (TyName request_type), VReq r)) :: top0).
          assert (I : run_simple (SAssign (v "err") (ECall (pkg "unmarshaller" "Unmarshal") [v "buf"; EAddr (v "req")])) [[]; [um]; []; sc2] = Next [[]; [um]; []; sc3]).
          { cbn [GoLang.run_simple]. change (effects (ECall (pkg "unmarshaller" "Unmarshal") [v "buf"; EAddr (v "req")])) with true. cbn iota.
            assert (X : effect K zero request_type vars query body [[]; [um]; []; sc2] (ECall (pkg "unmarshaller" "Unmarshal") [v "buf"; EAddr (v "req")]) = (Ok (VErr false), [[]; [um]; []; sc3])).
            { rewrite (effect_options _ (T "unmarshaller") _ (T "req") bs' None (Some (TyName request_type)) zero); [rewrite Ep; reflexivity|reflexivity|reflexivity|reflexivity]. }
            rewrite X. reflexivity. }
          rewrite (ex_if K zero request_type vars query body SNone _ _ Nil [sc2] [[]; sc2] true (Next [[um]; []; sc3])); [| reflexivity|exact CND|].
          -- cbn [leave]. apply TAIL; try reflexivity; [eexists; reflexivity|eexists; reflexivity|exact (DOM r)].
          -- cbn iota. rewrite eq_cons, U. eapply ex_cons; [|apply ex_nil].
             rewrite (ex_if K zero request_type vars query body _ _ _ Nil [[um]; []; sc2] [[]; [um]; []; sc3] false (Next [[]; []; [um]; []; sc3])); [reflexivity|exact I|reflexivity|reflexivity].
        * set (sc3 := (T "err", (@None ty, VErr true)) :: (T "buf", (None, VBytes bs')) :: sc1).
          assert (I : run_simple (SAssign (v "err") (ECall (pkg "unmarshaller" "Unmarshal") [v "buf"; EAddr (v "req")])) [[]; [um]; []; sc2] = Next [[]; [um]; []; sc3]).
          { cbn [GoLang.run_simple]. change (effects (ECall (pkg "unmarshaller" "Unmarshal") [v "buf"; EAddr (v "req")])) with true. cbn iota.
            assert (X : effect K zero request_type vars query body [[]; [um]; []; sc2] (ECall (pkg "unmarshaller" "Unmarshal") [v "buf"; EAddr (v "req")]) = (Ok (VErr true), [[]; [um]; []; sc2])).
            { rewrite (effect_options _ (T "unmarshaller") _ (T "req") bs' None (Some (TyName request_type)) zero); [rewrite Ep; reflexivity|reflexivity|reflexivity|reflexivity]. }
            rewrite X. reflexivity. }
          set (inner := [[]; []; [um]; []; sc3]).
          set (sz := (T "size", (@None ty, VG (VZ 8196)))).
          assert (Z1 : exec (Do (SConst (T "size") (T "8196"))) inner = Next [[sz]; []; [um]; []; sc3]) by reflexivity.
          set (c1 := EBin (T ">") (ECall (v "len") [v "buf"]) (v "size")).
          assert (Z2 : exists bs2, exec (If SNone c1 (block_of [Do (SAssign (v "buf") (EUpTo (v "buf") (v "size")))]) Nil) [[sz]; []; [um]; []; sc3]
                         = Next [[sz]; []; [um]; []; (T "err", (@None ty, VErr true)) :: (T "buf", (None, VBytes bs2)) :: sc1]).
          { assert (B : eval [[]; [sz]; []; [um]; []; sc3] c1 = Ok (VG (VB (Z.ltb 8196 (Z.of_nat (length bs')))))).
            { unfold c1. eapply ev_bin; [eapply ev_len; [reflexivity|eapply ev_var; reflexivity|reflexivity]|eapply ev_var; reflexivity|reflexivity]. }
            destruct (Z.ltb 8196 (Z.of_nat (length bs'))) eqn:El.
            - exists (firstn (Z.to_nat 8196) bs'). rewrite (ex_if K zero request_type vars query body SNone c1 _ Nil [[sz]; []; [um]; []; sc3] [[]; [sz]; []; [um]; []; sc3] true
                (Next [[]; []; [sz]; []; [um]; []; (T "err", (@None ty, VErr true)) :: (T "buf", (None, VBytes (firstn (Z.to_nat 8196) bs'))) :: sc1])); [reflexivity|reflexivity|exact B|].
              cbn iota. eapply ex_cons; [|apply ex_nil]. eapply ex_assign with (v := VBytes (firstn (Z.to_nat 8196) bs')); [reflexivity| |reflexivity].
              cbn [GoLang.eval v]. change (look [[]; []; [sz]; []; [um]; []; sc3] (T "buf")) with (Some (@None ty, VBytes bs')). change (look [[]; []; [sz]; []; [um]; []; sc3] (T "size")) with (Some (@None ty, VG (VZ 8196))). cbn iota.
              change (nat_of (VG (VZ 8196))) with (Some (Z.to_nat 8196)). cbn iota. assert (Lb : Nat.leb (Z.to_nat 8196) (length bs') = true) by (apply Nat.leb_le; apply Z.ltb_lt in El; lia). rewrite Lb. reflexivity.
            - exists bs'. apply ex_skip. exact B. }
          destruct Z2 as (bs2 & Z2). set (sc4 := (T "err", (@None ty, VErr true)) :: (T "buf", (None, VBytes bs2)) :: sc1) in *.
          assert (ZR : exec (Do (SReturn [v "nil"; ELit (TyName (T "httpError")) [] [ECall (pkg "errors" "Wrapf") [v "err"; say "request body '%s': cannot parse non-json request body"; v "buf"]; pkg "http" "StatusBadRequest"; v "nil"]])) [[sz]; []; [um]; []; sc4]
              = Return [VNil; VErr true] [[sz]; []; [um]; []; sc4]).
          { apply ex_return2; [eapply ev_free; reflexivity|]. eapply ev_lit with (vs := [VErr true; VOther; VNil]); [|reflexivity]. eapply all_cons; [|eapply all_cons; [apply ev_const; reflexivity|eapply all_cons; [eapply ev_free; reflexivity|apply all_nil]]].
            eapply ev_lib; [reflexivity|eapply all_cons; [eapply ev_var; reflexivity|]; eapply all_cons; [apply ev_str; reflexivity|]; eapply all_cons; [eapply ev_var; reflexivity|apply all_nil]|apply lib_wrapf]. }
          exists [[sz]; []; [um]; []; sc4].
          rewrite (ex_if K zero request_type vars query body SNone _ _ Nil [sc2] [[]; sc2] true (Return [VNil; VErr true] [[sz]; []; [um]; []; sc4])); [reflexivity|reflexivity|exact CND|].
          cbn iota. rewrite eq_cons, U. apply ex_ret.
          rewrite (ex_if K zero request_type vars query body _ _ _ Nil [[um]; []; sc2] [[]; [um]; []; sc3] true (Return [VNil; VErr true] [[sz]; []; [um]; []; sc4])); [reflexivity|exact I|reflexivity|].
          cbn iota. cbn [block_of]. fold inner. rewrite eq_cons, Z1, eq_cons. fold c1. cbn [block_of] in Z2. rewrite Z2. apply ex_ret. exact ZR.
    - eexists. unfold b0 in *.
      rewrite (ex_if K zero request_type vars query None SNone failed _ Nil [sc2] [[]; sc2] true (Return [VNil; VErr true] [[]; []; sc2])); [reflexivity|reflexivity|reflexivity|].
      cbn iota. apply ex_ret, ex_return2; [eapply ev_free; reflexivity|]. eapply ev_lib; [reflexivity|eapply all_cons; [eapply ev_var; reflexivity|]; eapply all_cons; [apply ev_str; reflexivity|apply all_nil]|apply lib_wrapf].
  Qed.

  (** ** The function *)
  Theorem run_decoder b : caps (flat_map Wiring.path_locals (hb_fields b) ++ flat_map Wiring.oneof_locals (hb_oneofs b)) ->
    NoDup (flat_map Wiring.path_locals (hb_fields b) ++ flat_map Wiring.oneof_locals (hb_oneofs b)) ->
    Forall (fun f => str_eqb (hf_loc f) (T "body") = true \/ places f /\ well_made (flat_map Wiring.path_locals (hb_fields b)) f) (hb_fields b) ->
    (forall f, In f (hb_fields b) -> hf_loc f = T "path" -> ~ In (local f "StrArr") (flat_map Wiring.path_locals (hb_fields b))) ->
    Forall (fun o => str_eqb (ho_loc o) (T "query") = true -> cap (ho_name o) = true /\
      Forall (fun f => well_made (flat_map Wiring.path_locals (hb_fields b) ++ flat_map Wiring.oneof_locals (hb_oneofs b)) f /\ hf_rep f = false) (ho_options o)) (hb_oneofs b) ->
    call K zero request_type vars query body (decoder_prog request_type b) =
    Some match body with
         | None => DErr
         | Some s => match (match s with [] => Some zero | _ => pj_dec K s end) with
                     | Some r => match decode_fields K vars query (hb_fields b) r false with DOk r' err' => decode_oneofs K query (hb_oneofs b) r' err' | x => x end
                     | None => DErr
                     end
         end.
  Proof.
    intros CP ND HF HA HO. unfold call. change [[(T "r", (@None ty, VHttp))]] with [top0]. unfold decoder_prog. rewrite ex_app. pose proof run_head as R. destruct body as [s|] eqn:Eb; [|destruct R as (e & ->); reflexivity]. rewrite <- Eb in *.
    destruct (match s with [] => Some zero | _ => pj_dec K s end) as [r|]; [|destruct R as (e & ->); reflexivity].
    destruct R as (e & -> & S). rewrite ex_app.
    assert (C0 : caps []) by (intros y []). pose proof (run_fields (hb_fields b) [] e r false HF C0 (proj1 (proj2 (NoDup_app_in _ _ ND))) HA S) as R. cbn [app] in R. unfold agrees in R.
    destruct (decode_fields K vars query (hb_fields b) r false) as [r' err'| |]; [|destruct R as (e1 & ->); reflexivity|rewrite R; reflexivity].
    destruct R as (e1 & -> & S1). rewrite ex_app.
    assert (C1 : caps (flat_map Wiring.path_locals (hb_fields b))) by (intros y I; apply CP; apply in_or_app; left; exact I).
    pose proof (run_oneofs (hb_oneofs b) _ e1 r' err' C1 S1 ND HO) as R. unfold agrees in R.
    destruct (decode_oneofs K query (hb_oneofs b) r' err') as [r2 err2| |]; [|destruct R as (e2 & ->); reflexivity|rewrite R; reflexivity].
    destruct R as (e2 & -> & S2). destruct (s_err _ _ _ _ S2) as (te & Le). destruct (s_req _ _ _ _ S2) as (tr & Lr). cbn [block_of].
    rewrite (ex_ret K zero request_type vars query body _ Nil e2 [VPtr (T "req"); VErr err2] e2); [rewrite Lr; reflexivity|].
    apply ex_return2; [eapply ev_ptr; exact Lr|eapply ev_var; exact Le].
  Qed.
End Run.
