(** Running the tree of a generated request decoder. *)
From Coq Require Import String Lia.
From Verif Require Import GoStr GoStrProofs GoMap Strs HttpTransport Decimals DecodeProofs Url GenHttp GoLex GoLang GoLangProofs DecoderProg DecoderText.

(** ** Names *)
Definition cap (s : str) : bool := match s with c :: _ => is_upper c | [] => false end.
Definition low (s : str) : bool := match s with c :: _ => negb (is_upper c) | [] => true end.
Lemma cap_neq a b : cap a = true -> low b = true -> str_eqb a b = false.
Proof. intros A B. apply neq_eqb. intros ->. destruct b as [|c b]; [discriminate|]. cbn [cap low] in *. rewrite A in B. discriminate. Qed.
Lemma cap_neq' a b : cap a = true -> low b = true -> str_eqb b a = false. Proof. intros A B. rewrite str_eqb_sym. exact (cap_neq a b A B). Qed.
Lemma cap_app a b : cap a = true -> cap (a ++ b) = true. Proof. destruct a; [discriminate|]. intro H. exact H. Qed.
Lemma suffix_neq a b : b <> [] -> str_eqb (a ++ b) a = false /\ str_eqb a (a ++ b) = false.
Proof.
  intro H. assert (N : a ++ b <> a) by (intro E; apply H; apply (app_inv_head a); rewrite E, app_nil_r; reflexivity). split; apply neq_eqb; [exact N|]. intro E. apply N. symmetry. exact E.
Qed.
Lemma suffixes_neq a b c : b <> c -> str_eqb (a ++ b) (a ++ c) = false. Proof. intro H. apply neq_eqb. intro E. apply H. apply app_inv_head in E. exact E. Qed.
(** The name of a type: a scalar type, or exported. *)
Definition type_name (g : str) : Prop := In g go_base_types \/ cap g = true.
Lemma type_neq g s : type_name g -> low s = true -> existsb (str_eqb s) go_base_types = false -> str_eqb g s = false.
Proof.
  intros [H|H] L N; [|apply cap_neq; assumption]. apply neq_eqb. intros ->. assert (E : existsb (str_eqb s) go_base_types = true) by (apply existsb_exists; exists s; split; [exact H|apply str_eqb_refl]). rewrite E in N. discriminate.
Qed.
(** The names that generated code takes from Go and its imports *)
Definition library : list str := map T ["nil"; "true"; "len"; "make"; "strconv"; "json"; "errors"; "fmt"; "mux"; "http"; "ioutil"; "protojson"]%string.
Definition quiet (e : env) : Prop := forall n, In n library -> look e n = None.

(** Goals with lookups and names *)
Ltac neq := first [reflexivity | assumption | (rewrite str_eqb_sym; assumption) | (apply cap_neq; [assumption|reflexivity]) | (apply cap_neq'; [assumption|reflexivity]) | (apply type_neq; [assumption|reflexivity|reflexivity]) | (rewrite str_eqb_sym; apply type_neq; [assumption|reflexivity|reflexivity])].
Ltac eqs :=
  repeat match goal with
  | |- context[str_eqb ?a ?a] => rewrite (str_eqb_refl a)
  | |- context[str_eqb ?a ?b] => let E := fresh in assert (E : str_eqb a b = false) by neq; rewrite E; clear E
  end; cbn [orb andb negb].
Ltac lk :=
  rewrite ?look_push, ?look_declare, ?look_set; eqs; rewrite ?look_push, ?look_declare, ?look_set; eqs; rewrite ?look_push;
  repeat match goal with H : look ?e ?y = Some _ |- context[look ?e ?y] => rewrite H end;
  first [reflexivity | eassumption | match goal with Q : quiet ?e |- look ?e _ = None => apply Q; cbn [library map In]; tauto end].
Ltac tops := rewrite ?in_top_push, ?in_top_declare, ?in_top_set; eqs; rewrite ?in_top_push, ?in_top_declare, ?in_top_set; eqs; first [reflexivity|assumption].

Section Run.
  Variable K : codecs.
  Variable zero : request.
  Variable request_type : str.
  Variable vars : gomap str.
  Variable query : values.
  Variable body : option str.
  Notation eval := (GoLang.eval K zero request_type vars query body).
  Notation exec := (GoLang.exec K zero request_type vars query body).
  Notation exec_block := (GoLang.exec_block K zero request_type vars query body).
  Notation run_simple := (GoLang.run_simple K zero request_type vars query body).
  Notation all_ok := (GoLangProofs.all_ok K zero request_type vars query body).

  Ltac ev :=
    lazymatch goal with
    | |- eval _ (EVar _) = _ => first [eapply ev_var; lk | eapply ev_free; [lk|reflexivity]]
    | |- eval _ (ENum _) = _ => apply ev_num; reflexivity
    | |- eval _ (EStr _) = _ => apply ev_str; reflexivity
    | |- eval _ (ECall (EVar ?l) [_]) = _ => eapply ev_len; [lk|ev|reflexivity]
    | |- eval _ (ECall (ESel (EVar _) _) _) = _ => eapply ev_lib; [lk|evs|reflexivity]
    | |- eval _ (ECall (EType _) _) = _ => apply ev_bytes; ev
    | |- eval _ (EIndex _ _) = _ => eapply ev_index; [ev|ev|reflexivity]
    | |- eval _ (EBin _ _ _) = _ => eapply ev_bin; [ev|ev|reflexivity]
    | |- eval _ (EAddr (EVar _)) = _ => eapply ev_ptr; lk
    | |- eval _ (ELit _ _ _) = _ => eapply ev_lit; [evs|reflexivity]
    | |- eval _ (EAddr (ELit _ _ _)) = _ => eapply ev_addr_lit; [ev|reflexivity]
    end
  with evs :=
    lazymatch goal with
    | |- GoLangProofs.all_ok _ _ _ _ _ _ _ [] _ => apply all_nil
    | |- GoLangProofs.all_ok _ _ _ _ _ _ _ (_ :: _) _ => eapply all_cons; [ev|evs]
    end.

  (** ** Checks *)
  Lemma check_pass f e t : quiet e -> look e (T "err") = Some (t, VErr false) -> exec (decode_check f) e = Next e.
  Proof. intros Q H. apply ex_skip. unfold failed, v. ev. Qed.
  Lemma check_fail f e t d : quiet e -> look e (T "err") = Some (t, VErr true) -> look e (local f "Str") = Some d -> exists e', exec (decode_check f) e = Return [VNil; VErr true] e'.
  Proof.
    intros Q H S. destruct d as [u w]. eexists. unfold decode_check. rewrite (ex_if K zero request_type vars query body SNone failed _ Nil e ([] :: e) true (Return [VNil; VErr true] ([] :: [] :: e))); [reflexivity|reflexivity|unfold failed, v; ev|].
    apply ex_ret, ex_return2; unfold v, pkg.
    - eapply ev_free; [lk|reflexivity].
    - eapply ev_lib; [lk|eapply all_cons; [ev|]; eapply all_cons; [apply ev_str; reflexivity|]; eapply all_cons; [ev|apply all_nil]|]. apply lib_wrapf.
  Qed.
  Lemma extract_pass f loc params e t : quiet e -> look e (T "err") = Some (t, VErr false) -> exec (extract_check f loc params) e = Next e.
  Proof. intros Q H. apply ex_skip. unfold failed, v. ev. Qed.
  Lemma extract_fail f loc params e t d : quiet e -> look e (T "err") = Some (t, VErr true) -> look e (params ++ T "Params") = Some d -> exists e', exec (extract_check f loc params) e = Return [VNil; VErr true] e'.
  Proof.
    intros Q H S. destruct d as [u w]. eexists. unfold extract_check. rewrite (ex_if K zero request_type vars query body SNone failed _ Nil e ([] :: e) true (Return [VNil; VErr true] ([] :: [] :: e))); [reflexivity|reflexivity|unfold failed, v; ev|].
    apply ex_ret, ex_return2; unfold v, pkg.
    - eapply ev_free; [lk|reflexivity].
    - eapply ev_lib; [lk|eapply all_cons; [ev|]; eapply all_cons; [|apply all_nil]|apply lib_wrap]. eapply ev_lib; [lk|eapply all_cons; [apply ev_str; reflexivity|]; eapply all_cons; [eapply ev_var; exact S|apply all_nil]|apply lib_sprintf].
  Qed.

  (** ** Parsing *)
  Definition parse_call (p : scalar_parse) (y : str) : expr :=
    let bits n := ENum (if Nat.eqb n 32 then T "32" else T "64") in
    match p with
    | PUint n => ECall (pkg "strconv" "ParseUint") [EVar y; ENum (T "10"); bits n]
    | PInt n => ECall (pkg "strconv" "ParseInt") [EVar y; ENum (T "10"); bits n]
    | PBool => ECall (pkg "strconv" "ParseBool") [EVar y]
    | PFloat n => ECall (pkg "strconv" "ParseFloat") [EVar y; bits n]
    | PCopy => EVar y
    end.
  Definition widths (p : scalar_parse) : Prop := match p with PUint n | PInt n | PFloat n => n = 32 \/ n = 64 | _ => True end.
  Lemma parse_is p x y : p <> PCopy -> parse_stmt p x y = Do (SDefine [x; T "err"] (parse_call p y)). Proof. destruct p; try reflexivity. intro H. destruct (H eq_refl). Qed.
  Lemma parse_eval p y e t s : p <> PCopy -> widths p -> quiet e -> look e y = Some (t, VG (VS s)) -> eval e (parse_call p y) = parsed K p s.
  Proof.
    intros N W Q L. destruct p as [n|n| |n|]; [| | | |destruct (N eq_refl)]; unfold parse_call, pkg, v; try (destruct W as [-> | ->]); cbn [Nat.eqb];
      (eapply ev_lib; [lk|evs|first [apply lib_uint|apply lib_int|apply lib_bool|apply lib_float]; reflexivity]).
  Qed.
  Lemma parse_index p y : index_expr (parse_call p y) = false. Proof. destruct p; reflexivity. Qed.
  Lemma table_widths g p : scalar_table g = Some p -> widths p.
  Proof. unfold scalar_table. intro H. repeat match type of H with (if ?b then _ else _) = _ => destruct b; [injection H as <-; cbn [widths]; auto|] end. discriminate. Qed.
  (** Casts *)
  Lemma uint_wrap s z : parse_uint 32 s = Some z -> wrap_u32 z = z.
  Proof. intro H. apply parse_uint_iff in H. destruct H as (H1 & H2 & H3). unfold wrap_u32. apply Z.mod_small. change (2 ^ Z.of_nat 32)%Z with 4294967296%Z in H3. split; [|exact H3]. subst z. apply dec_nonneg; exact H1. Qed.
  Lemma int_wrap s z : parse_int 32 s = Some z -> wrap_i32 z = z.
  Proof.
    intro H. apply parse_int_iff in H; [|lia]. destruct H as (_ & H). change (2 ^ (Z.of_nat 32 - 1))%Z with 2147483648%Z in H. unfold wrap_i32. rewrite Z.mod_small by lia. lia.
  Qed.
  Definition narrow (g : str) : bool := existsb (str_eqb g) [T "uint32"; T "int32"; T "float32"].
  Lemma cast_base g p s w : scalar_table g = Some p -> narrow g = true -> parse_scalar K p s = Some w -> convert_to g (VG w) = Ok (VG w).
  Proof.
    intros Hp N H. unfold narrow in N. cbn [existsb] in N. rewrite !Bool.orb_true_iff in N. destruct N as [N|[N|[N|N]]]; [| | |discriminate]; apply str_eqb_eq in N; subst g; vm_compute in Hp; injection Hp as <-; cbn [parse_scalar] in H.
    - destruct (parse_uint 32 s) as [z|] eqn:E; [|discriminate]. injection H as <-. cbn [convert_to]. change (str_eqb (T "uint32") (T "uint32")) with true. cbn iota. rewrite (uint_wrap _ _ E). reflexivity.
    - destruct (parse_int 32 s) as [z|] eqn:E; [|discriminate]. injection H as <-. cbn [convert_to]. transitivity (Ok (VG (VZ (wrap_i32 z)))); [reflexivity|]. rewrite (int_wrap _ _ E). reflexivity.
    - destruct (fl_parse K 32 s) as [z|] eqn:E; [|discriminate]. injection H as <-. reflexivity.
  Qed.
  Lemma cast_enum g s w : ~ In g go_base_types -> parse_scalar K (PInt 32) s = Some w -> convert_to g (VG w) = Ok (VG w).
  Proof.
    intros N H. cbn [parse_scalar] in H. destruct (parse_int 32 s) as [z|] eqn:E; [|discriminate]. injection H as <-.
    assert (X : forall t, In t go_base_types -> str_eqb g t = false) by (intros t Ht; apply neq_eqb; intros ->; contradiction).
    cbn [convert_to]. rewrite !X by (cbn [go_base_types In]; tauto). cbn [orb]. rewrite (int_wrap _ _ E). reflexivity.
  Qed.

  (** ** The conversion of a value *)
  Section Value.
    Variable f : hfield.
    Variables loc params : str.
    Let x := hf_local f.
    Let xs := local f "Str".
    Let xa := local f "StrArr".
    Let g := hf_gotype f.
    Hypothesis Cx : cap x = true.
    Hypothesis Hr : regular f.
    Hypothesis Hg : type_name g.
    Hypothesis Gx : str_eqb g x = false.
    Lemma Cxs : cap xs = true. Proof. apply cap_app. exact Cx. Qed.
    Lemma Cxa : cap xa = true. Proof. apply cap_app. exact Cx. Qed.
    Lemma Nxs : str_eqb xs x = false. Proof. apply suffix_neq. discriminate. Qed.
    Lemma Nxa : str_eqb xa x = false. Proof. apply suffix_neq. discriminate. Qed.
    Lemma Nsa : str_eqb xs xa = false. Proof. apply suffixes_neq. discriminate. Qed.
    Lemma Npar : In params [T "path"; T "query"] -> low (params ++ T "Params") = true. Proof. intros [<-|[<-|[]]]; reflexivity. Qed.

    Definition chk : block := block_of (if hf_check f then [extract_check f loc params] else []).
    Definition no_type_of (e : env) : Prop := look e g = None.
    Definition array_in (e : env) (arr : option (list str)) : Prop := match arr with Some l => exists t, look e xa = Some (t, VG (VList (map VS l))) | None => look e xa = None end.
    (** What conversion leaves: the variable has the value; the err of the function is [err']; nothing else has changed, but for the text. *)
    Definition converted (e : env) (w : gval) (err' shadow : bool) (e1 : env) : Prop :=
      e1 <> [] /\ (exists t, look e1 x = Some (t, VG w)) /\
      (if shadow then tl e1 = set (tl e) (T "err") (VErr err') else tl e1 = tl e /\ exists t, look e1 (T "err") = Some (t, VErr err')) /\
      (forall y, str_eqb y x = false -> str_eqb y (T "err") = false -> str_eqb y xs = false -> look e1 y = look e y /\ in_top e1 y = in_top e y).
    Definition outcome_of (c : cres) (e : env) (shadow : bool) (r : res) : Prop :=
      match c with
      | CVal w err' => exists e1, r = Next e1 /\ converted e w err' shadow e1
      | CFail => exists e1, r = Return [VNil; VErr true] e1
      | CBroken => r = Stop Reject
      end.
    Section In_env.
      Variable e : env.
      Variables te ts : option ty.
      Variables (shadow err : bool) (s : str) (arr : option (list str)) (dp : option ty * val).
      Hypothesis Ne : e <> [].
      Hypothesis Q : quiet e.
      Hypothesis Le : look e (T "err") = Some (te, VErr err).
      Hypothesis Te : in_top e (T "err") = negb shadow.
      Hypothesis Ls : look e xs = Some (ts, VG (VS s)).
      Hypothesis La : array_in e arr.
      Hypothesis Tx : in_top e x = false.
      Hypothesis Lg : no_type_of e.
      Hypothesis Lp : look e (params ++ T "Params") = Some dp.
      Hypothesis Cp : In params [T "path"; T "query"].
      Lemma Npx : str_eqb (params ++ T "Params") x = false. Proof. apply cap_neq'; [exact Cx|apply Npar; exact Cp]. Qed.
      Lemma Npe : str_eqb (params ++ T "Params") (T "err") = false. Proof. apply neq_eqb. intro E. apply (f_equal (@length N)) in E. rewrite app_length in E. cbn in E. lia. Qed.
      Lemma quiet_x t w : quiet (declare e x t w).
      Proof. intros n Hn. rewrite look_declare. assert (E : str_eqb n x = false) by (apply cap_neq'; [exact Cx|]; cbn [library map In] in Hn; repeat (destruct Hn as [<-|Hn]; [reflexivity|]); destruct Hn). rewrite E. apply Q. exact Hn. Qed.
      Lemma quiet_declare e0 n0 t w : quiet e0 -> ~ In n0 library -> quiet (declare e0 n0 t w).
      Proof. intros Q0 N n Hn. rewrite look_declare. rewrite neq_eqb by (intros ->; contradiction). apply Q0. exact Hn. Qed.
      Lemma quiet_set e0 n0 w : quiet e0 -> quiet (set e0 n0 w).
      Proof. intros Q0 n Hn. rewrite look_set. destruct (str_eqb n n0) eqn:E; [|apply Q0; exact Hn]. apply str_eqb_eq in E. subst n0. rewrite (Q0 n Hn). reflexivity. Qed.
      Lemma err_not_lib : ~ In (T "err") library. Proof. intro H. cbn [library map In] in H. repeat (destruct H as [H|H]; [discriminate|]). destruct H. Qed.
      (** A scalar that is parsed *)
      Lemma run_scalar p : hf_conv f = CvScalar p -> p <> PCopy -> widths p -> hf_check f = true ->
        outcome_of (run_convert K f arr s shadow err) e shadow (exec_block (block_app (convert_code f) chk) e).
      Proof.
        intros Ec Np W Hc. unfold run_convert, convert_code, chk. rewrite Ec, Hc. cbn [block_app block_of].
        assert (R : match p with PCopy => CVal (VS s) err | _ => match parse_scalar K p s with Some w => CVal w (if shadow then err else false) | None => CFail end end =
          match parse_scalar K p s with Some w => CVal w (if shadow then err else false) | None => CFail end) by (destruct p; try reflexivity; destruct (Np eq_refl)).
        match goal with |- outcome_of ?c _ _ _ => replace c with (match parse_scalar K p s with Some w => CVal w (if shadow then err else false) | None => CFail end) by (destruct p; try reflexivity; destruct (Np eq_refl)) end. clear R.
        pose proof (parse_eval p xs e ts s Np W Q Ls) as P. unfold parsed in P. pose proof Cxs as Cs. pose proof Npx as N1. pose proof Npe as N2. pose proof Nxs as N3.
        assert (Nx : str_eqb x (T "err") = false) by (apply cap_neq; [exact Cx|reflexivity]).
        fold x. fold xs. rewrite parse_is by exact Np. destruct shadow; cbn [negb] in Te.
        - (* x and err are new *)
          assert (D : forall b w, eval e (parse_call p xs) = Ok (VPair w (VErr b)) -> exec (Do (SDefine [x; T "err"] (parse_call p xs))) e = Next (declare (declare e x None w) (T "err") None (VErr b))).
          { intros b w E. rewrite eq_do. apply run_define2_new; [exact E|apply parse_index|exact Tx|exact Nx|exact Te]. }
          destruct (parse_scalar K p s) as [w|] eqn:Ep.
          + exists (declare (declare e x None (VG w)) (T "err") None (VErr false)). split.
            * eapply ex_cons; [exact (D _ _ P)|]. eapply ex_cons; [|apply ex_nil]. eapply extract_pass; [apply quiet_declare; [apply quiet_x|exact err_not_lib]|lk].
            * split; [apply declare_nonempty|]. split; [eexists; lk|]. split.
              -- rewrite !tl_declare by (try apply declare_nonempty; exact Ne). rewrite (set_same _ _ te (VErr err)); [reflexivity|].
                 destruct e as [|sc e0]; [contradiction|]. cbn [tl look in_top] in *. destruct (find_in sc (T "err")); [discriminate|exact Le].
              -- intros y Y1 Y2 Y3. rewrite !look_declare, !in_top_declare, Y1, Y2. split; reflexivity.
          + destruct (extract_fail f loc params (declare (declare e x None (VG VNone)) (T "err") None (VErr true)) None dp) as [e1 E1]; [apply quiet_declare; [apply quiet_x|exact err_not_lib]|lk| |].
            * rewrite !look_declare, N1, N2. exact Lp.
            * exists e1. eapply ex_cons; [exact (D _ _ P)|]. apply ex_ret. exact E1.
        - (* x is new *)
          assert (D : forall b w, eval e (parse_call p xs) = Ok (VPair w (VErr b)) -> exec (Do (SDefine [x; T "err"] (parse_call p xs))) e = Next (set (declare e x None w) (T "err") (VErr b))).
          { intros b w E. rewrite eq_do. apply run_define2_old; [exact E|apply parse_index|exact Tx|exact Nx|exact Te]. }
          destruct (parse_scalar K p s) as [w|] eqn:Ep.
          + exists (set (declare e x None (VG w)) (T "err") (VErr false)). split.
            * eapply ex_cons; [exact (D _ _ P)|]. eapply ex_cons; [|apply ex_nil]. eapply extract_pass; [apply quiet_set, quiet_x|lk].
            * split; [apply set_nonempty, declare_nonempty|]. split; [eexists; lk|]. split.
              -- split; [|eexists; lk]. rewrite tl_set_top, tl_declare by (try exact Ne; rewrite in_top_declare, Te; apply Bool.orb_true_r). reflexivity.
              -- intros y Y1 Y2 Y3. rewrite look_set, in_top_set, !look_declare, in_top_declare, Y1, Y2. split; reflexivity.
          + destruct (extract_fail f loc params (set (declare e x None (VG VNone)) (T "err") (VErr true)) te dp) as [e1 E1]; [apply quiet_set, quiet_x|lk| |].
            * rewrite !look_set, !look_declare, N1, N2. exact Lp.
            * exists e1. eapply ex_cons; [exact (D _ _ P)|]. apply ex_ret. exact E1.
      Qed.
      (** A text *)
      Lemma tl_err : shadow = true -> look (tl e) (T "err") = Some (te, VErr err).
      Proof. intro H. clear -Ne Le Te H. rewrite H in Te. cbn [negb] in Te. destruct e as [|sc e0]; [contradiction|]. cbn [tl look in_top] in *. destruct (find_in sc (T "err")); [discriminate|exact Le]. Qed.
      Lemma run_copy : hf_conv f = CvScalar PCopy -> hf_check f = false -> outcome_of (run_convert K f arr s shadow err) e shadow (exec_block (block_app (convert_code f) chk) e).
      Proof.
        intros Ec Hc. unfold run_convert, convert_code, chk. rewrite Ec, Hc. cbn [block_app block_of parse_stmt outcome_of]. fold x. fold xs.
        assert (Nx : str_eqb x (T "err") = false) by (apply cap_neq; [exact Cx|reflexivity]).
        exists (declare e x None (VG (VS s))). split.
        - eapply ex_cons; [|apply ex_nil]. apply ex_define; [eapply ev_var; exact Ls|reflexivity|exact Tx].
        - split; [apply declare_nonempty|]. split; [eexists; lk|]. split.
          + rewrite tl_declare by exact Ne. pose proof tl_err as TE. destruct shadow; [rewrite (set_same _ _ te (VErr err)) by (apply TE; reflexivity); reflexivity|]. split; [reflexivity|]. eexists. lk.
          + intros y Y1 Y2 Y3. rewrite look_declare, in_top_declare, Y1. split; reflexivity.
      Qed.
      (** A message *)
      Lemma run_single : hf_conv f = CvSingle -> hf_check f = false -> outcome_of (run_convert K f arr s shadow err) e shadow (exec_block (block_app (convert_code f) chk) e).
      Proof.
        intros Ec Hc. unfold run_convert, convert_code, chk. rewrite Ec, Hc. cbn [block_app block_of parse_stmt]. fold x. fold g. unfold from_json, elem_ty, v, pkg. fold xs. fold g.
        assert (Nx : str_eqb x (T "err") = false) by (apply cap_neq; [exact Cx|reflexivity]). pose proof Cxs as Cs. pose proof Nxs as N3.
        destruct (hf_star f); cbn [negb].
        - (* a pointer *)
          set (e1 := declare e x (Some (TyPtr (TyName g))) (VG VNone)). set (e2 := set e1 x (VG (VSome (empty_msg K)))).
          assert (Q2 : quiet e2) by (apply quiet_set, quiet_x).
          assert (L2 : forall y, str_eqb y x = false -> look e2 y = look e y) by (intros y Y; unfold e2, e1; rewrite look_set, !look_declare, Y; reflexivity).
          assert (T2 : forall y, str_eqb y x = false -> in_top e2 y = in_top e y) by (intros y Y; unfold e2, e1; rewrite in_top_set, in_top_declare, Y; reflexivity).
          assert (Tl2 : tl e2 = tl e) by (unfold e2, e1; rewrite tl_set_top by (rewrite in_top_declare, str_eqb_refl; reflexivity); apply tl_declare; exact Ne).
          assert (Lx : look e2 x = Some (Some (TyPtr (TyName g)), VG (VSome (empty_msg K)))) by (unfold e2, e1; lk).
          assert (Lerr : look e2 (T "err") = Some (te, VErr err)) by (rewrite L2 by neq; exact Le).
          assert (Ls2 : look e2 xs = Some (ts, VG (VS s))) by (rewrite L2 by neq; exact Ls).
          assert (R : exists w b, unmarshal_struct K (TyName g) (VG (VSome (empty_msg K))) s = (VG w, b) /\
            (if str_eqb s (T "null") then CVal (VSome (empty_msg K)) false else match js_dec K g false s with Some w => CVal (VSome w) false | None => CFail end) = (if b then CFail else CVal w false)).
          { cbn [unmarshal_struct]. destruct (str_eqb s (T "null")); [eexists; exists false; split; reflexivity|]. destruct (js_dec K g false s); [eexists; exists false; split; reflexivity|eexists; exists true; split; reflexivity]. }
          destruct R as (w & b & R1 & R2). rewrite R2. clear R2.
          set (e3 := set (set e2 x (VG w)) (T "err") (VErr b)).
          assert (X : exec_block (block_of [Do (SVar x (TyPtr (TyName g))); Do (SAssign (EVar x) (EAddr (ELit (TyName g) [] []))); Do (SAssign (EVar (T "err")) (ECall (ESel (EVar (T "json")) (T "Unmarshal")) [ECall (EType (TySlice (TyName (T "byte")))) [EVar xs]; EVar x]))]) e = Next e3).
          { cbn [block_of]. eapply ex_cons; [apply ex_var; exact Tx|]. eapply ex_cons; [eapply ex_assign; [reflexivity|eapply ev_addr_lit; [eapply ev_lit; [apply all_nil|reflexivity]|reflexivity]|eapply store_var; [neq|lk]]|].
            eapply ex_cons; [|apply ex_nil]. eapply ex_unmarshal_ptr; [apply Q2; cbn [library map In]; tauto|exact Lerr|exact Nx|apply ev_bytes; eapply ev_var; exact Ls2|exact Lx|exact R1]. }
          assert (Q3 : quiet e3) by (apply quiet_set, quiet_set; exact Q2).
          assert (L3 : look e3 (T "err") = Some (te, VErr b)) by (unfold e3; rewrite look_set, str_eqb_refl, look_set; eqs; rewrite Lerr; reflexivity).
          assert (Ls3 : look e3 xs = Some (ts, VG (VS s))) by (unfold e3; rewrite look_set; eqs; rewrite look_set; eqs; exact Ls2).
          cbn [block_of] in X. rewrite eq_cons in X. destruct (exec (Do (SVar x (TyPtr (TyName g)))) e) as [a1| |] eqn:X1; try discriminate. rewrite eq_cons in X. destruct (exec (Do (SAssign (EVar x) _)) a1) as [a2| |] eqn:X2; try discriminate.
          rewrite eq_cons in X. destruct (exec (Do (SAssign (EVar (T "err")) _)) a2) as [a3| |] eqn:X3; try discriminate. rewrite ex_nil in X. injection X as ->.
          destruct b.
          + destruct (check_fail f e3 te _ Q3 L3 Ls3) as [e4 E4]. exists e4. eapply ex_cons; [exact X1|]. eapply ex_cons; [exact X2|]. eapply ex_cons; [exact X3|]. apply ex_ret. exact E4.
          + exists e3. split; [eapply ex_cons; [exact X1|]; eapply ex_cons; [exact X2|]; eapply ex_cons; [exact X3|]; eapply ex_cons; [exact (check_pass f e3 te Q3 L3)|apply ex_nil]|].
            split; [apply set_nonempty, set_nonempty, set_nonempty, declare_nonempty|]. split; [eexists; unfold e3; rewrite look_set; eqs; rewrite look_set, str_eqb_refl, Lx; reflexivity|]. split.
            * assert (TT : tl (set e2 x (VG w)) = tl e) by (rewrite tl_set_top; [exact Tl2|unfold e2, e1; rewrite in_top_set, in_top_declare, str_eqb_refl; reflexivity]).
              assert (TI : in_top (set e2 x (VG w)) (T "err") = negb shadow) by (rewrite in_top_set, T2 by neq; exact Te).
              unfold e3. destruct shadow; cbn [negb] in TI; [rewrite tl_set_outer by exact TI; rewrite TT; reflexivity|]. split; [rewrite tl_set_top by exact TI; exact TT|]. eexists. exact L3.
            * intros y Y1 Y2 Y3. unfold e3. rewrite !in_top_set, !look_set, Y2, Y1. rewrite L2, T2 by exact Y1. split; reflexivity.
        - (* a struct: json wants a pointer *)
          set (e1 := declare e x (Some (TyName g)) (zero_of K zero request_type (TyName g))). set (e2 := set e1 x (VG (empty_msg K))). set (e3 := set e2 (T "err") (VErr true)).
          assert (Q2 : quiet e2) by (apply quiet_set, quiet_x). assert (Q3 : quiet e3) by (apply quiet_set; exact Q2).
          assert (L2 : forall y, str_eqb y x = false -> look e2 y = look e y) by (intros y Y; unfold e2, e1; rewrite look_set, !look_declare, Y; reflexivity).
          assert (Lerr : look e2 (T "err") = Some (te, VErr err)) by (rewrite L2 by neq; exact Le).
          assert (Ls2 : look e2 xs = Some (ts, VG (VS s))) by (rewrite L2 by neq; exact Ls).
          destruct (check_fail f e3 te (ts, VG (VS s))) as [e4 E4]; [exact Q3|unfold e3; lk|unfold e3; lk|].
          exists e4. eapply ex_cons; [apply ex_var; exact Tx|]. fold e1.
          eapply ex_cons; [eapply ex_assign; [reflexivity|eapply ev_lit; [apply all_nil|reflexivity]|]|].
          { cbn [store]. replace (str_eqb x (T "_")) with false by (symmetry; neq). unfold e1 at 1. rewrite look_declare, str_eqb_refl. reflexivity. }
          fold e2. eapply ex_cons; [eapply ex_unmarshal_other; [apply Q2; cbn [library map In]; tauto|exact Lerr|apply ev_bytes; eapply ev_var; exact Ls2|unfold e2, e1; lk]|]. fold e3.
          apply ex_ret. exact E4.
      Qed.
    End In_env.

    (** ** The values of a repeated field, one by one *)
    Lemma replace_at {X} (a b : list X) u w : replace_nth (a ++ u :: b) (length a) w = a ++ w :: b.
    Proof. induction a as [|c a IH]; [reflexivity|]. cbn [app length replace_nth]. now rewrite IH. Qed.
    Definition each_body (p : scalar_parse) (nr : bool) : block :=
      block_of [parse_stmt p (T "converted") (T "v"); decode_check f; Do (SAssign (EIndex (EVar x) (v "i")) (if nr then ECall (EVar g) [v "converted"] else v "converted"))].
    Lemma run_loop p err te ts s : scalar_table g = Some p -> forall arr pre rest e tx,
      length rest = length arr -> look e x = Some (tx, VG (VList (pre ++ rest))) -> look e (T "err") = Some (te, VErr err) -> quiet e -> look e xs = Some (ts, VG (VS s)) -> look e g = None ->
      match parse_each K p err arr with
      | Some l => loop K zero request_type vars query body (T "i") (T "v") (each_body p (narrow g)) (length pre) (map VS arr) e = Next (set e x (VG (VList (pre ++ l))))
      | None => exists e2, loop K zero request_type vars query body (T "i") (T "v") (each_body p (narrow g)) (length pre) (map VS arr) e = Return [VNil; VErr true] e2
      end.
    Proof.
      intros Et. pose proof Cxs as Cs. pose proof Nxs as N3. induction arr as [|s0 arr IH]; intros pre rest e tx Hlen Lx Le Q Ls Lg.
      - destruct rest; [|discriminate]. cbn [parse_each map loop]. rewrite (set_same _ _ tx); [reflexivity|exact Lx].
      - destruct rest as [|r0 rest]; [discriminate|]. cbn [length] in Hlen. injection Hlen as Hlen. cbn [parse_each map loop].
        set (E0 := [(T "v", (None, VG (VS s0))); (T "i", (None, VG (VZ (Z.of_nat (length pre)))))] :: e).
        assert (L0 : forall y, str_eqb y (T "v") = false -> str_eqb y (T "i") = false -> look E0 y = look e y) by (intros y Y1 Y2; unfold E0; cbn [look find_in]; rewrite Y1, Y2; reflexivity).
        assert (Q0 : quiet E0) by (intros n Hn; rewrite L0; [apply Q; exact Hn| |]; cbn [library map In] in Hn; repeat (destruct Hn as [<-|Hn]; [reflexivity|]); destruct Hn).
        assert (T0 : forall y, str_eqb y (T "v") = false -> str_eqb y (T "i") = false -> in_top E0 y = false) by (intros y Y1 Y2; unfold E0; cbn [in_top find_in]; rewrite Y1, Y2; reflexivity).
        assert (NL : forall n, In n [T "converted"; T "err"] -> ~ In n library) by (intros n Hn H; cbn [In] in Hn; repeat (destruct Hn as [<-|Hn]; [cbn [library map In] in H; repeat (destruct H as [H|H]; [discriminate|]); destruct H|]); destruct Hn).
        (* the assignment, when a value was found *)
        assert (SET : forall E1 w, quiet E1 -> (forall y, str_eqb y (T "v") = false -> str_eqb y (T "i") = false -> str_eqb y (T "converted") = false -> str_eqb y (T "err") = false -> look E1 y = look e y) ->
          look E1 (T "i") = Some (None, VG (VZ (Z.of_nat (length pre)))) -> look E1 (T "converted") = Some (None, VG w) -> (narrow g = true -> convert_to g (VG w) = Ok (VG w)) -> tl E1 = e -> E1 <> [] -> in_top E1 x = false ->
          leave (exec_block (Cons (Do (SAssign (EIndex (EVar x) (v "i")) (if narrow g then ECall (EVar g) [v "converted"] else v "converted"))) Nil) E1) = Next (set e x (VG (VList (pre ++ w :: rest))))).
        { intros E1 w Q1 L1 Li Lc Hn Tl Ne1 Tx1.
          assert (Lx1 : look E1 x = Some (tx, VG (VList (pre ++ r0 :: rest)))) by (rewrite L1 by neq; exact Lx).
          rewrite (ex_cons K zero request_type vars query body _ Nil E1 (set E1 x (VG (VList (pre ++ w :: rest)))) (Next (set E1 x (VG (VList (pre ++ w :: rest)))))); [|eapply ex_assign; [| |]|reflexivity].
          - rewrite leave_next by (apply set_nonempty; exact Ne1). rewrite tl_set_outer by exact Tx1. rewrite Tl. reflexivity.
          - destruct (narrow g); reflexivity.
          - instantiate (1 := VG w). destruct (narrow g).
            + eapply ev_cast; [rewrite L1 by neq; exact Lg|neq|neq|eapply ev_var; exact Lc|apply Hn; reflexivity].
            + eapply ev_var. exact Lc.
          - unfold v. cbn [store]. rewrite Lx1, Li. cbn [nat_of]. replace (Z.ltb (Z.of_nat (length pre)) 0) with false by (symmetry; apply Z.ltb_ge; lia). rewrite Nat2Z.id.
            replace (Nat.ltb (length pre) (length (pre ++ r0 :: rest))) with true by (symmetry; apply Nat.ltb_lt; rewrite app_length; cbn [length]; lia). rewrite replace_at. reflexivity. }
        (* the rest, after it *)
        assert (NEXT : forall w, match match parse_each K p err arr with Some l => Some (w :: l) | None => None end with
          | Some l => match Next (set e x (VG (VList (pre ++ w :: rest)))) with Next e' => loop K zero request_type vars query body (T "i") (T "v") (each_body p (narrow g)) (S (length pre)) (map VS arr) e' | r => r end = Next (set e x (VG (VList (pre ++ l))))
          | None => exists e2, match Next (set e x (VG (VList (pre ++ w :: rest)))) with Next e' => loop K zero request_type vars query body (T "i") (T "v") (each_body p (narrow g)) (S (length pre)) (map VS arr) e' | r => r end = Return [VNil; VErr true] e2
          end).
        { intro w. specialize (IH (pre ++ [w]) rest (set e x (VG (VList (pre ++ w :: rest)))) tx Hlen). rewrite app_length, <- app_assoc in IH. cbn [length app] in IH. rewrite Nat.add_1_r in IH.
          assert (I1 : look (set e x (VG (VList (pre ++ w :: rest)))) x = Some (tx, VG (VList (pre ++ w :: rest)))) by lk.
          specialize (IH I1). clear I1.
          assert (I2 : look (set e x (VG (VList (pre ++ w :: rest)))) (T "err") = Some (te, VErr err)) by lk. specialize (IH I2). clear I2.
          assert (I3 : look (set e x (VG (VList (pre ++ w :: rest)))) xs = Some (ts, VG (VS s))) by lk. specialize (IH (quiet_set _ x _ Q) I3). clear I3.
          assert (I4 : look (set e x (VG (VList (pre ++ w :: rest)))) g = None) by (rewrite look_set, Gx; exact Lg). specialize (IH I4). clear I4.
          destruct (parse_each K p err arr) as [l|]; [|exact IH]. cbn iota. rewrite IH, set_set. cbn [app]. rewrite <- app_assoc. reflexivity. }
        destruct p as [n|n| |n|] eqn:Epp.
        1, 2, 3, 4: (rewrite <- Epp in *; assert (Np : p <> PCopy) by (rewrite Epp; discriminate);
          match goal with |- match match ?c with _ => _ end with _ => _ end => replace c with (parse_scalar K p s0) by (rewrite Epp; reflexivity) end;
          pose proof (parse_eval p (T "v") E0 None s0 Np (table_widths _ _ Et) Q0 eq_refl) as P; unfold parsed in P;
          assert (D : forall b w, eval E0 (parse_call p (T "v")) = Ok (VPair w (VErr b)) -> exec (parse_stmt p (T "converted") (T "v")) E0 = Next (declare (declare E0 (T "converted") None w) (T "err") None (VErr b)));
          [intros b w E; rewrite parse_is by exact Np; rewrite eq_do; apply run_define2_new; [exact E|apply parse_index|apply T0; reflexivity|reflexivity|apply T0; reflexivity]|];
          unfold each_body; cbn [block_of]; destruct (parse_scalar K p s0) as [w|] eqn:Es;
          [|destruct (check_fail f (declare (declare E0 (T "converted") None (VG VNone)) (T "err") None (VErr true)) None (ts, VG (VS s))) as [e4 E4];
            [apply quiet_declare; [apply quiet_declare; [exact Q0|apply NL; left; reflexivity]|apply NL; right; left; reflexivity]|lk|fold xs; rewrite !look_declare; eqs; rewrite L0 by neq; exact Ls|];
            exists e4; rewrite (ex_cons K zero request_type vars query body _ _ E0 _ _ (D _ _ P) eq_refl), (ex_ret K zero request_type vars query body _ _ _ _ _ E4); reflexivity];
          specialize (SET (declare (declare E0 (T "converted") None (VG w)) (T "err") None (VErr false)) w);
          rewrite (ex_cons K zero request_type vars query body _ _ E0 _ _ (D _ _ P) eq_refl);
          rewrite (ex_cons K zero request_type vars query body (decode_check f) _ _ _ _ (check_pass f _ None (quiet_declare _ _ _ _ (quiet_declare _ _ _ _ Q0 (NL _ (or_introl eq_refl))) (NL _ (or_intror (or_introl eq_refl)))) ltac:(lk)) eq_refl);
          rewrite SET; [apply NEXT| | | | | | | |];
          [apply quiet_declare; [apply quiet_declare; [exact Q0|apply NL; left; reflexivity]|apply NL; right; left; reflexivity]
          |intros y Y1 Y2 Y3 Y4; rewrite !look_declare, Y3, Y4; apply L0; assumption|reflexivity|lk|intro; eapply cast_base; eassumption|reflexivity|discriminate|rewrite !in_top_declare; eqs; apply T0; neq]).
        (* strings *)
        assert (D : exec (parse_stmt PCopy (T "converted") (T "v")) E0 = Next (declare E0 (T "converted") None (VG (VS s0)))) by (apply ex_define; [reflexivity|reflexivity|apply T0; reflexivity]).
        assert (Q1 : quiet (declare E0 (T "converted") None (VG (VS s0)))) by (apply quiet_declare; [exact Q0|apply NL; left; reflexivity]).
        assert (Lerr : look (declare E0 (T "converted") None (VG (VS s0))) (T "err") = Some (te, VErr err)) by (rewrite look_declare; eqs; rewrite L0 by reflexivity; exact Le).
        unfold each_body. cbn [block_of]. rewrite (ex_cons K zero request_type vars query body _ _ E0 _ _ D eq_refl). clear D. destruct err.
        + destruct (check_fail f (declare E0 (T "converted") None (VG (VS s0))) te (ts, VG (VS s)) Q1 Lerr) as [e4 E4]; [fold xs; rewrite look_declare; eqs; rewrite L0 by neq; exact Ls|].
          exists e4. rewrite (ex_ret K zero request_type vars query body _ _ _ _ _ E4). reflexivity.
        + rewrite (ex_cons K zero request_type vars query body (decode_check f) _ _ _ _ (check_pass f _ te Q1 Lerr) eq_refl).
          specialize (SET (declare E0 (T "converted") None (VG (VS s0))) (VS s0)). rewrite SET; [apply NEXT| | | | | | | |].
          * exact Q1.
          * intros y Y1 Y2 Y3 Y4. rewrite look_declare, Y3. apply L0; assumption.
          * reflexivity.
          * lk.
          * intro Hn. eapply cast_base; [exact Et|exact Hn|reflexivity].
          * reflexivity.
          * discriminate.
          * rewrite in_top_declare. eqs. apply T0; neq.
    Qed.

    (** ** Repeated fields *)
    Section In_env2.
      Variable e : env.
      Variables te ts : option ty.
      Variables (shadow err : bool) (s : str) (arr : option (list str)).
      Hypothesis Ne : e <> [].
      Hypothesis Q : quiet e.
      Hypothesis Le : look e (T "err") = Some (te, VErr err).
      Hypothesis Te : in_top e (T "err") = negb shadow.
      Hypothesis Ls : look e xs = Some (ts, VG (VS s)).
      Hypothesis La : array_in e arr.
      Hypothesis Tx : in_top e x = false.
      Hypothesis Lg : look e g = None.
      (** The slice is declared; it is [w], and err is [b], the text [s']. *)
      Record held (w : gval) (b : bool) (s' : str) (e1 : env) : Prop := {
        h_ne : e1 <> [];
        h_quiet : quiet e1;
        h_x : look e1 x = Some (Some (TySlice (elem_ty f)), VG w);
        h_err : look e1 (T "err") = Some (te, VErr b);
        h_xs : look e1 xs = Some (ts, VG (VS s'));
        h_topx : in_top e1 x = true;
        h_toperr : in_top e1 (T "err") = negb shadow;
        h_tops : in_top e1 xs = in_top e xs;
        h_tl : tl e1 = if shadow then set (tl e) (T "err") (VErr b) else tl e;
        h_other : forall y, str_eqb y x = false -> str_eqb y (T "err") = false -> str_eqb y xs = false -> look e1 y = look e y /\ in_top e1 y = in_top e y }.
      Lemma nx : str_eqb x (T "err") = false. Proof. apply cap_neq; [exact Cx|reflexivity]. Qed.
      Lemma nxs : str_eqb xs (T "err") = false. Proof. apply cap_neq; [exact Cxs|reflexivity]. Qed.
      Lemma held_first : held (VList []) err s (declare e x (Some (TySlice (elem_ty f))) (VG (VList []))).
      Proof.
        pose proof nx as N1. pose proof Nxs as N3. split.
        - apply declare_nonempty.
        - apply quiet_x. exact Q.
        - rewrite look_declare, str_eqb_refl. reflexivity.
        - rewrite look_declare. eqs. exact Le.
        - rewrite look_declare, N3. exact Ls.
        - rewrite in_top_declare, str_eqb_refl. reflexivity.
        - rewrite in_top_declare. eqs. exact Te.
        - rewrite in_top_declare, N3. reflexivity.
        - rewrite tl_declare by exact Ne. pose proof (tl_err e te shadow err Ne Le Te) as TE. destruct shadow; [|reflexivity]. rewrite (set_same _ _ te (VErr err)) by (apply TE; reflexivity). reflexivity.
        - intros y Y1 Y2 Y3. rewrite look_declare, in_top_declare, Y1. split; reflexivity.
      Qed.
      Lemma held_set w b s' e1 w' b' : held w b s' e1 -> held w' b' s' (set (set e1 x (VG w')) (T "err") (VErr b')).
      Proof.
        intros [H1 H2 H3 H4 H5 H6 H7 H8 H9 H10]. pose proof nx as N1. pose proof nxs as N2. pose proof Nxs as N3. split.
        - apply set_nonempty, set_nonempty. exact H1.
        - apply quiet_set, quiet_set. exact H2.
        - rewrite look_set, N1, look_set, str_eqb_refl, H3. reflexivity.
        - rewrite look_set, str_eqb_refl, look_set, (str_eqb_sym (T "err") x), N1, H4. reflexivity.
        - rewrite look_set, N2, look_set, N3. exact H5.
        - rewrite !in_top_set. exact H6.
        - rewrite !in_top_set. exact H7.
        - rewrite !in_top_set. exact H8.
        - assert (TT : tl (set e1 x (VG w')) = tl e1) by (apply tl_set_top; exact H6). assert (TI : in_top (set e1 x (VG w')) (T "err") = negb shadow) by (rewrite in_top_set; exact H7).
          destruct shadow; cbn [negb] in TI; [rewrite tl_set_outer by exact TI; rewrite TT, H9; apply set_set|rewrite tl_set_top by exact TI; rewrite TT; exact H9].
        - intros y Y1 Y2 Y3. rewrite look_set, Y2, look_set, Y1, !in_top_set. apply H10; assumption.
      Qed.
      Lemma held_text w b s' e1 s2 : held w b s' e1 -> in_top e xs = true -> held w b s2 (set e1 xs (VG (VS s2))).
      Proof.
        intros [H1 H2 H3 H4 H5 H6 H7 H8 H9 H10] Hs. pose proof nx as N1. pose proof nxs as N2. pose proof Nxs as N3. split.
        - apply set_nonempty. exact H1.
        - apply quiet_set. exact H2.
        - rewrite look_set, (str_eqb_sym x xs), N3. exact H3.
        - rewrite look_set, (str_eqb_sym (T "err") xs), N2. exact H4.
        - rewrite look_set, str_eqb_refl, H5. reflexivity.
        - rewrite in_top_set. exact H6.
        - rewrite in_top_set. exact H7.
        - rewrite in_top_set. exact H8.
        - rewrite tl_set_top by (rewrite H8; exact Hs). exact H9.
        - intros y Y1 Y2 Y3. rewrite look_set, Y3, in_top_set. apply H10; assumption.
      Qed.
      Lemma held_value w b s' e1 w' : held w b s' e1 -> held w' b s' (set e1 x (VG w')).
      Proof.
        intros H. pose proof (held_set w b s' e1 w' b H) as K2. rewrite (set_same _ _ te (VErr b)) in K2; [exact K2|]. rewrite look_set, (str_eqb_sym (T "err") x), nx. apply (h_err _ _ _ _ H).
      Qed.
      Lemma held_converted w b s' e1 : held w b s' e1 -> converted e w b shadow e1.
      Proof.
        intros [H1 H2 H3 H4 H5 H6 H7 H8 H9 H10]. split; [exact H1|]. split; [eexists; exact H3|]. split; [|exact H10]. destruct shadow; [exact H9|]. split; [exact H9|eexists; exact H4].
      Qed.
      (** The check at the end *)
      Lemma held_check w b s' e1 c : held w b s' e1 -> outcome_of (if (c && b)%bool then CFail else CVal w b) e shadow (exec_block (block_of (if c then [decode_check f] else [])) e1).
      Proof.
        intro H. destruct c; cbn [andb].
        - destruct b.
          + destruct (check_fail f e1 te _ (h_quiet _ _ _ _ H) (h_err _ _ _ _ H) (h_xs _ _ _ _ H)) as [e4 E4]. exists e4. apply ex_ret. exact E4.
          + exists e1. split; [eapply ex_cons; [exact (check_pass f e1 te (h_quiet _ _ _ _ H) (h_err _ _ _ _ H))|apply ex_nil]|]. exact (held_converted _ _ _ _ H).
        - exists e1. split; [apply ex_nil|]. exact (held_converted _ _ _ _ H).
      Qed.
      (** json.Unmarshal of the text, at any depth *)
      Definition deep (n : nat) (e1 : env) : env := repeat [] n ++ e1.
      Lemma look_deep n e1 y : look (deep n e1) y = look e1 y. Proof. induction n as [|n IH]; [reflexivity|]. exact IH. Qed.
      Lemma set_deep n e1 y w : set (deep n e1) y w = deep n (set e1 y w). Proof. induction n as [|n IH]; [reflexivity|]. cbn [deep repeat app]. cbn [set find_in]. unfold deep in IH. rewrite IH. reflexivity. Qed.
      Lemma quiet_deep n e1 : quiet e1 -> quiet (deep n e1). Proof. intros H y Hy. rewrite look_deep. apply H. exact Hy. Qed.
      Lemma deep_unmarshal n e1 w b s' w' b' : held w b s' e1 -> unmarshal_slice K (elem_ty f) s' = (VG w', b') -> exists e2, exec (from_json f (EAddr (EVar x))) (deep n e1) = Next (deep n e2) /\ held w' b' s' e2.
      Proof.
        intros H U. exists (set (set e1 x (VG w')) (T "err") (VErr b')). split; [|exact (held_set _ _ _ _ _ _ H)]. unfold from_json, v, pkg. fold xs. rewrite <- !set_deep.
        eapply ex_unmarshal_slice; [apply quiet_deep; [exact (h_quiet _ _ _ _ H)|cbn [library map In]; tauto]|rewrite look_deep; exact (h_err _ _ _ _ H)|exact nx| |rewrite look_deep; exact (h_x _ _ _ _ H)|exact U].
        apply ev_bytes. eapply ev_var. rewrite look_deep. exact (h_xs _ _ _ _ H).
      Qed.
      Lemma block_split a l l' : exec_block (Cons a (block_of (l ++ l'))) e = exec_block (block_app (Cons a (block_of l)) (block_of l')) e.
      Proof. assert (E : forall l, block_of (l ++ l') = block_app (block_of l) (block_of l')) by (intro l0; induction l0 as [|z l0 IH]; [reflexivity|]; cbn [app block_of block_app]; now rewrite IH). rewrite E. reflexivity. Qed.
      Lemma first_step b : exec_block (Cons (Do (SVar x (TySlice (elem_ty f)))) b) e = exec_block b (declare e x (Some (TySlice (elem_ty f))) (VG (VList []))).
      Proof. rewrite eq_cons. rewrite (ex_var K zero request_type vars query body _ _ _ Tx). reflexivity. Qed.
      (** Messages *)
      Lemma run_messages nr c : hf_conv f = CvRepeated None nr c -> hf_check f = false -> scalar_table g = None ->
        outcome_of (run_convert K f arr s shadow err) e shadow (exec_block (block_app (convert_code f) (chk)) e).
      Proof.
        intros Ec Hc Et. unfold run_convert, convert_code, chk. rewrite Ec, Hc. fold x.
        assert (U : unmarshal_slice K (elem_ty f) s = match js_dec K g true s with Some w => (VG w, false) | None => (VG (js_junk K g s), true) end).
        { unfold elem_ty. fold g. destruct (hf_star f); cbn [unmarshal_slice]; [reflexivity|]. rewrite Et. reflexivity. }
        fold g. set (w := match js_dec K g true s with Some w => w | None => js_junk K g s end). set (b := match js_dec K g true s with Some _ => false | None => true end).
        assert (U2 : unmarshal_slice K (elem_ty f) s = (VG w, b)) by (rewrite U; unfold w, b; destruct (js_dec K g true s); reflexivity).
        assert (R : match js_dec K g true s with Some v0 => CVal v0 false | None => if c then CFail else CVal (js_junk K g s) true end = if (c && b)%bool then CFail else CVal w b).
        { unfold w, b. destruct (js_dec K g true s); destruct c; reflexivity. }
        rewrite R. cbn [app block_of block_app]. rewrite first_step. destruct (deep_unmarshal 0 _ _ _ _ _ _ held_first U2) as (e2 & X & H2). cbn [deep repeat app] in X.
        rewrite eq_cons, X. replace (block_app (block_of (if c then [decode_check f] else [])) Nil) with (block_of (if c then [decode_check f] else [])) by (destruct c; reflexivity). apply (held_check _ _ _ _ _ H2).
      Qed.
      (** Scalars *)
      Lemma unmarshal_scalars p s' : scalar_table g = Some p -> unmarshal_slice K (TyName g) s' = match json_slice K p s' with Some l => (VG (VList l), false) | None => (VG (js_junk K g s'), true) end.
      Proof. intro H. cbn [unmarshal_slice]. rewrite H. reflexivity. Qed.
      Lemma universe_cap y : cap y = true -> universe y = None.
      Proof. intro H. unfold universe. rewrite !(cap_neq y) by (exact H || reflexivity). reflexivity. Qed.
      Lemma run_scalars p c : hf_conv f = CvRepeated (Some p) (narrow g) c -> hf_check f = false -> scalar_table g = Some p -> hf_star f = false -> (arr <> None -> in_top e xs = true) ->
        outcome_of (run_convert K f arr s shadow err) e shadow (exec_block (block_app (convert_code f) (chk)) e).
      Proof.
        intros Ec Hc Et Hst Hxs. unfold run_convert, convert_code, chk. rewrite Ec, Hc. fold x.
        assert (Ety : elem_ty f = TyName g) by (unfold elem_ty; rewrite Hst; reflexivity).
        fold g. cbn [app block_of block_app]. rewrite first_step. pose proof held_first as H1. set (e1 := declare e x (Some (TySlice (elem_ty f))) (VG (VList []))) in *.
        pose proof Nxa as N4. pose proof Cxa as Ca. pose proof Nxs as N3. pose proof Cxs as Cs.
        assert (La1 : look e1 xa = look e xa) by (unfold e1; rewrite look_declare, N4; reflexivity).
        pose proof La as LA. unfold array_in in LA. unfold v. fold xa.
        destruct arr as [l|].
        2: { cbn [outcome_of]. apply ex_stop. eapply ex_if_bust. apply ev_bin_bust. apply ev_len_bust; [rewrite look_push; apply (h_quiet _ _ _ _ H1); cbn [library map In]; tauto|].
             apply ev_none; [rewrite look_push, La1; exact LA|]. apply universe_cap. exact Ca. }
        destruct LA as [ta La0]. rewrite <- La1 in La0. specialize (Hxs ltac:(discriminate)).
        replace (block_app (block_of (if c then [decode_check f] else [])) Nil) with (block_of (if c then [decode_check f] else [])) by (destruct c; reflexivity).
        assert (CND : eval ([] :: e1) (EBin (T ">") (ECall (EVar (T "len")) [EVar xa]) (ENum (T "1"))) = Ok (VG (VB (Nat.ltb 1 (length l))))).
        { eapply ev_bin; [eapply ev_len; [rewrite look_push; apply (h_quiet _ _ _ _ H1); cbn [library map In]; tauto|eapply ev_var; rewrite look_push; exact La0|reflexivity]|apply ev_num; reflexivity|].
          rewrite map_length. transitivity (Ok (VG (VB (Z.ltb 1 (Z.of_nat (length l)))))); [reflexivity|]. do 3 f_equal. destruct (Nat.ltb_spec 1 (length l)); [apply Z.ltb_lt; lia|apply Z.ltb_ge; lia]. }
        destruct (Nat.ltb 1 (length l)) eqn:El.
        - (* several values *)
          set (z := zero_elem K zero request_type (elem_ty f)). set (e2 := set e1 x (VG (VList (repeat z (length l))))).
          pose proof (held_value _ _ _ _ (VList (repeat z (length l))) H1) as H2. fold e2 in H2.
          assert (MK : exec (Do (SAssign (EVar x) (ECall (EVar (T "make")) [EType (TySlice (elem_ty f)); ECall (EVar (T "len")) [EVar xa]]))) (deep 2 e1) = Next (deep 2 e2)).
          { eapply ex_assign; [reflexivity| |]. 
            - eapply ev_make; [rewrite look_deep; apply (h_quiet _ _ _ _ H1); cbn [library map In]; tauto| |].
              + eapply ev_len; [rewrite look_deep; apply (h_quiet _ _ _ _ H1); cbn [library map In]; tauto|eapply ev_var; rewrite look_deep; exact La0|reflexivity].
              + cbn [nat_of]. replace (Z.ltb (Z.of_nat (length (map VS l))) 0) with false by (symmetry; apply Z.ltb_ge; lia). rewrite Nat2Z.id, map_length. reflexivity.
            - fold z. unfold e2. rewrite <- set_deep. eapply store_var; [neq|rewrite look_deep; exact (h_x _ _ _ _ H1)]. }
          assert (La2 : look e2 xa = Some (ta, VG (VList (map VS l)))) by (unfold e2; rewrite look_set, N4; exact La0).
          assert (Lg2 : look (deep 2 e2) g = None).
          { rewrite look_deep. unfold e2, e1. rewrite look_set, Gx, look_declare, Gx. exact Lg. }
          pose proof (run_loop p err te ts s Et l [] (repeat z (length l)) (deep 2 e2) (Some (TySlice (elem_ty f)))) as LP. cbn [app length] in LP.
          assert (A1 : look (deep 2 e2) x = Some (Some (TySlice (elem_ty f)), VG (VList (repeat z (length l))))) by (rewrite look_deep; exact (h_x _ _ _ _ H2)).
          assert (A2 : look (deep 2 e2) (T "err") = Some (te, VErr err)) by (rewrite look_deep; exact (h_err _ _ _ _ H2)).
          assert (A3 : look (deep 2 e2) xs = Some (ts, VG (VS s))) by (rewrite look_deep; exact (h_xs _ _ _ _ H2)).
          specialize (LP (repeat_length _ _) A1 A2 (quiet_deep 2 _ (h_quiet _ _ _ _ H2)) A3 Lg2).
          assert (BL : exec (For (T "i") (T "v") (EVar xa) (each_body p (narrow g))) (deep 2 e2) = loop K zero request_type vars query body (T "i") (T "v") (each_body p (narrow g)) 0 (map VS l) (deep 2 e2)).
          { apply ex_for. eapply ev_var. rewrite look_deep. exact La2. }
          unfold each_body, v in BL, LP. destruct (parse_each K p err l) as [l'|].
          + assert (X : exec_block (if true then block_of [Do (SAssign (EVar x) (ECall (EVar (T "make")) [EType (TySlice (elem_ty f)); ECall (EVar (T "len")) [EVar xa]])); For (T "i") (T "v") (EVar xa)
                (block_of [parse_stmt p (T "converted") (T "v"); decode_check f; Do (SAssign (EIndex (EVar x) (EVar (T "i"))) (if narrow g then ECall (EVar g) [EVar (T "converted")] else EVar (T "converted")))])] else Nil) ([] :: [] :: e1) = Next (deep 2 (set e2 x (VG (VList l'))))).
            { cbn [block_of]. eapply ex_cons; [exact MK|]. eapply ex_cons; [|apply ex_nil]. eapply eq_trans; [exact BL|]. rewrite LP, set_deep. reflexivity. }
            pose proof (held_value _ _ _ _ (VList l') H2) as H3.
            eapply eq_ind_r with (P := outcome_of _ _ _); [exact (held_check _ _ _ _ c H3)|].
            eapply ex_cons; [|reflexivity]. eapply eq_trans; [eapply ex_if with (b := true); [reflexivity|exact CND|exact X]|reflexivity].
          + destruct LP as [e4 LP]. exists e4. apply ex_ret. eapply eq_trans; [eapply ex_if with (b := true) (r := Return [VNil; VErr true] e4); [reflexivity|exact CND|]|reflexivity].
            cbn [block_of]. eapply ex_cons; [exact MK|]. apply ex_ret. eapply eq_trans; [exact BL|]. exact LP.
        - (* one value *)
          set (s1 := match json_slice K p s with Some _ => s | None => [91%N] ++ s ++ [93%N] end).
          set (w1 := match json_slice K p s with Some l => VList l | None => js_junk K g s end). set (b1 := match json_slice K p s with Some _ => false | None => true end).
          set (w2 := match json_slice K p s1 with Some l => VList l | None => js_junk K g s1 end). set (b2 := match json_slice K p s1 with Some _ => false | None => true end).
          assert (U1 : unmarshal_slice K (elem_ty f) s = (VG w1, b1)) by (rewrite Ety, (unmarshal_scalars p) by exact Et; unfold w1, b1; destruct (json_slice K p s); reflexivity).
          assert (U2 : unmarshal_slice K (elem_ty f) s1 = (VG w2, b2)) by (rewrite Ety, (unmarshal_scalars p) by exact Et; unfold w2, b2; destruct (json_slice K p s1); reflexivity).
          assert (R : match json_slice K p s1 with Some l0 => CVal (VList l0) false | None => if c then CFail else CVal (js_junk K g s1) true end = if (c && b2)%bool then CFail else CVal w2 b2).
          { unfold w2, b2. destruct (json_slice K p s1); destruct c; reflexivity. }
          lazymatch goal with |- outcome_of _ ?a ?b ?r => change (outcome_of (match json_slice K p s1 with Some l0 => CVal (VList l0) false | None => if c then CFail else CVal (js_junk K g s1) true end) a b r) end. rewrite R. clear R.
          destruct (deep_unmarshal 2 _ _ _ _ _ _ H1 U1) as (e2 & X2 & H2).
          assert (X3 : exists e3, exec (If SNone failed (Cons (Do (SAssign (EVar xs) (EBin (T "+") (EBin (T "+") (say "[") (EVar xs)) (say "]")))) Nil) Nil) (deep 2 e2) = Next (deep 2 e3) /\ held w1 b1 s1 e3).
          { destruct b1 eqn:Eb.
            - assert (Es1 : s1 = (T "[" ++ s) ++ T "]") by (unfold s1; unfold b1 in Eb; destruct (json_slice K p s); [discriminate|]; rewrite <- app_assoc; reflexivity).
              exists (set e2 xs (VG (VS s1))). split; [|apply (held_text _ _ _ _ s1 H2 Hxs)].
              rewrite (ex_if K zero request_type vars query body SNone failed _ Nil (deep 2 e2) (deep 3 e2) true (Next (deep 4 (set e2 xs (VG (VS s1)))))); [reflexivity|reflexivity| |].
              + unfold failed, v. eapply ev_bin; [eapply ev_var; rewrite look_deep; exact (h_err _ _ _ _ H2)|eapply ev_free; [apply (quiet_deep 3 _ (h_quiet _ _ _ _ H2)); cbn [library map In]; tauto|reflexivity]|reflexivity].
              + change ([] :: deep 3 e2) with (deep 4 e2). eapply ex_cons; [|apply ex_nil]. eapply ex_assign; [reflexivity| |rewrite <- set_deep; eapply store_var; [neq|rewrite look_deep; exact (h_xs _ _ _ _ H2)]].
                rewrite Es1. unfold say. eapply ev_bin; [eapply ev_bin; [apply ev_str; reflexivity|eapply ev_var; rewrite look_deep; exact (h_xs _ _ _ _ H2)|reflexivity]|apply ev_str; reflexivity|reflexivity].
            - assert (Es1 : s1 = s) by (unfold s1; unfold b1 in Eb; destruct (json_slice K p s); [reflexivity|discriminate]). rewrite Es1. exists e2. split; [|exact H2].
              apply ex_skip. unfold failed, v. change ([] :: deep 2 e2) with (deep 3 e2).
              eapply ev_bin; [eapply ev_var; rewrite look_deep; exact (h_err _ _ _ _ H2)|eapply ev_free; [apply (quiet_deep 3 _ (h_quiet _ _ _ _ H2)); cbn [library map In]; tauto|reflexivity]|reflexivity]. }
          destruct X3 as (e3 & X3 & H3). destruct (deep_unmarshal 2 _ _ _ _ _ _ H3 U2) as (e4 & X4 & H4).
          eapply eq_ind_r with (P := outcome_of _ _ _); [exact (held_check _ _ _ _ c H4)|].
          eapply ex_cons; [|reflexivity]. eapply eq_trans; [eapply ex_if with (b := false) (r := Next (deep 2 e4)); [reflexivity|exact CND|]|reflexivity].
          cbn [block_of]. eapply ex_cons; [exact X2|]. eapply ex_cons; [exact X3|]. eapply ex_cons; [exact X4|apply ex_nil].
      Qed.
    End In_env2.

    (** ** Any field *)
    Lemma narrow_base : narrow g = true -> In g go_base_types.
    Proof. unfold narrow. cbn [existsb]. rewrite !Bool.orb_true_iff. intros [H|[H|[H|H]]]; [| | |discriminate]; apply str_eqb_eq in H; rewrite H; cbn [go_base_types In]; tauto. Qed.
    Lemma run_value e te ts shadow err s arr dp : e <> [] -> quiet e -> look e (T "err") = Some (te, VErr err) -> in_top e (T "err") = negb shadow -> look e xs = Some (ts, VG (VS s)) -> array_in e arr ->
      in_top e x = false -> look e g = None -> look e (params ++ T "Params") = Some dp -> In params [T "path"; T "query"] -> (hf_rep f = true -> arr <> None -> in_top e xs = true) ->
      outcome_of (run_convert K f arr s shadow err) e shadow (exec_block (block_app (convert_code f) chk) e).
    Proof.
      intros Ne Q Le Te Ls La Tx Lg Lp Cp Hxs. pose proof Hr as (Rc & Rb & Rn & Re). unfold shape_of, create_decode_convert in Rc. cbn [sh_gotype sh_star sh_base sh_enum sh_rep] in Rc.
      assert (SC : forall p, p <> PCopy -> widths p -> hf_conv f = CvScalar p -> hf_check f = true -> outcome_of (run_convert K f arr s shadow err) e shadow (exec_block (block_app (convert_code f) chk) e)).
      { intros p N W Ec Hc. eapply run_scalar; eassumption. }
      destruct (hf_enum f && negb (hf_rep f))%bool eqn:E1.
      { injection Rc as Ec Hc. apply (SC (PInt 32)); [discriminate|left; reflexivity|exact Ec|exact Hc]. }
      destruct (hf_base f) eqn:Eb; destruct (hf_rep f) eqn:Er; cbn [negb orb andb] in *.
      - destruct (Rb eq_refl eq_refl) as [Rs Rst]. destruct (table_base _ Rs) as [p Ep].
        assert (NC : contains (hf_gotype f) (T "[]byte") = false).
        { clear -Rs. unfold go_base_types in Rs. cbn [In] in Rs. repeat (destruct Rs as [E|Rs]; [rewrite <- E; reflexivity|]). destruct Rs. }
        rewrite NC in Rc. cbn [negb] in Rc. rewrite Ep in Rc. injection Rc as Ec Hc. eapply run_scalars; try eassumption. exact (Hxs eq_refl).
      - destruct (scalar_table (hf_gotype f)) as [p|] eqn:Ep.
        + assert (Rc' : (hf_conv f, hf_check f) = (CvScalar p, match p with PCopy => false | _ => true end)) by (destruct p; exact Rc). injection Rc' as Ec Hc.
          destruct p as [n|n| |n|].
          * apply (SC (PUint n)); [discriminate|exact (table_widths _ _ Ep)|exact Ec|exact Hc].
          * apply (SC (PInt n)); [discriminate|exact (table_widths _ _ Ep)|exact Ec|exact Hc].
          * apply (SC PBool); [discriminate|exact (table_widths _ _ Ep)|exact Ec|exact Hc].
          * apply (SC (PFloat n)); [discriminate|exact (table_widths _ _ Ep)|exact Ec|exact Hc].
          * eapply run_copy; eassumption.
        + injection Rc as Ec Hc. unfold run_convert, convert_code. rewrite Ec. cbn [outcome_of block_app]. apply ex_stop. reflexivity.
      - destruct (no_table _ (Rn eq_refl)) as [Et Ex]. injection Rc as Ec Hc. eapply run_messages; try eassumption.
      - injection Rc as Ec Hc. eapply run_single; eassumption.
    Qed.
    (** A value that is cast was parsed for 32 bits. *)
    Lemma run_cast arr s shadow err w err' : hf_rep f = false -> (narrow g || hf_enum f)%bool = true -> run_convert K f arr s shadow err = CVal w err' -> convert_to g (VG w) = Ok (VG w).
    Proof.
      intros Er Hn H. pose proof Hr as (Rc & Rb & Rn & Re). unfold shape_of, create_decode_convert in Rc. cbn [sh_gotype sh_star sh_base sh_enum sh_rep] in Rc. rewrite Er in Rc. cbn [negb] in Rc. unfold run_convert in H.
      destruct (hf_enum f) eqn:Ee; cbn [andb] in Rc.
      - injection Rc as Ec Hc. rewrite Ec, Hc in H. destruct (parse_scalar K (PInt 32) s) as [w'|] eqn:Ep; [|discriminate]. assert (w' = w) by congruence. subst w'. eapply cast_enum; [apply Rn, Re; reflexivity|exact Ep].
      - rewrite Bool.orb_false_r in Hn. pose proof (narrow_base Hn) as Hb. destruct (hf_base f) eqn:Eb; cbn [negb orb] in Rc; [|destruct (Rn eq_refl Hb)]. destruct (table_base _ Hb) as [p Ep]. fold g in Rc. rewrite Ep in Rc.
        assert (Rc' : (hf_conv f, hf_check f) = (CvScalar p, match p with PCopy => false | _ => true end)) by (destruct p; exact Rc). injection Rc' as Ec Hc. rewrite Ec, Hc in H.
        assert (P : p = PCopy \/ exists w', parse_scalar K p s = Some w' /\ w' = w).
        { destruct p; [right|right|right|right|left; reflexivity];
            (match type of H with match ?c with _ => _ end = _ => destruct c as [w'|] eqn:Es; [|discriminate] end; exists w'; split; [reflexivity|congruence]). }
        destruct P as [->|(w' & P & ->)]; [|eapply cast_base; eassumption]. injection H as <- _. eapply (cast_base g PCopy s); [exact Ep|exact Hn|reflexivity].
    Qed.
    (** What is assigned fits the conversion. *)
    Definition fits : Prop :=
      hf_tconv f = create_decode_tconv (shape_of f) \/ hf_star f = false /\ (exists m, hf_tconv f = TcWrap true m (hf_name f) (create_decode_tconv (shape_of f))) \/ hf_conv f = CvGarbage.
    Definition set_stmt : stmt := Do (SAssign (ESel (v "req") (hf_camel f)) (tconv_expr (hf_local f) (hf_tconv f))).
    Lemma run_set e arr s shadow err w err' t tr r : fits -> run_convert K f arr s shadow err = CVal w err' -> look e x = Some (t, VG w) -> look e g = None -> look e (T "req") = Some (tr, VReq r) ->
      match run_tconv f (hf_tconv f) w with
      | Some w' => exec set_stmt e = Next (set e (T "req") (VReq (upd r (hf_camel f) w')))
      | None => exec set_stmt e = Stop Reject
      end.
    Proof.
      intros Hf Hv Lx Lg Lr. unfold set_stmt, v. fold x.
      assert (CAST : hf_rep f = false -> (narrow g || hf_enum f)%bool = true -> eval e (ECall (EVar g) [EVar x]) = Ok (VG w)).
      { intros Er Hn. eapply ev_cast; [exact Lg|neq|neq|eapply ev_var; exact Lx|]. eapply run_cast; eassumption. }
      destruct Hf as [E|[(Est & m & E)|E]].
      - rewrite E. unfold create_decode_tconv, shape_of. cbn [sh_gotype sh_star sh_base sh_enum sh_rep]. fold g. fold (narrow g). destruct (hf_rep f) eqn:Er; [|destruct (hf_base f && hf_star f)%bool; destruct (narrow g || hf_enum f)%bool eqn:En]; cbn [run_tconv tconv_expr].
        + eapply ex_assign; [reflexivity|eapply ev_var; exact Lx|eapply store_field; exact Lr].
        + eapply ex_assign_bust; [reflexivity|apply ev_addr_call].
        + eapply ex_assign; [reflexivity|eapply ev_ptr; exact Lx|eapply store_field_ptr; [exact Lr|exact Lx]].
        + eapply ex_assign; [reflexivity|apply CAST; reflexivity|eapply store_field; exact Lr].
        + eapply ex_assign; [reflexivity|eapply ev_var; exact Lx|eapply store_field; exact Lr].
      - rewrite E. unfold create_decode_tconv, shape_of. cbn [sh_gotype sh_star sh_base sh_enum sh_rep]. fold g. fold (narrow g). rewrite Est, Bool.andb_false_r.
        destruct (hf_rep f) eqn:Er; [|destruct (narrow g || hf_enum f)%bool eqn:En]; cbn [run_tconv tconv_expr].
        + eapply ex_assign; [reflexivity|eapply ev_addr_lit; [eapply ev_lit; [eapply all_cons; [eapply ev_var; exact Lx|apply all_nil]|reflexivity]|reflexivity]|eapply store_field; exact Lr].
        + eapply ex_assign; [reflexivity|eapply ev_addr_lit; [eapply ev_lit; [eapply all_cons; [apply CAST; reflexivity|apply all_nil]|reflexivity]|reflexivity]|eapply store_field; exact Lr].
        + eapply ex_assign; [reflexivity|eapply ev_addr_lit; [eapply ev_lit; [eapply all_cons; [eapply ev_var; exact Lx|apply all_nil]|reflexivity]|reflexivity]|eapply store_field; exact Lr].
      - unfold run_convert in Hv. rewrite E in Hv. discriminate.
    Qed.
    Lemma extract_is : extract_code f loc params = block_app (block_app (convert_code f) chk) (Cons set_stmt Nil).
    Proof.
      unfold extract_code, chk, set_stmt. assert (A : forall a b c, block_app (block_app a b) c = block_app a (block_app b c)) by (intros a b c; induction a as [|z a IH]; [reflexivity|]; cbn [block_app]; now rewrite IH).
      rewrite A. f_equal. destruct (hf_check f); reflexivity.
    Qed.
    Theorem run_extract e te ts tr shadow err s arr dp r : fits -> str_eqb g xs = false -> e <> [] -> quiet e -> look e (T "err") = Some (te, VErr err) -> in_top e (T "err") = negb shadow -> look e (T "req") = Some (tr, VReq r) -> in_top e (T "req") = negb shadow ->
      look e xs = Some (ts, VG (VS s)) -> array_in e arr ->
      in_top e x = false -> look e g = None -> look e (params ++ T "Params") = Some dp -> In params [T "path"; T "query"] -> (hf_rep f = true -> arr <> None -> in_top e xs = true) ->
      match assign f (run_convert K f arr s shadow err) r with
      | DOk r' err' => exists e1, exec_block (extract_code f loc params) e = Next e1 /\ e1 <> [] /\
          if shadow then tl e1 = set (set (tl e) (T "err") (VErr err')) (T "req") (VReq r')
          else tl e1 = tl e /\ (exists t, look e1 (T "err") = Some (t, VErr err')) /\ (exists t, look e1 (T "req") = Some (t, VReq r')) /\
            forall y, str_eqb y x = false -> str_eqb y (T "err") = false -> str_eqb y xs = false -> str_eqb y (T "req") = false -> look e1 y = look e y
      | DErr => exists e1, exec_block (extract_code f loc params) e = Return [VNil; VErr true] e1
      | DBroken => exec_block (extract_code f loc params) e = Stop Reject
      end.
    Proof.
      intros Hf Gs Ne Q Le Te Lr Tr Ls La Tx Lg Lp Cp Hxs. pose proof (run_value e te ts shadow err s arr dp Ne Q Le Te Ls La Tx Lg Lp Cp Hxs) as V. rewrite extract_is, ex_app.
      pose proof Cxs as Cs. unfold assign. destruct (run_convert K f arr s shadow err) as [w err'| |] eqn:Ec; cbn [outcome_of] in V.
      - destruct V as (e1 & -> & C1 & (t & C2) & C3 & C4).
        assert (Lr1 : look e1 (T "req") = Some (tr, VReq r)) by (destruct (C4 (T "req")) as [A _]; [neq|reflexivity|neq|rewrite A; exact Lr]).
        assert (Tr1 : in_top e1 (T "req") = negb shadow) by (destruct (C4 (T "req")) as [_ A]; [neq|reflexivity|neq|rewrite A; exact Tr]).
        assert (Lg1 : look e1 g = None) by (destruct (C4 g) as [A _]; [exact Gx|neq|exact Gs|rewrite A; exact Lg]).
        pose proof (run_set e1 arr s shadow err w err' t tr r Hf Ec C2 Lg1 Lr1) as S. destruct (run_tconv f (hf_tconv f) w) as [w'|]; [|apply ex_stop; exact S].
        exists (set e1 (T "req") (VReq (upd r (hf_camel f) w'))). split; [eapply ex_cons; [exact S|apply ex_nil]|]. split; [apply set_nonempty; exact C1|]. destruct shadow; cbn [negb] in Tr1.
        + rewrite tl_set_outer by exact Tr1. rewrite C3. reflexivity.
        + destruct C3 as [C3 (t' & C5)]. split; [rewrite tl_set_top by exact Tr1; exact C3|]. split; [exists t'; rewrite look_set; change (str_eqb (T "err") (T "req")) with false; exact C5|].
          split; [exists tr; rewrite look_set, str_eqb_refl, Lr1; reflexivity|]. intros y Y1 Y2 Y3 Y4. rewrite look_set, Y4. apply C4; assumption.
      - destruct V as (e1 & ->). exists e1. reflexivity.
      - rewrite V. reflexivity.
    Qed.
  End Value.
End Run.
