(** Running the trees of GoLang.v: lookups, and one lemma per form. *)
From Coq Require Import String Lia.
From Verif Require Import GoStr GoStrProofs GoMap Strs HttpTransport Url GenHttp GoLex GoLang.

Lemma str_eqb_sym a b : str_eqb a b = str_eqb b a.
Proof.
  destruct (str_eqb a b) eqn:E.
  - apply str_eqb_eq in E. subst. symmetry. apply str_eqb_refl.
  - destruct (str_eqb b a) eqn:E'; [|reflexivity]. apply str_eqb_eq in E'. subst. rewrite str_eqb_refl in E. discriminate.
Qed.
Lemma neq_eqb a b : a <> b -> str_eqb a b = false.
Proof. intro H. destruct (str_eqb a b) eqn:E; [apply str_eqb_eq in E; contradiction|reflexivity]. Qed.

(** ** Lookups *)
Lemma look_push e x : look ([] :: e) x = look e x. Proof. reflexivity. Qed.
Lemma look_declare e x t v y : look (declare e x t v) y = if str_eqb y x then Some (t, v) else look e y.
Proof. destruct e as [|sc e]; cbn [declare look find_in]; destruct (str_eqb y x); reflexivity. Qed.
Lemma find_set sc x v y : find_in (set_in sc x v) y = if str_eqb y x then match find_in sc x with Some (t, _) => Some (t, v) | None => None end else find_in sc y.
Proof.
  induction sc as [|[z [t u]] sc IH]; cbn [set_in find_in]; [destruct (str_eqb y x); reflexivity|].
  destruct (str_eqb x z) eqn:E; cbn [find_in].
  - apply str_eqb_eq in E. subst z. destruct (str_eqb y x); reflexivity.
  - rewrite IH. destruct (str_eqb y z) eqn:E2; [|reflexivity]. apply str_eqb_eq in E2. subst z. rewrite str_eqb_sym, E. reflexivity.
Qed.
Lemma look_set e x v y : look (set e x v) y = if str_eqb y x then match look e x with Some (t, _) => Some (t, v) | None => None end else look e y.
Proof.
  induction e as [|sc e IH]; cbn [set look]; [destruct (str_eqb y x); reflexivity|].
  destruct (find_in sc x) as [[t u]|] eqn:E; cbn [look]; rewrite ?find_set, ?IH, ?E.
  - destruct (str_eqb y x); reflexivity.
  - destruct (str_eqb y x) eqn:E2; [|reflexivity]. apply str_eqb_eq in E2. subst y. rewrite E. reflexivity.
Qed.
Lemma find_in_set_same sc x t v : find_in sc x = Some (t, v) -> set_in sc x v = sc.
Proof.
  induction sc as [|[z [u w]] sc IH]; cbn [find_in set_in]; [discriminate|]. destruct (str_eqb x z) eqn:E; [intros [= -> ->]; reflexivity|]. intro H. rewrite (IH H). reflexivity.
Qed.
Lemma set_same e x t v : look e x = Some (t, v) -> set e x v = e.
Proof.
  induction e as [|sc e IH]; cbn [look set]; [reflexivity|]. destruct (find_in sc x) as [[u w]|] eqn:E.
  - intros [= -> ->]. rewrite (find_in_set_same _ _ _ _ E). reflexivity.
  - intro H. rewrite (IH H). reflexivity.
Qed.
Lemma set_in_in sc x a b : set_in (set_in sc x a) x b = set_in sc x b.
Proof.
  induction sc as [|[z [u w]] sc IH]; cbn [set_in]; [reflexivity|]. destruct (str_eqb x z) eqn:E; cbn [set_in]; rewrite E; [reflexivity|]. rewrite IH. reflexivity.
Qed.
Lemma set_set e x a b : set (set e x a) x b = set e x b.
Proof.
  induction e as [|sc e IH]; cbn [set]; [reflexivity|]. destruct (find_in sc x) as [[t u]|] eqn:E; cbn [set].
  - rewrite find_set, str_eqb_refl, E, set_in_in. reflexivity.
  - rewrite E, IH. reflexivity.
Qed.
Lemma in_top_push e x : in_top ([] :: e) x = false. Proof. reflexivity. Qed.
Lemma in_top_declare e x t v y : in_top (declare e x t v) y = (str_eqb y x || in_top e y)%bool.
Proof. destruct e as [|sc e]; cbn [declare in_top find_in]; destruct (str_eqb y x); reflexivity. Qed.
Lemma in_top_set e x v y : in_top (set e x v) y = in_top e y.
Proof.
  destruct e as [|sc e]; cbn [set in_top]; [reflexivity|]. destruct (find_in sc x) as [[t u]|] eqn:E; cbn [in_top]; [|reflexivity]. rewrite find_set.
  destruct (str_eqb y x) eqn:E2; [|reflexivity]. apply str_eqb_eq in E2. subst y. rewrite E. reflexivity.
Qed.
(** What is in the outer scopes *)
Lemma set_outer sc e x v : find_in sc x = None -> set (sc :: e) x v = sc :: set e x v. Proof. intro H. cbn [set]. rewrite H. reflexivity. Qed.
Lemma tl_declare e x t v : e <> [] -> tl (declare e x t v) = tl e. Proof. destruct e; [contradiction|reflexivity]. Qed.
Lemma tl_set_top e x v : in_top e x = true -> tl (set e x v) = tl e.
Proof. destruct e as [|sc e]; cbn [in_top set]; [reflexivity|]. destruct (find_in sc x); [reflexivity|discriminate]. Qed.
Lemma tl_set_outer e x v : in_top e x = false -> tl (set e x v) = set (tl e) x v.
Proof. destruct e as [|sc e]; cbn [in_top set]; [reflexivity|]. destruct (find_in sc x); [discriminate|reflexivity]. Qed.
Lemma set_nonempty e x v : e <> [] -> set e x v <> []. Proof. destruct e as [|sc e]; [contradiction|]. intros _. cbn [set]. destruct (find_in sc x); discriminate. Qed.
Lemma declare_nonempty e x t v : declare e x t v <> []. Proof. destruct e; discriminate. Qed.
Lemma leave_next e : e <> [] -> leave (Next e) = Next (tl e). Proof. destruct e; [contradiction|reflexivity]. Qed.

Section Run.
  Variable K : codecs.
  Variable zero : request.
  Variable request_type : str.
  Variable vars : gomap str.
  Variable query : values.
  Variable body : option str.
  Notation eval := (GoLang.eval K zero request_type vars query body).
  Notation exec := (GoLang.exec K zero request_type vars query body).
  Notation exec_block := (GoLang.exec_block K zero request_type vars query body).
  Notation exec_clauses := (GoLang.exec_clauses K zero request_type vars query body).
  Notation run_simple := (GoLang.run_simple K zero request_type vars query body).
  Notation lib := (GoLang.lib K vars body).

  (** ** Expressions *)
  Definition evals (e : env) : list expr -> option (list val) * why := fix each (l : list expr) :=
    match l with
    | [] => (Some [], Reject)
    | a :: l' => match eval e a with Ok v => match each l' with (Some vs, w) => (Some (v :: vs), w) | (None, w) => (None, w) end | Bust w => (None, w) end
    end.
  Inductive all_ok (e : env) : list expr -> list val -> Prop :=
  | all_nil : all_ok e [] []
  | all_cons a l v vs : eval e a = Ok v -> all_ok e l vs -> all_ok e (a :: l) (v :: vs).
  Lemma evals_ok e l vs : all_ok e l vs -> exists w, evals e l = (Some vs, w).
  Proof. intro H. induction H as [|a l v vs H _ (w & IH)]; [eexists; reflexivity|]. exists w. unfold evals in *. rewrite H, IH. reflexivity. Qed.
  Lemma ev_var e x t v : look e x = Some (t, v) -> eval e (EVar x) = Ok v. Proof. intro H. cbn [GoLang.eval]. rewrite H. reflexivity. Qed.
  Lemma ev_free e x v : look e x = None -> universe x = Some v -> eval e (EVar x) = Ok v. Proof. intros H U. cbn [GoLang.eval]. rewrite H, U. reflexivity. Qed.
  Lemma ev_none e x : look e x = None -> universe x = None -> eval e (EVar x) = Bust Reject. Proof. intros H U. cbn [GoLang.eval]. rewrite H, U. reflexivity. Qed.
  Lemma ev_num e n z : decimal n = z -> eval e (ENum n) = Ok (VG (VZ z)). Proof. intros <-. reflexivity. Qed.
  Lemma ev_str e s v : literal s = v -> eval e (EStr s) = Ok v. Proof. intros <-. reflexivity. Qed.
  Lemma ev_const e p f : look e p = None -> eval e (ESel (EVar p) f) = Ok VOther. Proof. intro H. cbn [GoLang.eval]. rewrite H. reflexivity. Qed.
  Lemma ev_field e p f t v w : look e p = Some (t, v) -> field_of v f = Ok w -> eval e (ESel (EVar p) f) = Ok w. Proof. intros H F. cbn [GoLang.eval]. rewrite H. exact F. Qed.
  Lemma ev_lib e p f args vs r : look e p = None -> all_ok e args vs -> lib p f vs = r -> eval e (ECall (ESel (EVar p) f) args) = r.
  Proof. intros H A <-. destruct (evals_ok _ _ _ A) as (w & E). cbn [GoLang.eval]. rewrite H. change (match evals e args with (Some vs, _) => lib p f vs | (None, w) => Bust w end = lib p f vs). rewrite E. reflexivity. Qed.
  Lemma ev_method e y m args vs v r : (forall p, y <> EVar p) -> eval e y = Ok v -> all_ok e args vs -> method query v m vs = r -> eval e (ECall (ESel y m) args) = r.
  Proof.
    intros N Ey A <-. destruct (evals_ok _ _ _ A) as (w & E). transitivity (match eval e y with Ok v => match evals e args with (Some vs, _) => method query v m vs | (None, w) => Bust w end | b => b end).
    - destruct y; try reflexivity. destruct (N x eq_refl).
    - rewrite Ey, E. reflexivity.
  Qed.
  Lemma ev_len e a v r : look e (T "len") = None -> eval e a = Ok v -> match v with VBytes s => Ok (VG (VZ (Z.of_nat (length s)))) | VG (VList l) => Ok (VG (VZ (Z.of_nat (length l)))) | _ => Bust Reject end = r -> eval e (ECall (EVar (T "len")) [a]) = r.
  Proof. intros H A <-. cbn [GoLang.eval]. rewrite H, A. change (str_eqb (T "len") (T "len")) with true. cbn iota. destruct v; try reflexivity. Qed.
  Lemma ev_len_bust e a w : look e (T "len") = None -> eval e a = Bust w -> eval e (ECall (EVar (T "len")) [a]) = Bust w.
  Proof. intros H A. cbn [GoLang.eval]. rewrite H, A. reflexivity. Qed.
  Lemma ev_make e t n v k : look e (T "make") = None -> eval e n = Ok v -> nat_of v = Some k -> eval e (ECall (EVar (T "make")) [EType (TySlice t); n]) = Ok (VG (VList (repeat (zero_elem K zero request_type t) k))).
  Proof. intros H A B. cbn [GoLang.eval]. rewrite H. change (str_eqb (T "make") (T "len")) with false. change (str_eqb (T "make") (T "make")) with true. cbn iota. rewrite A, B. reflexivity. Qed.
  Lemma ev_cast e g a v r : look e g = None -> str_eqb g (T "len") = false -> str_eqb g (T "make") = false -> eval e a = Ok v -> convert_to g v = r -> eval e (ECall (EVar g) [a]) = r.
  Proof. intros H G1 G2 A <-. cbn [GoLang.eval]. rewrite H, G1, G2, A. reflexivity. Qed.
  Lemma ev_bytes e a s : eval e a = Ok (VG (VS s)) -> eval e (ECall (EType (TySlice (TyName (T "byte")))) [a]) = Ok (VBytes s).
  Proof. intro A. cbn [GoLang.eval]. change (str_eqb (T "byte") (T "byte")) with true. cbn iota. rewrite A. reflexivity. Qed.
  Lemma ev_index e a i v k r : eval e a = Ok v -> eval e i = Ok k -> index v k = r -> eval e (EIndex a i) = r. Proof. intros A B <-. cbn [GoLang.eval]. rewrite A, B. reflexivity. Qed.
  Lemma ev_bin e o a b v w r : eval e a = Ok v -> eval e b = Ok w -> binary o v w = r -> eval e (EBin o a b) = r. Proof. intros A B <-. cbn [GoLang.eval]. rewrite A, B. reflexivity. Qed.
  Lemma ev_bin_bust e o a b w : eval e a = Bust w -> eval e (EBin o a b) = Bust w. Proof. intro A. cbn [GoLang.eval]. rewrite A. reflexivity. Qed.
  Lemma ev_ptr e x d : look e x = Some d -> eval e (EAddr (EVar x)) = Ok (VPtr x). Proof. intro H. cbn [GoLang.eval]. rewrite H. reflexivity. Qed.
  Lemma ev_lit e t ks args vs r : all_ok e args vs -> composite t ks vs = r -> eval e (ELit t ks args) = r.
  Proof. intros A <-. destruct (evals_ok _ _ _ A) as (w & E). change (match evals e args with (Some vs, _) => composite t ks vs | (None, w) => Bust w end = composite t ks vs). rewrite E. reflexivity. Qed.
  Lemma ev_lit_bust e t k a w : eval e a = Bust w -> eval e (ELit t [k] [a]) = Bust w. Proof. intro A. cbn [GoLang.eval]. rewrite A. reflexivity. Qed.
  Lemma ev_addr_lit e t ks args v r : eval e (ELit t ks args) = Ok v -> address K v = r -> eval e (EAddr (ELit t ks args)) = r.
  Proof. intros A <-. transitivity (match eval e (ELit t ks args) with Ok v => address K v | b => b end); [reflexivity|]. rewrite A. reflexivity. Qed.
  Lemma ev_addr_lit_bust e t ks args w : eval e (ELit t ks args) = Bust w -> eval e (EAddr (ELit t ks args)) = Bust w.
  Proof. intros A. transitivity (match eval e (ELit t ks args) with Ok v => address K v | b => b end); [reflexivity|]. rewrite A. reflexivity. Qed.
  Lemma ev_addr_call e f args : eval e (EAddr (ECall f args)) = Bust Reject. Proof. reflexivity. Qed.

  (** ** Statements *)
  Lemma eq_cons s b e : exec_block (Cons s b) e = match exec s e with Next e' => exec_block b e' | r => r end. Proof. reflexivity. Qed.
  Lemma eq_do s e : exec (Do s) e = run_simple s e. Proof. reflexivity. Qed.
  Lemma eq_if init c yes no e : exec (If init c yes no) e =
        leave match run_simple init ([] :: e) with
              | Next e1 => match eval e1 c with
                           | Ok (VG (VB true)) => leave (exec_block yes ([] :: e1))
                           | Ok (VG (VB false)) => leave (exec_block no ([] :: e1))
                           | Ok _ => Stop Reject
                           | Bust w => Stop w
                           end
              | r => r
              end.
  Proof. reflexivity. Qed.
  Lemma eq_case c b cs e : exec_clauses (Case c b cs) e = match eval e c with
                      | Ok (VG (VB true)) => leave (exec_block b ([] :: e))
                      | Ok (VG (VB false)) => exec_clauses cs e
                      | Ok _ => Stop Reject
                      | Bust w => Stop w
                      end.
  Proof. reflexivity. Qed.
  Lemma ex_nil e : exec_block Nil e = Next e. Proof. reflexivity. Qed.
  Lemma ex_cons s b e e' r : exec s e = Next e' -> exec_block b e' = r -> exec_block (Cons s b) e = r. Proof. intros H <-. rewrite eq_cons, H. reflexivity. Qed.
  Lemma ex_stop s b e w : exec s e = Stop w -> exec_block (Cons s b) e = Stop w. Proof. intro H. rewrite eq_cons, H. reflexivity. Qed.
  Lemma ex_ret s b e vs e' : exec s e = Return vs e' -> exec_block (Cons s b) e = Return vs e'. Proof. intro H. rewrite eq_cons, H. reflexivity. Qed.
  Lemma ex_app a b e : exec_block (block_app a b) e = match exec_block a e with Next e' => exec_block b e' | r => r end.
  Proof. revert e. induction a as [|s a IH]; intro e; [reflexivity|]. cbn [block_app]. rewrite !eq_cons. destruct (exec s e); [apply IH|reflexivity|reflexivity]. Qed.
  Lemma ex_var x t e : in_top e x = false -> exec (Do (SVar x t)) e = Next (declare e x (Some t) (zero_of K zero request_type t)). Proof. intro H. rewrite ?eq_do; cbn [GoLang.run_simple]. rewrite H. reflexivity. Qed.
  Lemma ex_const x n e : in_top e x = false -> exec (Do (SConst x n)) e = Next (declare e x None (VG (VZ (decimal n)))). Proof. intro H. rewrite ?eq_do; cbn [GoLang.run_simple]. rewrite H. reflexivity. Qed.
  Definition single (v : val) : bool := match v with VPair _ _ => false | _ => true end.
  Lemma ex_define x a v e : eval e a = Ok v -> single v = true -> in_top e x = false -> exec (Do (SDefine [x] a)) e = Next (declare e x None v).
  Proof. intros A S H. rewrite ?eq_do; cbn [GoLang.run_simple]. rewrite A. destruct v; try discriminate; cbn [define]; rewrite H; reflexivity. Qed.
  Lemma ex_define_bust xs a w e : eval e a = Bust w -> (forall b i, a <> EIndex b i) -> exec (Do (SDefine xs a)) e = Stop w.
  Proof. intros A N. rewrite ?eq_do; cbn [GoLang.run_simple]. destruct xs as [|x [|y [|z xs]]]; try (rewrite A; reflexivity). destruct a; try (rewrite A; reflexivity). destruct (N a1 a2 eq_refl). Qed.
  Definition index_expr (a : expr) : bool := match a with EIndex _ _ => true | _ => false end.
  (** x, y := f(..) for a new x; y is new, or not *)
  Lemma run_define2_new x y a v w e : eval e a = Ok (VPair v w) -> index_expr a = false -> in_top e x = false -> str_eqb x y = false -> in_top e y = false ->
    run_simple (SDefine [x; y] a) e = Next (declare (declare e x None v) y None w).
  Proof.
    intros A N H1 H2 H3. cbn [GoLang.run_simple]. assert (E : match a with EIndex b i => index_ok K zero request_type vars query body e b i | _ => eval e a end = eval e a) by (destruct a; (reflexivity || discriminate)).
    rewrite E, A. unfold define, bind1. rewrite H1, H2. cbn [andb orb]. rewrite in_top_declare, (str_eqb_sym y x), H2, H3. reflexivity.
  Qed.
  Lemma run_define2_old x y a v w e : eval e a = Ok (VPair v w) -> index_expr a = false -> in_top e x = false -> str_eqb x y = false -> in_top e y = true ->
    run_simple (SDefine [x; y] a) e = Next (set (declare e x None v) y w).
  Proof.
    intros A N H1 H2 H3. cbn [GoLang.run_simple]. assert (E : match a with EIndex b i => index_ok K zero request_type vars query body e b i | _ => eval e a end = eval e a) by (destruct a; (reflexivity || discriminate)).
    rewrite E, A. unfold define, bind1. rewrite H1, H2. cbn [andb orb]. rewrite in_top_declare, (str_eqb_sym y x), H2, H3. reflexivity.
  Qed.
  (** x, y := m[k] for new names *)
  Lemma run_lookup x y a i q k e : eval e a = Ok (VQuery q) -> eval e i = Ok (VG (VS k)) -> in_top e x = false -> str_eqb x y = false -> in_top e y = false ->
    run_simple (SDefine [x; y] (EIndex a i)) e = Next (declare (declare e x None (VG (VList (match mget q k with Some l => map VS l | None => [] end)))) y None (VG (VB (match mget q k with Some _ => true | None => false end)))).
  Proof.
    intros A B H1 H2 H3. cbn [GoLang.run_simple]. unfold index_ok. rewrite A, B. destruct (mget q k); unfold define, bind1; rewrite H1, H2; cbn [andb orb]; rewrite in_top_declare, (str_eqb_sym y x), H2, H3; reflexivity.
  Qed.
  Lemma ex_assign l a v e e' : effects a = false -> eval e a = Ok v -> store K e l v = inl e' -> exec (Do (SAssign l a)) e = Next e'.
  Proof. intros H A B. rewrite ?eq_do; cbn [GoLang.run_simple]. rewrite H, A, B. reflexivity. Qed.
  Lemma ex_assign_stop l a v e w : effects a = false -> eval e a = Ok v -> store K e l v = inr w -> exec (Do (SAssign l a)) e = Stop w.
  Proof. intros H A B. rewrite ?eq_do; cbn [GoLang.run_simple]. rewrite H, A, B. reflexivity. Qed.
  Lemma ex_assign_bust l a e w : effects a = false -> eval e a = Bust w -> exec (Do (SAssign l a)) e = Stop w.
  Proof. intros H A. rewrite ?eq_do; cbn [GoLang.run_simple]. rewrite H, A. reflexivity. Qed.
  Lemma store_var e x d g : str_eqb x (T "_") = false -> look e x = Some d -> store K e (EVar x) (VG g) = inl (set e x (VG g)).
  Proof. intros H L. cbn [store]. rewrite H, L. destruct d. reflexivity. Qed.
  Lemma store_field e x f t r g : look e x = Some (t, VReq r) -> store K e (ESel (EVar x) f) (VG g) = inl (set e x (VReq (upd r f g))).
  Proof. intros L. cbn [store as_field]. rewrite L. reflexivity. Qed.
  Lemma store_field_ptr e x f t r y u g : look e x = Some (t, VReq r) -> look e y = Some (u, VG g) -> store K e (ESel (EVar x) f) (VPtr y) = inl (set e x (VReq (upd r f (VSome g)))).
  Proof. intros L M. cbn [store as_field]. rewrite L, M. reflexivity. Qed.
  (** err = json.Unmarshal(s, &x), for a slice *)
  Lemma ex_unmarshal_slice e a s x t u v err te d : look e (T "json") = None -> look e (T "err") = Some (te, d) -> str_eqb x (T "err") = false ->
    eval e a = Ok (VBytes s) -> look e x = Some (Some (TySlice t), u) -> unmarshal_slice K t s = (v, err) ->
    exec (Do (SAssign (EVar (T "err")) (ECall (ESel (EVar (T "json")) (T "Unmarshal")) [a; EAddr (EVar x)]))) e = Next (set (set e x v) (T "err") (VErr err)).
  Proof.
    intros J E N A L U. rewrite ?eq_do; cbn [GoLang.run_simple]. change (effects (ECall (ESel (EVar (T "json")) (T "Unmarshal")) [a; EAddr (EVar x)])) with true. cbn iota.
    unfold effect. rewrite A, J. change (str_eqb (T "json") (T "json") && str_eqb (T "Unmarshal") (T "Unmarshal"))%bool with true. cbn iota. rewrite L, U.
    cbn [store]. change (str_eqb (T "err") (T "_")) with false. cbn iota. rewrite look_set, (str_eqb_sym (T "err") x), N, E. reflexivity.
  Qed.
  (** err = json.Unmarshal(s, x), for a pointer *)
  Lemma ex_unmarshal_ptr e a s x t u v err te d : look e (T "json") = None -> look e (T "err") = Some (te, d) -> str_eqb x (T "err") = false ->
    eval e a = Ok (VBytes s) -> look e x = Some (Some (TyPtr t), u) -> unmarshal_struct K t u s = (v, err) ->
    exec (Do (SAssign (EVar (T "err")) (ECall (ESel (EVar (T "json")) (T "Unmarshal")) [a; EVar x]))) e = Next (set (set e x v) (T "err") (VErr err)).
  Proof.
    intros J E N A L U. rewrite ?eq_do; cbn [GoLang.run_simple]. change (effects (ECall (ESel (EVar (T "json")) (T "Unmarshal")) [a; EVar x])) with true. cbn iota.
    unfold effect. rewrite A, J. change (str_eqb (T "json") (T "json") && str_eqb (T "Unmarshal") (T "Unmarshal"))%bool with true. cbn iota. rewrite L, U.
    cbn [store]. change (str_eqb (T "err") (T "_")) with false. cbn iota. rewrite look_set, (str_eqb_sym (T "err") x), N, E. reflexivity.
  Qed.
  (** ... and for what is no pointer *)
  Lemma ex_unmarshal_other e a s x n u te d : look e (T "json") = None -> look e (T "err") = Some (te, d) ->
    eval e a = Ok (VBytes s) -> look e x = Some (Some (TyName n), u) ->
    exec (Do (SAssign (EVar (T "err")) (ECall (ESel (EVar (T "json")) (T "Unmarshal")) [a; EVar x]))) e = Next (set e (T "err") (VErr true)).
  Proof.
    intros J E A L. rewrite ?eq_do; cbn [GoLang.run_simple]. change (effects (ECall (ESel (EVar (T "json")) (T "Unmarshal")) [a; EVar x])) with true. cbn iota.
    unfold effect. rewrite A, J. change (str_eqb (T "json") (T "json") && str_eqb (T "Unmarshal") (T "Unmarshal"))%bool with true. cbn iota. rewrite L.
    cbn [store]. change (str_eqb (T "err") (T "_")) with false. cbn iota. rewrite E. destruct d; reflexivity.
  Qed.
  Lemma ex_if init c yes no e e1 (b : bool) r : run_simple init ([] :: e) = Next e1 -> eval e1 c = Ok (VG (VB b)) -> exec_block (if b then yes else no) ([] :: e1) = r -> exec (If init c yes no) e = leave (leave r).
  Proof. intros A B <-. rewrite eq_if, A, B. destruct b; reflexivity. Qed.
  Lemma ex_if_bust c yes no e w : eval ([] :: e) c = Bust w -> exec (If SNone c yes no) e = Stop w.
  Proof. intro B. rewrite eq_if. cbn [GoLang.run_simple]. rewrite B. reflexivity. Qed.
  Lemma ex_skip c yes e : eval ([] :: e) c = Ok (VG (VB false)) -> exec (If SNone c yes Nil) e = Next e.
  Proof. intro H. rewrite (ex_if SNone c yes Nil e ([] :: e) false (Next ([] :: [] :: e))); [reflexivity|reflexivity|exact H|reflexivity]. Qed.
  Lemma ex_return2 a b v w e : eval e a = Ok v -> eval e b = Ok w -> exec (Do (SReturn [a; b])) e = Return [v; w] e.
  Proof. intros A B. rewrite ?eq_do; cbn [GoLang.run_simple]. rewrite A, B. reflexivity. Qed.
  Lemma ex_case_yes c b cs e : eval e c = Ok (VG (VB true)) -> exec_clauses (Case c b cs) e = leave (exec_block b ([] :: e)). Proof. intro H. rewrite eq_case, H. reflexivity. Qed.
  Lemma ex_case_no c b cs e : eval e c = Ok (VG (VB false)) -> exec_clauses (Case c b cs) e = exec_clauses cs e. Proof. intro H. rewrite eq_case, H. reflexivity. Qed.
  (** A loop *)
  Fixpoint loop (i v : str) (b : block) (n : nat) (l : list gval) (e : env) : res :=
    match l with
    | [] => Next e
    | g :: l' => match leave (exec_block b ([(v, (None, VG g)); (i, (None, VG (VZ (Z.of_nat n))))] :: e)) with
                 | Next e' => loop i v b (S n) l' e'
                 | r => r
                 end
    end.
  Lemma eq_for i v a b e : exec (For i v a b) e = match eval e a with
        | Ok (VG (VList l)) =>
            (fix go (n : nat) (l : list gval) (e : env) : res :=
               match l with
               | [] => Next e
               | g :: l' => match leave (exec_block b ([(v, (None, VG g)); (i, (None, VG (VZ (Z.of_nat n))))] :: e)) with
                            | Next e' => go (S n) l' e'
                            | r => r
                            end
               end) 0 l e
        | Ok _ => Stop Reject
        | Bust w => Stop w
        end.
  Proof. reflexivity. Qed.
  Lemma ex_for i v a b e l : eval e a = Ok (VG (VList l)) -> exec (For i v a b) e = loop i v b 0 l e.
  Proof. intro H. rewrite eq_for, H. clear H. generalize 0. revert e. induction l as [|g l IH]; intros e n; [reflexivity|]. cbn [loop]. destruct (leave _); [apply IH|reflexivity|reflexivity]. Qed.

  (** ** The library *)
  Lemma lib_uint s w n : width_of w = Some n -> lib (T "strconv") (T "ParseUint") [VG (VS s); VG (VZ 10); VG (VZ w)] = parsed K (PUint n) s.
  Proof. intro H. transitivity (match width_of w with Some n => parsed K (PUint n) s | None => Bust Reject end); [reflexivity|]. rewrite H. reflexivity. Qed.
  Lemma lib_int s w n : width_of w = Some n -> lib (T "strconv") (T "ParseInt") [VG (VS s); VG (VZ 10); VG (VZ w)] = parsed K (PInt n) s.
  Proof. intro H. transitivity (match width_of w with Some n => parsed K (PInt n) s | None => Bust Reject end); [reflexivity|]. rewrite H. reflexivity. Qed.
  Lemma lib_float s w n : width_of w = Some n -> lib (T "strconv") (T "ParseFloat") [VG (VS s); VG (VZ w)] = parsed K (PFloat n) s.
  Proof. intro H. transitivity (match width_of w with Some n => parsed K (PFloat n) s | None => Bust Reject end); [reflexivity|]. rewrite H. reflexivity. Qed.
  Lemma lib_bool s : lib (T "strconv") (T "ParseBool") [VG (VS s)] = parsed K PBool s. Proof. reflexivity. Qed.
  Lemma lib_wrap b a : lib (T "errors") (T "Wrap") [VErr b; a] = Ok (VErr b). Proof. reflexivity. Qed.
  Lemma lib_wrapf b a l : lib (T "errors") (T "Wrapf") (VErr b :: a :: l) = Ok (VErr b). Proof. reflexivity. Qed.
  Lemma lib_sprintf a l : lib (T "fmt") (T "Sprintf") (a :: l) = Ok VOther. Proof. reflexivity. Qed.
  Lemma lib_errorf a l : lib (T "errors") (T "Errorf") (a :: l) = Ok (VErr true). Proof. reflexivity. Qed.
End Run.
