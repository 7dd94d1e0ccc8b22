(** The tree of EncoderProg.v does what GenHttp.encode_request says. *)
From Coq Require Import String Lia.
From Verif Require Import GoStr GoStrProofs GoMap Decimals Strs HttpTransport Url GenHttp GoLex GoLexProofs GoLang GoEncode DecoderProg EncoderProg.

(** The Go type of a field, of an option *)
Definition field_ty (f : hfield) : ty := let e := if hf_star f then TyPtr (TyName (hf_gotype f)) else TyName (hf_gotype f) in if hf_rep f then TySlice e else e.
(** Values of a type of an option *)
Definition has_type (t : ty) (g : gval) : Prop :=
  match t with
  | TyName n => if str_eqb n (T "bool") then exists b, g = VB b else if str_eqb n (T "string") then exists s, g = VS s
                else if str_eqb n (T "float32") || str_eqb n (T "float64") then exists f, g = VF f else exists z, g = VZ z
  | _ => g = VNone \/ exists w, g = VSome w
  end.
Section Run.
  Variable K : codecs.
  Variable S : struct.
  Notation exec := (exec K S). Notation exec_block := (exec_block K S). Notation eval := (eval K S).
  Lemma cons_run c b s : exec_block (Cons c b) s = match exec c s with Next s' => exec_block b s' | r => r end. Proof. reflexivity. Qed.
  Lemma block_app_run a b s : exec_block (block_app a b) s = match exec_block a s with Next s' => exec_block b s' | r => r end.
  Proof. revert s. induction a as [|c a IH]; intro s; [reflexivity|]. change (block_app (Cons c a) b) with (Cons c (block_app a b)). rewrite !cons_run. destruct (exec c s); [apply IH|reflexivity|reflexivity]. Qed.
  Lemma if_run init c yes no s : exec (If init c yes no) s = leave match run_simple K S init (enter s) with
    | Next s1 => match eval s1 c with Ok (XB true) => leave (exec_block yes (enter s1)) | Ok (XB false) => leave (exec_block no (enter s1)) | Ok _ => Stop Reject | Bust w => Stop w end
    | r => r end.
  Proof. reflexivity. Qed.
  Definition for_loop (body : block) (x : str) (t : ty) : list gval -> state -> res :=
    fix go (l : list gval) (s : state) : res :=
      match l with
      | [] => Next s
      | g :: l' => match leave (exec_block body (on_env s (cons [(x, XG t g)]))) with Next s' => go l' s' | r => r end
      end.
  Lemma for_run x e body s : exec (For (T "_") x e body) s =
    match eval s e with Ok (XG (TySlice t) g) => for_loop body x t (match g with VList l => l | _ => [] end) s | Ok _ => Stop Reject | Bust w => Stop w end.
  Proof. reflexivity. Qed.
  Lemma safe_no_escape s : safe s -> contains1 s c_backslash = false.
  Proof.
    intro H. unfold contains1. destruct (existsb (N.eqb c_backslash) s) eqn:E; [|reflexivity]. apply existsb_exists in E. destruct E as (c & I & E). apply N.eqb_eq in E. destruct (H c I) as (_ & _ & H3). congruence.
  Qed.

  (** The variables once the query is made *)
  Definition vars (m : values) (tmp sv u path : str) : env :=
    [[(T "tmp", XBytes tmp); (T "values", XValues m); (T "err", XErr false); (T "u", XUrl u); (T "path", XS path); (T "req", XMessage); (T "strval", XS sv); (T "r", XRequest); (T "request", XAny)]].
  Section Fields.
    Variables (o : outgoing) (r : request) (u path : str).
    (** In the blocks [scs] inside the function *)
    Definition inside (scs : env) (m : values) (tmp sv : str) : state := mkState (scs ++ vars m tmp sv u path) o r.
    (** scopes of none of the names *)
    Definition apart (scs : env) : Prop := forall x, In x (map T ["tmp"; "values"; "err"; "req"; "strval"; "string"; "json"; "errors"; "fmt"; "nil"]%string) -> look scs x = None.
    Lemma look_app scs e x : look scs x = None -> look (scs ++ e) x = look e x.
    Proof. induction scs as [|sc scs IH]; [reflexivity|]. cbn [look app]. destruct (find_in sc x); [discriminate|exact IH]. Qed.
    Lemma set_app scs e x w : look scs x = None -> set (scs ++ e) x w = scs ++ set e x w.
    Proof. induction scs as [|sc scs IH]; [reflexivity|]. cbn [look set app]. destruct (find_in sc x); [discriminate|]. intro H. now rewrite IH. Qed.
    Variable scs : env.
    Hypothesis A : apart scs.
    Ltac look_up x := let E := fresh "E" in assert (E : look scs (T x) = None) by (apply A; cbn [map In]; auto 12).
    Lemma run_add m tmp sv key e t : safe key -> eval (inside scs m tmp sv) e = Ok (XS t) -> exec (add key e) (inside scs m tmp sv) = Next (inside scs (v_add m key t) tmp sv).
    Proof.
      intros Hk He. look_up "values"%string. unfold add. cbn [GoEncode.exec run_simple perform]. unfold inside in *. cbn [s_env v]. rewrite (look_app _ _ _ E).
      change (look (vars m tmp sv u path) (T "values")) with (Some (XValues m)). cbn iota beta. cbn [GoEncode.eval]. rewrite (safe_no_escape key Hk). rewrite He.
      change (str_eqb (T "Add") (T "Add")) with true. cbn iota. unfold on_env. cbn [s_env s_out s_msg]. rewrite (set_app _ _ _ _ E). reflexivity.
    Qed.
    Lemma look_in m tmp sv x w : look scs x = None -> look (vars m tmp sv u path) x = Some w -> eval (inside scs m tmp sv) (EVar x) = Ok w.
    Proof. intros H1 H2. cbn [GoEncode.eval]. unfold inside. cbn [s_env]. rewrite (look_app _ _ _ H1), H2. reflexivity. Qed.
    Lemma run_marshal m tmp sv what key e t g : safe key -> safe what -> eval (inside scs m tmp sv) e = Ok (XG t g) ->
      exec_block (block_of (marshal_code e what key)) (inside scs m tmp sv) =
      match json_marshal K g with Some x => Next (inside scs (v_add m key x) x x) | None => Return [XErr true] (mkState ([] :: [] :: scs ++ set (vars m [] sv u path) (T "err") (XErr true)) o r) end.
    Proof.
      intros Hk Hw He. unfold marshal_code. cbn [block_of]. look_up "tmp"%string. look_up "err"%string. look_up "json"%string. look_up "strval"%string. look_up "string"%string. look_up "nil"%string. look_up "errors"%string.
      rewrite cons_run.
      assert (M : exec (Do (SAssigns [v "tmp"; v "err"] (ECall (pkg "json" "Marshal") [e]))) (inside scs m tmp sv) =
        match json_marshal K g with Some x => Next (inside scs m x sv) | None => Next (mkState (scs ++ set (vars m [] sv u path) (T "err") (XErr true)) o r) end).
      { unfold v. cbn [GoEncode.exec run_simple]. cbn [GoEncode.eval pkg v]. unfold inside at 1. cbn [s_env]. rewrite (look_app _ _ _ E1). change (look (vars m tmp sv u path) (T "json")) with (@None val). cbn iota beta. rewrite He.
        change (lib K (T "json") (T "Marshal") [XG t g]) with (Ok (match json_marshal K g with Some s => XPair (XBytes s) (XErr false) | None => XPair (XBytes []) (XErr true) end)). cbn iota beta.
        destruct (json_marshal K g) as [x|]; unfold store, inside, on_env; cbn [s_env s_out s_msg];
          (change (str_eqb (T "tmp") (T "_")) with false; change (str_eqb (T "err") (T "_")) with false; cbn iota; rewrite (look_app _ _ _ E); change (look (vars m tmp sv u path) (T "tmp")) with (Some (XBytes tmp)); cbn iota beta; cbn [s_env s_out s_msg];
           rewrite (set_app _ _ _ _ E), (look_app _ _ _ E0)).
        - change (look (set (vars m tmp sv u path) (T "tmp") (XBytes x)) (T "err")) with (Some (XErr false)). cbn iota. rewrite (set_app _ _ _ _ E0). reflexivity.
        - change (look (set (vars m tmp sv u path) (T "tmp") (XBytes [])) (T "err")) with (Some (XErr false)). cbn iota. rewrite (set_app _ _ _ _ E0). reflexivity. }
      rewrite M. clear M. assert (A2 : forall x, look scs x = None -> look ([] :: scs) x = None) by (intros x Hx; exact Hx).
      destruct (json_marshal K g) as [x|].
      - rewrite cons_run, if_run. cbn [run_simple]. assert (F : eval (enter (inside scs m x sv)) failed = Ok (XB false)).
        { unfold failed. cbn [GoEncode.eval v]. unfold enter, on_env, inside. cbn [s_env look find_in]. rewrite (look_app _ _ _ E0), (look_app _ _ _ E4). reflexivity. }
        rewrite F. assert (T1 : leave (leave (exec_block Nil (enter (enter (inside scs m x sv))))) = Next (inside scs m x sv)) by reflexivity. rewrite T1. clear T1.
        rewrite cons_run.
        assert (M : exec (Do (SAssign (v "strval") (ECall (v "string") [v "tmp"]))) (inside scs m x sv) = Next (inside scs m x x)).
        { unfold v. cbn [GoEncode.exec run_simple]. cbn [GoEncode.eval v]. unfold inside. cbn [s_env]. rewrite (look_app _ _ _ E3). change (look (vars m x sv u path) (T "string")) with (@None val). cbn iota. change (str_eqb (T "string") (T "string")) with true. cbn iota.
          rewrite (look_app _ _ _ E). change (look (vars m x sv u path) (T "tmp")) with (Some (XBytes x)). cbn iota beta. unfold store, on_env. cbn [s_env s_out s_msg]. change (str_eqb (T "strval") (T "_")) with false. cbn iota.
          rewrite (look_app _ _ _ E2). change (look (vars m x sv u path) (T "strval")) with (Some (XS sv)). cbn iota. rewrite (set_app _ _ _ _ E2). reflexivity. }
        rewrite M, cons_run. rewrite (run_add m x x key (v "strval") x Hk); [reflexivity|]. unfold v. rewrite (look_in m x x (T "strval") (XS x) E2); reflexivity.
      - rewrite cons_run, if_run. cbn [run_simple].
        assert (F : eval (enter (mkState (scs ++ set (vars m [] sv u path) (T "err") (XErr true)) o r)) failed = Ok (XB true)).
        { unfold failed. cbn [GoEncode.eval v]. unfold enter, on_env. cbn [s_env look find_in]. rewrite (look_app _ _ _ E0), (look_app _ _ _ E4). reflexivity. }
        rewrite F. cbn [block_of]. rewrite cons_run.
        assert (M : forall st, s_env st = [] :: [] :: scs ++ set (vars m [] sv u path) (T "err") (XErr true) -> exec (Do (SReturn [ECall (pkg "errors" "Wrap") [v "err"; EStr (T "failed to marshal req." ++ what)]])) st = Return [XErr true] st).
        { intros st Hst. cbn [GoEncode.exec run_simple]. cbn [GoEncode.eval v pkg]. rewrite Hst. cbn [look find_in]. rewrite (look_app _ _ _ E5), (look_app _ _ _ E0). change (look (set (vars m [] sv u path) (T "err") (XErr true)) (T "errors")) with (@None val).
          change (look (set (vars m [] sv u path) (T "err") (XErr true)) (T "err")) with (Some (XErr true)). cbn iota beta.
          assert (N : contains1 (T "failed to marshal req." ++ what) c_backslash = false) by (unfold contains1; rewrite existsb_app; change (existsb (N.eqb c_backslash) what) with (contains1 what c_backslash); rewrite (safe_no_escape _ Hw); reflexivity).
          rewrite N. reflexivity. }
        rewrite (M (enter (enter (mkState (scs ++ set (vars m [] sv u path) (T "err") (XErr true)) o r))) eq_refl). reflexivity.
    Qed.
  End Fields.
  Section Query.
    Variables (o : outgoing) (r : request) (u path : str).
    Notation ins := (inside o r u path).
    Definition at_ (m : values) (tmp sv : str) : state := mkState (vars m tmp sv u path) o r.
    Definition added (res : res) (m : values) (key : str) (l : option (list str)) : Prop :=
      match l with Some l => exists tmp sv, res = Next (at_ (add_values m key l) tmp sv) | None => exists s, res = Return [XErr true] s end.
    Lemma apart_of scs : forallb (fun x => match look scs x with None => true | Some _ => false end) (map T ["tmp"; "values"; "err"; "req"; "strval"; "string"; "json"; "errors"; "fmt"; "nil"]%string) = true -> apart scs.
    Proof. intros H x Hx. rewrite forallb_forall in H. specialize (H x Hx). destruct (look scs x); [discriminate|reflexivity]. Qed.
    Lemma eval_field scs m tmp sv x t : apart scs -> st_fields S x = Some t -> eval (ins scs m tmp sv) (req_field x) = Ok (XG t (r x)).
    Proof.
      intros A Hx. assert (E : look scs (T "req") = None) by (apply A; cbn [map In]; auto 12). unfold req_field, v. cbn [GoEncode.eval]. unfold inside. cbn [s_env]. rewrite (look_app _ _ _ E).
      change (look (vars m tmp sv u path) (T "req")) with (Some XMessage). cbn iota. cbn [field_of]. rewrite Hx. reflexivity.
    Qed.
    Lemma eval_sprint scs m tmp sv e t g : apart scs -> eval (ins scs m tmp sv) e = Ok (XG t g) -> eval (ins scs m tmp sv) (sprint_of e) = Ok (XS (sprint K (named_type t) g)).
    Proof.
      intros A He. assert (E : look scs (T "fmt") = None) by (apply A; cbn [map In]; auto 12). unfold sprint_of, pkg, v. cbn [GoEncode.eval]. unfold inside at 1. cbn [s_env]. rewrite (look_app _ _ _ E).
      change (look (vars m tmp sv u path) (T "fmt")) with (@None val). cbn iota. rewrite He. reflexivity.
    Qed.
    Section Field.
      Variable f : hfield.
      Hypothesis Hq : safe (hf_query f).
      Hypothesis Hc : safe (hf_camel f).
      Hypothesis Hf : st_fields S (hf_camel f) = Some (field_ty f).
      Lemma run_list t : forall l m tmp sv,
        for_loop (block_of [add (hf_query f) (sprint_of (v "v"))]) (T "v") t l (at_ m tmp sv) = Next (at_ (add_values m (hf_query f) (map (sprint K (named_type t)) l)) tmp sv).
      Proof.
        induction l as [|g l IH]; intros m tmp sv; [reflexivity|]. cbn [for_loop]. fold (for_loop (block_of [add (hf_query f) (sprint_of (v "v"))]) (T "v") t).
        change (on_env (at_ m tmp sv) (cons [(T "v", XG t g)])) with (ins [[(T "v", XG t g)]] m tmp sv).
        assert (A : apart [[(T "v", XG t g)]]) by (apply apart_of; reflexivity). cbn [block_of]. rewrite cons_run.
        rewrite (run_add o r u path [[(T "v", XG t g)]] A m tmp sv (hf_query f) (sprint_of (v "v")) (sprint K (named_type t) g) Hq) by (apply eval_sprint; [exact A|reflexivity]).
        change (leave (exec_block Nil (ins [[(T "v", XG t g)]] (v_add m (hf_query f) (sprint K (named_type t) g)) tmp sv))) with (Next (at_ (v_add m (hf_query f) (sprint K (named_type t) g)) tmp sv)).
        cbn iota. rewrite IH. reflexivity.
      Qed.
      Lemma run_query m tmp sv : added (exec_block (query_code f) (at_ m tmp sv)) m (hf_query f) (field_values K r f).
      Proof.
        assert (A0 : apart []) by (apply apart_of; reflexivity). pose proof (eval_field [] m tmp sv (hf_camel f) _ A0 Hf) as Ef. change (ins [] m tmp sv) with (at_ m tmp sv) in Ef.
        unfold query_code, field_values, field_ty in *. destruct (hf_rep f), (hf_base f); cbn [andb orb negb] in *.
        - cbn [block_of]. rewrite cons_run. cbn [added]. exists tmp, sv. rewrite for_run, Ef. cbn iota beta.
          rewrite run_list. cbn iota. destruct (hf_star f); destruct (r (hf_camel f)); reflexivity.
        - pose proof (run_marshal o r u path [] A0 m tmp sv (hf_camel f) (hf_query f) (req_field (hf_camel f)) _ _ Hq Hc Ef) as M. change (ins [] m tmp sv) with (at_ m tmp sv) in M. rewrite M.
          destruct (json_marshal K (r (hf_camel f))) as [x|]; [exists x, x; reflexivity|eexists; reflexivity].
        - destruct (hf_star f).
          + cbn [block_of]. rewrite cons_run, if_run. cbn [run_simple].
            assert (A1 : apart [[]]) by (apply apart_of; reflexivity). assert (A2 : apart [[]; []]) by (apply apart_of; reflexivity).
            assert (F : eval (enter (at_ m tmp sv)) (EBin (T "!=") (req_field (hf_camel f)) (v "nil")) = Ok (XB (match r (hf_camel f) with VSome _ => true | _ => false end))).
            { pose proof (eval_field [[]] m tmp sv (hf_camel f) _ A1 Hf) as E1. change (ins [[]] m tmp sv) with (enter (at_ m tmp sv)) in E1. cbn [GoEncode.eval]. fold (eval (enter (at_ m tmp sv)) (req_field (hf_camel f))). rewrite E1. reflexivity. }
            rewrite F. destruct (r (hf_camel f)) as [z|b|fl|s| |w|l|msg|oo] eqn:Er; try (exists tmp, sv; reflexivity).
            change (enter (enter (at_ m tmp sv))) with (ins [[]; []] m tmp sv). rewrite cons_run.
            rewrite (run_add o r u path [[]; []] A2 m tmp sv (hf_query f) _ (sprint K (hf_gotype f) w) Hq); [exists tmp, sv; reflexivity|].
            eapply (eval_sprint [[]; []] m tmp sv _ (TyName (hf_gotype f)) w A2). pose proof (eval_field [[]; []] m tmp sv (hf_camel f) _ A2 Hf) as E2. rewrite Er in E2. cbn [GoEncode.eval].
            fold (eval (ins [[]; []] m tmp sv) (req_field (hf_camel f))). rewrite E2. reflexivity.
          + cbn [block_of]. rewrite cons_run. pose proof (run_add o r u path [] A0 m tmp sv (hf_query f) (sprint_of (req_field (hf_camel f))) (sprint K (hf_gotype f) (r (hf_camel f))) Hq) as M.
            change (ins [] m tmp sv) with (at_ m tmp sv) in M. rewrite M; [exists tmp, sv; reflexivity|]. apply (eval_sprint [] m tmp sv _ (TyName (hf_gotype f))); [exact A0|exact Ef].
        - pose proof (run_marshal o r u path [] A0 m tmp sv (hf_camel f) (hf_query f) (req_field (hf_camel f)) _ _ Hq Hc Ef) as M. change (ins [] m tmp sv) with (at_ m tmp sv) in M. rewrite M.
          destruct (json_marshal K (r (hf_camel f))) as [x|]; [exists x, x; reflexivity|eexists; reflexivity].
      Qed.
    End Field.
    Section Option.
      Variable f : hfield.
      Hypothesis Hq : safe (hf_query f).
      Hypothesis Hn : safe (hf_name f).
      Hypothesis Hrep : hf_rep f = false.
      Hypothesis Hz : hf_zero f = get_zero_value (mkShape (hf_gotype f) (hf_star f) (hf_base f) (hf_enum f) (hf_rep f)).
      Hypothesis Hk : if hf_base f then hf_star f = false /\ In (hf_gotype f) go_base_types else hf_star f = true.
      Hypothesis Hf : st_options S (hf_name f) = Some (hf_camel f, field_ty f).
      Hypothesis Ht : forall g, r (hf_camel f) = VOneof (Some (hf_name f, g)) -> has_type (field_ty f) g.
      Definition option_now : gval := match get_option r f with Some g => g | None => zero_value (field_ty f) end.
      Lemma eval_option scs m tmp sv : apart scs -> eval (ins scs m tmp sv) (get_option_expr f) = Ok (XG (field_ty f) option_now).
      Proof.
        intro A. assert (E : look scs (T "req") = None) by (apply A; cbn [map In]; auto 12). unfold get_option_expr, v. cbn [GoEncode.eval]. unfold inside. cbn [s_env]. rewrite (look_app _ _ _ E).
        change (look (vars m tmp sv u path) (T "req")) with (Some XMessage). cbn iota. change (method K S (mkState (scs ++ vars m tmp sv u path) o r) XMessage (T "Get" ++ hf_name f) []) with (getter S r (hf_name f)).
        unfold getter. rewrite Hf. unfold option_now, get_option. destruct (r (hf_camel f)) as [z|b|fl|s| |w|l|msg|[[n g]|]]; try reflexivity. destruct (str_eqb n (hf_name f)); reflexivity.
      Qed.
      Definition sends : bool := match get_option r f with Some g => negb (is_zero (hf_gotype f) g) | None => false end.
      Lemma eval_zero scs m tmp sv : apart ([] :: scs) -> look scs (T "val") = Some (XG (field_ty f) option_now) -> look scs (T "false") = None ->
        eval (ins scs m tmp sv) (EBin (T "!=") (v "val") (zero_expr (hf_zero f))) = Ok (XB sends).
      Proof.
        intros A Hv Hfalse. cbn [GoEncode.eval v]. unfold inside at 1. cbn [s_env]. assert (Ev : forall e, look (scs ++ e) (T "val") = Some (XG (field_ty f) option_now)).
        { intro e. clear -Hv. induction scs as [|sc scs IH]; [discriminate|]. cbn [look app] in *. destruct (find_in sc (T "val")); [exact Hv|apply IH; exact Hv]. }
        rewrite Ev. cbn iota.
        assert (HT : match get_option r f with Some g => has_type (field_ty f) g | None => True end).
        { unfold get_option. destruct (r (hf_camel f)) as [z|b|fl|s| |w|l|msg|[[n g]|]] eqn:Er; try exact I. destruct (str_eqb n (hf_name f)) eqn:En; [|exact I]. apply str_eqb_eq in En. subst n. apply Ht. reflexivity. }
        assert (En : look scs (T "nil") = None) by (apply (A (T "nil")); cbn [map In]; auto 12).
        unfold sends, option_now. rewrite Hz. unfold get_zero_value, field_ty in *. cbn [sh_base sh_rep sh_star sh_gotype]. rewrite Hrep in *. destruct (hf_base f).
        - destruct Hk as [Hs Hb]. rewrite Hs in *. cbn [negb orb]. unfold go_base_types in Hb. cbn [In] in Hb. revert HT.
          destruct Hb as [<-|[<-|[<-|[<-|[<-|[<-|[<-|[<-|[]]]]]]]]];
            lazymatch goal with |- context[str_eqb ?a (T "bool")] => let b := eval vm_compute in (str_eqb a (T "bool")) in change (str_eqb a (T "bool")) with b | _ => idtac end; cbn iota;
            lazymatch goal with |- context[if str_eqb ?a (T "string") then _ else T "0"] => let b := eval vm_compute in (str_eqb a (T "string")) in change (str_eqb a (T "string")) with b | _ => idtac end; cbn iota;
            (destruct (get_option r f) as [g|]; intro HT; [destruct HT as [x ->]|]);
            lazymatch goal with
            | |- context[zero_expr (T "false")] => change (zero_expr (T "false")) with (EVar (T "false")); cbn [GoEncode.eval]; unfold inside; cbn [s_env]; rewrite (look_app _ _ _ Hfalse); try (destruct x); reflexivity
            | |- context[zero_expr (T "0")] => change (zero_expr (T "0")) with (ENum (T "0")); cbn [GoEncode.eval]; reflexivity
            | |- _ => cbn [GoEncode.eval]; try (destruct x); reflexivity
            end.
        - rewrite Hk in *. cbn [negb orb]. change (zero_expr (T "nil")) with (EVar (T "nil")). cbn [GoEncode.eval]. unfold inside. cbn [s_env]. rewrite (look_app _ _ _ En).
          change (look (vars m tmp sv u path) (T "nil")) with (@None val). cbn iota. change (universe (T "nil")) with (Some XNil). cbn iota.
          destruct (get_option r f) as [g|]; [destruct HT as [-> | [w ->]]; reflexivity|reflexivity].
      Qed.
      Lemma run_option m tmp sv : added (exec_block (option_query_code f) (at_ m tmp sv)) m (hf_query f) (option_values K r f).
      Proof.
        unfold option_query_code. cbn [block_of]. rewrite cons_run, if_run.
        assert (A1 : apart [[]]) by (apply apart_of; reflexivity).
        assert (D : run_simple K S (SDefine [T "val"] (get_option_expr f)) (enter (at_ m tmp sv)) = Next (ins [[(T "val", XG (field_ty f) option_now)]] m tmp sv)).
        { cbn [run_simple]. pose proof (eval_option [[]] m tmp sv A1) as E. change (ins [[]] m tmp sv) with (enter (at_ m tmp sv)) in E. rewrite E. reflexivity. }
        rewrite D. rewrite (eval_zero [[(T "val", XG (field_ty f) option_now)]] m tmp sv); [|apply apart_of; reflexivity|reflexivity|reflexivity].
        unfold option_values, sends. destruct (get_option r f) as [g|] eqn:Eg; [|exists tmp, sv; reflexivity]. destruct (is_zero (hf_gotype f) g); cbn [negb]; [exists tmp, sv; reflexivity|].
        change (enter (ins [[(T "val", XG (field_ty f) option_now)]] m tmp sv)) with (ins [[]; [(T "val", XG (field_ty f) option_now)]] m tmp sv).
        assert (A2 : apart [[]; [(T "val", XG (field_ty f) option_now)]]) by (apply apart_of; reflexivity).
        assert (On : option_now = g) by (unfold option_now; rewrite Eg; reflexivity).
        destruct (negb (hf_base f) || hf_rep f).
        - assert (Sw : safe (T "Get" ++ hf_name f ++ T "()")).
          { intros c Hc. apply in_app_or in Hc. destruct Hc as [Hc|Hc]; [cbn in Hc; repeat destruct Hc as [<-|Hc]; try contradiction; repeat split; discriminate|]. apply in_app_or in Hc.
            destruct Hc as [Hc|Hc]; [apply Hn; exact Hc|cbn in Hc; repeat destruct Hc as [<-|Hc]; try contradiction; repeat split; discriminate]. }
          rewrite (run_marshal o r u path _ A2 m tmp sv (T "Get" ++ hf_name f ++ T "()") (hf_query f) (get_option_expr f) _ _ Hq Sw (eval_option _ m tmp sv A2)). rewrite On.
          destruct (json_marshal K g) as [x|]; [exists x, x; reflexivity|eexists; reflexivity].
        - cbn [block_of]. rewrite cons_run. rewrite (run_add o r u path _ A2 m tmp sv (hf_query f) _ (sprint K (hf_gotype f) g) Hq); [exists tmp, sv; reflexivity|].
          assert (Nt : named_type (field_ty f) = hf_gotype f) by (unfold field_ty; rewrite Hrep; destruct (hf_star f); reflexivity). rewrite <- Nt, <- On. apply eval_sprint; [exact A2|reflexivity].
      Qed.
    End Option.
    (** An option whose type has no such literal: [val != nil] of an enum, [val != 0] of a pointer *)
    Definition bad_literal (f : hfield) : Prop :=
      exists t, st_options S (hf_name f) = Some (hf_camel f, t) /\ ((exists n, t = TyName n) /\ hf_zero f = T "nil" \/ (exists t', t = TyPtr t') /\ hf_zero f = T "0").
    Lemma run_bad f m tmp sv : bad_literal f -> exec_block (option_query_code f) (at_ m tmp sv) = Stop Reject.
    Proof.
      intros (t & Ht & HL). unfold option_query_code. cbn [block_of]. rewrite cons_run, if_run.
      assert (D : exists g, run_simple K S (SDefine [T "val"] (get_option_expr f)) (enter (at_ m tmp sv)) = Next (ins [[(T "val", XG t g)]] m tmp sv)).
      { eexists. cbn [run_simple]. unfold get_option_expr, v. cbn [GoEncode.eval]. change (look (s_env (enter (at_ m tmp sv))) (T "req")) with (Some XMessage). cbn iota.
        change (method K S (enter (at_ m tmp sv)) XMessage (T "Get" ++ hf_name f) []) with (getter S r (hf_name f)). unfold getter. rewrite Ht. reflexivity. }
      destruct D as [g ->]. destruct HL as [[[n ->] ->]|[[t' ->] ->]].
      - change (zero_expr (T "nil")) with (EVar (T "nil")). cbn [GoEncode.eval]. unfold v. cbn [GoEncode.eval]. change (look (s_env (ins [[(T "val", XG (TyName n) g)]] m tmp sv)) (T "val")) with (Some (XG (TyName n) g)).
        change (look (s_env (ins [[(T "val", XG (TyName n) g)]] m tmp sv)) (T "nil")) with (@None val). cbn iota. change (universe (T "nil")) with (Some XNil). cbn iota. destruct g; reflexivity.
      - change (zero_expr (T "0")) with (ENum (T "0")). cbn [GoEncode.eval]. unfold v. cbn [GoEncode.eval]. change (look (s_env (ins [[(T "val", XG (TyPtr t') g)]] m tmp sv)) (T "val")) with (Some (XG (TyPtr t') g)). cbn iota. destruct g; reflexivity.
    Qed.
    Definition gives_up (x : res) : Prop := x = Stop Reject \/ exists s, x = Return [XErr true] s.
    Lemma run_blocks_bad {X} (code : X -> block) (key : X -> str) (vals : X -> option (list str)) l :
      (forall x, In x l -> (forall m tmp sv, added (exec_block (code x) (at_ m tmp sv)) m (key x) (vals x)) \/ forall m tmp sv, exec_block (code x) (at_ m tmp sv) = Stop Reject) ->
      (exists x, In x l /\ forall m tmp sv, exec_block (code x) (at_ m tmp sv) = Stop Reject) ->
      forall m tmp sv, gives_up (exec_block (blocks (map code l)) (at_ m tmp sv)).
    Proof.
      induction l as [|x l IH]; intros H [y [Hy Ey]] m tmp sv; [destruct Hy|]. cbn [map blocks]. rewrite block_app_run.
      destruct (H x (or_introl eq_refl)) as [Hx|Hx]; [|rewrite Hx; left; reflexivity]. specialize (Hx m tmp sv). unfold added in Hx.
      destruct (vals x) as [l1|] eqn:El; [|destruct Hx as [s' ->]; right; eexists; reflexivity]. destruct Hx as (tmp' & sv' & Hx). destruct Hy as [<-|Hy]; [rewrite Ey in Hx; discriminate|]. rewrite Hx.
      apply IH; [intros z Hz; apply H; right; exact Hz|exists y; split; assumption].
    Qed.
    (** One after the other *)
    Fixpoint fold_vals {X} (key : X -> str) (vals : X -> option (list str)) (l : list X) (m : values) : option values :=
      match l with [] => Some m | x :: l' => match vals x with Some v => fold_vals key vals l' (add_values m (key x) v) | None => None end end.
    Definition filled (res : res) (m : option values) : Prop := match m with Some m => exists tmp sv, res = Next (at_ m tmp sv) | None => exists s, res = Return [XErr true] s end.
    Lemma run_blocks {X} (code : X -> block) key vals l : (forall x, In x l -> forall m tmp sv, added (exec_block (code x) (at_ m tmp sv)) m (key x) (vals x)) ->
      forall m tmp sv, filled (exec_block (blocks (map code l)) (at_ m tmp sv)) (fold_vals key vals l m).
    Proof.
      induction l as [|x l IH]; intros H m tmp sv; [exists tmp, sv; reflexivity|]. cbn [map blocks fold_vals]. rewrite block_app_run. pose proof (H x (or_introl eq_refl) m tmp sv) as Hx. unfold added in Hx.
      destruct (vals x) as [l1|]; [|destruct Hx as [s' ->]; eexists; reflexivity]. destruct Hx as (tmp' & sv' & ->). apply IH. intros y Hy. apply H. right. exact Hy.
    Qed.
  End Query.
  Lemma fold_app {X} (key : X -> str) vals a b m : fold_vals key vals (a ++ b) m = match fold_vals key vals a m with Some m' => fold_vals key vals b m' | None => None end.
  Proof. revert m. induction a as [|x a IH]; intro m; [reflexivity|]. cbn [app fold_vals]. destruct (vals x); [apply IH|reflexivity]. Qed.
  Lemma fields_fold r fs : forall m, query_fields K r fs m = fold_vals hf_query (field_values K r) (in_loc "query" fs) m.
  Proof.
    induction fs as [|f fs IH]; intro m; [reflexivity|]. unfold in_loc in *. cbn [query_fields filter]. destruct (str_eqb (hf_loc f) (T "query")); [|apply IH]. cbn [fold_vals]. destruct (field_values K r f); [apply IH|reflexivity].
  Qed.
  Lemma options_fold r os : forall m, query_options K r os m = fold_vals hf_query (option_values K r) os m.
  Proof. induction os as [|f os IH]; intro m; [reflexivity|]. cbn [query_options fold_vals]. destruct (option_values K r f); [apply IH|reflexivity]. Qed.
  Lemma oneofs_fold r os : forall m, query_oneofs K r os m = fold_vals hf_query (option_values K r) (flat_map ho_options (filter (fun o => str_eqb (ho_loc o) (T "query")) os)) m.
  Proof.
    induction os as [|o os IH]; intro m; [reflexivity|]. cbn [query_oneofs filter]. destruct (str_eqb (ho_loc o) (T "query")); [|apply IH]. cbn [flat_map]. rewrite fold_app, <- options_fold. destruct (query_options K r (ho_options o) m); [apply IH|reflexivity].
  Qed.

  (** ** The path *)
  Fixpoint eval_all (s : state) (l : list expr) : option (list val) * why :=
    match l with
    | [] => (Some [], Reject)
    | a :: l' => match eval s a with Ok v => match eval_all s l' with (Some vs, w) => (Some (v :: vs), w) | (None, w) => (None, w) end | Bust w => (None, w) end
    end.
  Lemma eval_lit s t keys args : eval s (ELit t keys args) = match eval_all s args with (Some vs, _) => composite t keys vs | (None, w) => Bust w end.
  Proof.
    cbn [GoEncode.eval]. match goal with |- (let (_, _) := ?F args in _) = _ => assert (E : F args = eval_all s args) end; [|rewrite E; reflexivity].
    clear keys t. induction args as [|a args IH]; [reflexivity|]. cbn [eval_all]. rewrite <- IH. reflexivity.
  Qed.
  Variables (b : hbind) (r : request) (base : str).
  Definition section_ok (s : section) : Prop :=
    match s with SecLit p => safe p | SecEnum c => exists t, st_fields S c = Some t | SecVal c => exists t, st_fields S c = Some t /\ named_type t = gotype_of b c end.
  Hypothesis Hsec : Forall section_ok (path_sections b).
  Definition headers : list (str * str) := [(T "transport", T "HTTPJSON"); (T "request-url", base)].
  Definition vars0 : env := [[(T "req", XMessage); (T "strval", XS []); (T "r", XRequest); (T "request", XAny)]].
  Definition st0 : state := mkState vars0 (mkOut base [] None headers) r.
  Lemma eval_part s : section_ok s -> eval st0 (section_expr s) = Ok (XS (eval_section K b r s)).
  Proof.
    destruct s as [p|c|c]; cbn [section_ok section_expr eval_section].
    - intro H. cbn [GoEncode.eval]. rewrite (safe_no_escape p H). reflexivity.
    - intros [t H]. unfold req_field, pkg, v, say. cbn [GoEncode.eval]. change (look (s_env st0) (T "fmt")) with (@None val). cbn iota. change (contains1 (T "%d") c_backslash) with false. cbn iota.
      change (look (s_env st0) (T "req")) with (Some XMessage). cbn iota. cbn [field_of]. rewrite H. change (s_msg st0 c) with (r c). destruct (r c); reflexivity.
    - intros (t & H & N). unfold req_field, sprint_of, pkg, v. cbn [GoEncode.eval]. change (look (s_env st0) (T "fmt")) with (@None val). cbn iota.
      change (look (s_env st0) (T "req")) with (Some XMessage). cbn iota. cbn [field_of]. rewrite H. rewrite <- N. reflexivity.
  Qed.
  Lemma eval_parts l : Forall section_ok l -> eval_all st0 (map section_expr l) = (Some (map (fun s => XS (eval_section K b r s)) l), Reject).
  Proof. intro H. induction H as [|s l Hs H IH]; [reflexivity|]. cbn [map eval_all]. rewrite (eval_part s Hs), IH. reflexivity. Qed.
  Lemma strings_are (l : list section) : strings_of (map (fun s => XS (eval_section K b r s)) l) = Some (map (eval_section K b r) l).
  Proof. induction l as [|s l IH]; [reflexivity|]. cbn [map strings_of]. rewrite IH. reflexivity. Qed.
  Lemma eval_message st : look (s_env st) (T "request") = Some XAny -> eval st (message_of (st_name S)) = Ok XMessage.
  Proof. intro E. unfold message_of, v. cbn [GoEncode.eval]. rewrite E, str_eqb_refl. reflexivity. Qed.
  Lemma run_start : exec_block (start_code (st_name S) (path_sections b)) (mkState [[(T "r", XRequest); (T "request", XAny)]] (mkOut base [] None []) r) =
    match url_parse_path (client_path K b r) with
    | Some p => Next (mkState (vars [] [] [] p (client_path K b r)) (mkOut p [] None headers) r)
    | None => Return [XErr true] (mkState ([] :: [] :: [[(T "err", XErr true); (T "u", XNil); (T "path", XS (client_path K b r)); (T "req", XMessage); (T "strval", XS []); (T "r", XRequest); (T "request", XAny)]]) (mkOut base [] None headers) r)
    end.
  Proof.
    unfold start_code. cbn [block_of]. set (rest := Cons (Do (SDefine [T "path"] _)) _).
    assert (R0 : forall st e, s_env st = e -> look e (T "request") = Some XAny -> eval st (message_of (st_name S)) = Ok XMessage) by (intros st e <- E; exact (eval_message st E)).
    match goal with |- context[Do (SDefine [T "req"] ?m)] =>
      assert (R1 : exec (Do (SDefine [T "req"] m)) (mkState [[(T "strval", XS []); (T "r", XRequest); (T "request", XAny)]] (mkOut base [] None []) r) = Next (mkState vars0 (mkOut base [] None []) r)) end.
    { remember (message_of (st_name S)) as me. cbn [GoEncode.exec run_simple]. subst me. rewrite (R0 _ _ eq_refl); reflexivity. }
    rewrite cons_run. change (exec (Do (SDefine [T "strval"] (say ""))) (mkState [[(T "r", XRequest); (T "request", XAny)]] (mkOut base [] None []) r)) with (Next (mkState [[(T "strval", XS []); (T "r", XRequest); (T "request", XAny)]] (mkOut base [] None []) r)). cbn iota.
    rewrite cons_run. change (exec (Do (SAssign (v "_") (v "strval"))) (mkState [[(T "strval", XS []); (T "r", XRequest); (T "request", XAny)]] (mkOut base [] None []) r)) with (Next (mkState [[(T "strval", XS []); (T "r", XRequest); (T "request", XAny)]] (mkOut base [] None []) r)). cbn iota.
    rewrite cons_run, R1. cbn iota. clear R0 R1.
    transitivity (exec_block rest st0); [reflexivity|]. unfold rest. clear rest. rewrite cons_run.
    assert (P : exec (Do (SDefine [T "path"] (ECall (pkg "strings" "Join") [ELit (TySlice (TyName (T "string"))) [] (map section_expr (path_sections b)); say "/"]))) st0 =
      Next (mkState [(T "path", XS (client_path K b r)) :: hd [] vars0] (mkOut base [] None headers) r)).
    { cbn [GoEncode.exec run_simple]. unfold pkg, v, say. 
      assert (E : eval st0 (ELit (TySlice (TyName (T "string"))) [] (map section_expr (path_sections b))) = Ok (XList (map (eval_section K b r) (path_sections b)))).
      { rewrite eval_lit, (eval_parts _ Hsec). unfold composite. rewrite strings_are. reflexivity. }
      assert (E2 : eval st0 (ECall (ESel (EVar (T "strings")) (T "Join")) [ELit (TySlice (TyName (T "string"))) [] (map section_expr (path_sections b)); EStr (T "/")]) = Ok (XS (client_path K b r))).
      { remember (ELit (TySlice (TyName (T "string"))) [] (map section_expr (path_sections b))) as lit. cbn [GoEncode.eval]. change (look (s_env st0) (T "strings")) with (@None val). cbn iota. rewrite E. reflexivity. }
      rewrite E2. reflexivity. }
    rewrite P. cbn iota. rewrite cons_run. remember (client_path K b r) as path.
    assert (U : exec (Do (SDefine [T "u"; T "err"] (ECall (pkg "url" "Parse") [v "path"]))) (mkState [(T "path", XS path) :: hd [] vars0] (mkOut base [] None headers) r) =
      match url_parse_path path with
      | Some p => Next (mkState [(T "err", XErr false) :: (T "u", XUrl p) :: (T "path", XS path) :: hd [] vars0] (mkOut base [] None headers) r)
      | None => Next (mkState [(T "err", XErr true) :: (T "u", XNil) :: (T "path", XS path) :: hd [] vars0] (mkOut base [] None headers) r)
      end).
    { cbn [GoEncode.exec run_simple]. unfold pkg, v. cbn [GoEncode.eval s_env]. change (look [(T "path", XS path) :: hd [] vars0] (T "url")) with (@None val). cbn iota. change (look [(T "path", XS path) :: hd [] vars0] (T "path")) with (Some (XS path)). cbn iota beta.
      change (lib K (T "url") (T "Parse") [XS path]) with (Ok (match url_parse_path path with Some p => XPair (XUrl p) (XErr false) | None => XPair XNil (XErr true) end)). destruct (url_parse_path path); reflexivity. }
    rewrite U. destruct (url_parse_path path) as [p|]; reflexivity.
  Qed.

  (** ** The body *)
  Definition in_body (e : env) : Prop := match e with [sc] => find_in sc (T "toRet") = Some XMessage /\ find_in sc (T "req") = Some XMessage | _ => False end.
  Definition body_ok (f : hfield) : Prop := exists t, st_fields S (hf_camel f) = Some t.
  Lemma run_body l e o : Forall body_ok l -> in_body e -> forall r1, (forall x, r1 x = r x) -> exists r2, exec_block (blocks (map body_field_code l)) (mkState e o r1) = Next (mkState e o r2) /\ forall x, r2 x = r x.
  Proof.
    intros Hl He. induction Hl as [|f l [t Hf] Hl IH]; intros r1 H1; [exists r1; split; [reflexivity|exact H1]|]. cbn [map blocks]. rewrite block_app_run. unfold body_field_code. cbn [block_of]. rewrite cons_run.
    destruct e as [|sc [|]]; [destruct He| |destruct He]. destruct He as [E1 E2].
    assert (X : exec (Do (SAssign (ESel (v "toRet") (hf_camel f)) (req_field (hf_camel f)))) (mkState [sc] o r1) = Next (mkState [sc] o (upd r1 (hf_camel f) (r1 (hf_camel f))))).
    { cbn [GoEncode.exec run_simple]. unfold req_field, v. cbn [GoEncode.eval s_env look]. rewrite E2. cbn iota. cbn [field_of]. rewrite Hf. cbn [s_msg]. unfold store. cbn [GoEncode.eval s_env look]. rewrite E1. cbn iota. rewrite Hf. reflexivity. }
    rewrite X. change (exec_block Nil) with (fun s => @Next s). cbn beta iota. apply IH. intro x. unfold upd. destruct (str_eqb x (hf_camel f)) eqn:Ex; [apply str_eqb_eq in Ex; subst x|]; apply H1.
  Qed.
  Hypothesis Hpj : forall r1 r2 : request, (forall x, r1 x = r2 x) -> pj_enc K r1 = pj_enc K r2.
  Hypothesis Hbody : Forall body_ok (in_loc "body" (hb_fields b)).
  Definition query_ok (f : hfield) : Prop := safe (hf_query f) /\ safe (hf_camel f) /\ st_fields S (hf_camel f) = Some (field_ty f).
  Hypothesis Hquery : Forall query_ok (in_loc "query" (hb_fields b)).
  Definition option_ok (f : hfield) : Prop :=
    safe (hf_query f) /\ safe (hf_name f) /\ hf_rep f = false /\ hf_zero f = get_zero_value (mkShape (hf_gotype f) (hf_star f) (hf_base f) (hf_enum f) (hf_rep f)) /\
    (if hf_base f then hf_star f = false /\ In (hf_gotype f) go_base_types else hf_star f = true) /\
    st_options S (hf_name f) = Some (hf_camel f, field_ty f) /\ (forall g, r (hf_camel f) = VOneof (Some (hf_name f, g)) -> has_type (field_ty f) g).
  (** If an option has no literal, no request is sent. *)
  Lemma run_bad_encoder : Forall (fun f => option_ok f \/ bad_literal f) (flat_map ho_options (query_oneofs_of b)) -> Exists bad_literal (flat_map ho_options (query_oneofs_of b)) ->
    call K S base r (encoder_prog (st_name S) b) = None \/ call K S base r (encoder_prog (st_name S) b) = Some Fails.
  Proof.
    intros Hall Hex. unfold call, encoder_prog. rewrite block_app_run, run_start. destruct (url_parse_path (client_path K b r)) as [p|]; [|right; reflexivity].
    set (o := mkOut p [] None headers). set (path := client_path K b r). change (mkState (vars [] [] [] p path) o r) with (at_ o r p path [] [] []).
    rewrite block_app_run.
    assert (Q := run_blocks o r p path query_code hf_query (field_values K r) (in_loc "query" (hb_fields b))). unfold filled in Q.
    specialize (Q (fun f Hf m tmp sv => match proj1 (Forall_forall _ _) Hquery f Hf with conj q (conj c t) => run_query o r p path f q c t m tmp sv end) [] [] []).
    destruct (fold_vals hf_query (field_values K r) (in_loc "query" (hb_fields b)) []) as [m1|]; [|destruct Q as [s' ->]; right; reflexivity]. destruct Q as (tmp & sv & ->).
    rewrite block_app_run.
    destruct (run_blocks_bad o r p path option_query_code hf_query (option_values K r) (flat_map ho_options (query_oneofs_of b))) with (m := m1) (tmp := tmp) (sv := sv) as [->|[s' ->]].
    - intros f Hf. rewrite Forall_forall in Hall. destruct (Hall f Hf) as [(q & n & h & z & k & t & g)|Hbad]; [left; intros m2 tmp2 sv2; exact (run_option o r p path f q n h z k t g m2 tmp2 sv2)|right; intros m2 tmp2 sv2; apply run_bad; exact Hbad].
    - apply Exists_exists in Hex. destruct Hex as (f & Hf & Hbad). exists f. split; [exact Hf|]. intros m2 tmp2 sv2. apply run_bad. exact Hbad.
    - left. reflexivity.
    - right. reflexivity.
  Qed.
  Hypothesis Hopt : Forall option_ok (flat_map ho_options (query_oneofs_of b)).
  (** What the call does, from what [encode_request] says *)
  Definition sent_of (h : option http_request) : sent :=
    match h with
    | Some h => Sends (mkOut (rq_path h) (rq_query h) (if str_eqb (hb_verb b) (T "get") then None else Some (rq_body h)) headers)
    | None => Fails
    end.
  Definition result (x : res) : option sent := match x with Return [XNil] s => Some (Sends (s_out s)) | Return [XErr true] _ => Some Fails | _ => None end.
  Lemma run_rest m tmp sv p path : result (exec_block (block_app query_text_code
      (block_app (if str_eqb (hb_verb b) (T "get") then Nil else block_app (body_start (st_name S)) (block_app (blocks (map body_field_code (in_loc "body" (hb_fields b)))) body_end))
        (block_of [Do (SReturn [v "nil"])]))) (mkState (vars m tmp sv p path) (mkOut p [] None headers) r)) =
    Some (sent_of (if str_eqb (hb_verb b) (T "get") then Some (mkReq (to_upper (hb_verb b)) p (encode_values m) [])
                   else match pj_enc K r with Some data => Some (mkReq (to_upper (hb_verb b)) p (encode_values m) data) | None => None end)).
  Proof.
    rewrite block_app_run. change (exec_block query_text_code (mkState (vars m tmp sv p path) (mkOut p [] None headers) r)) with (Next (mkState (vars m tmp sv p path) (mkOut p (encode_values m) None headers) r)). cbn iota.
    unfold sent_of. destruct (str_eqb (hb_verb b) (T "get")) eqn:Ev; [reflexivity|]. rewrite block_app_run, block_app_run.
    assert (B : exec_block (body_start (st_name S)) (mkState (vars m tmp sv p path) (mkOut p (encode_values m) None headers) r) =
      Next (mkState [(T "toRet", XMessage) :: hd [] (vars m tmp sv p path)] (mkOut p (encode_values m) None headers) r)).
    { unfold body_start. cbn [block_of]. rewrite cons_run. remember (message_of (st_name S)) as me. cbn [GoEncode.exec run_simple]. subst me. rewrite eval_message by reflexivity. reflexivity. }
    rewrite B. cbn iota. clear B. rewrite block_app_run.
    destruct (run_body (in_loc "body" (hb_fields b)) [(T "toRet", XMessage) :: hd [] (vars m tmp sv p path)] (mkOut p (encode_values m) None headers) Hbody (conj eq_refl eq_refl) r (fun x => eq_refl)) as (r2 & -> & H2). cbn iota.
    rewrite <- (Hpj _ _ H2). unfold body_end. cbn [block_of repeat map]. rewrite cons_run.
    match goal with |- context[exec (Do (SDefine [T "marshaler"] ?l)) ?st] => change (exec (Do (SDefine [T "marshaler"] l)) st) with (Next (mkState [(T "marshaler", XMarshal) :: (T "toRet", XMessage) :: hd [] (vars m tmp sv p path)] (mkOut p (encode_values m) None headers) r2)) end. cbn iota.
    rewrite cons_run.
    set (e2 := (T "marshaler", XMarshal) :: (T "toRet", XMessage) :: hd [] (vars m tmp sv p path)).
    assert (D : exec (Do (SDefine [T "data"; T "err"] (ECall (ESel (v "marshaler") (T "Marshal")) [v "req"]))) (mkState [e2] (mkOut p (encode_values m) None headers) r2) =
      match pj_enc K r2 with
      | Some d => Next (mkState [(T "data", XBytes d) :: e2] (mkOut p (encode_values m) None headers) r2)
      | None => Next (mkState [set_in ((T "data", XBytes []) :: e2) (T "err") (XErr true)] (mkOut p (encode_values m) None headers) r2)
      end).
    { unfold v. cbn [GoEncode.exec run_simple]. cbn [GoEncode.eval s_env]. change (look [e2] (T "marshaler")) with (Some XMarshal). change (look [e2] (T "req")) with (Some XMessage). cbn iota beta.
      cbn [method]. change (str_eqb (T "Marshal") (T "Marshal")) with true. cbn iota. cbn [s_msg]. destruct (pj_enc K r2); reflexivity. }
    rewrite D. destruct (pj_enc K r2) as [d|]; reflexivity.
  Qed.
  Theorem run_encoder : call K S base r (encoder_prog (st_name S) b) = Some (sent_of (encode_request K b r)).
  Proof.
    unfold call. fold (result (exec_block (encoder_prog (st_name S) b) (mkState [[(T "r", XRequest); (T "request", XAny)]] (mkOut base [] None []) r))).
    unfold encoder_prog, encode_request. rewrite block_app_run, run_start. destruct (url_parse_path (client_path K b r)) as [p|]; [|reflexivity].
    set (o := mkOut p [] None headers). set (path := client_path K b r). change (mkState (vars [] [] [] p path) o r) with (at_ o r p path [] [] []).
    rewrite block_app_run, fields_fold.
    assert (Q := run_blocks o r p path query_code hf_query (field_values K r) (in_loc "query" (hb_fields b))). unfold filled in Q.
    specialize (Q (fun f Hf m tmp sv => match proj1 (Forall_forall _ _) Hquery f Hf with conj q (conj c t) => run_query o r p path f q c t m tmp sv end) [] [] []).
    destruct (fold_vals hf_query (field_values K r) (in_loc "query" (hb_fields b)) []) as [m1|]; [|destruct Q as [s' ->]; reflexivity]. destruct Q as (tmp & sv & ->).
    rewrite block_app_run, oneofs_fold. fold (query_oneofs_of b).
    assert (P := run_blocks o r p path option_query_code hf_query (option_values K r) (flat_map ho_options (query_oneofs_of b))). unfold filled in P.
    specialize (P (fun f Hf m tmp sv => match proj1 (Forall_forall _ _) Hopt f Hf with conj q (conj n (conj h (conj z (conj k (conj t g))))) => run_option o r p path f q n h z k t g m tmp sv end) m1 tmp sv).
    destruct (fold_vals hf_query (option_values K r) (flat_map ho_options (query_oneofs_of b)) m1) as [m2|]; [|destruct P as [s' ->]; reflexivity]. destruct P as (tmp2 & sv2 & ->).
    unfold at_, o. apply run_rest.
  Qed.
End Run.
