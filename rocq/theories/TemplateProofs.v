(** A type checker for templates, and its soundness: what it accepts is executed without an error.  It is a means of proof only. *)
From Coq Require Import Lia.
From Verif Require Import GoStr GoMap Decimals HttpTransport Template.

Inductive ty (C : Type) := TyStr | TyBool | TyNum | TyZero | TyList (ne : bool) (t : ty C) | TyObj (c : C).
Arguments TyStr {C}. Arguments TyBool {C}. Arguments TyNum {C}. Arguments TyZero {C}. Arguments TyList {C} ne t. Arguments TyObj {C} c.

Section Induction.
  Variable P : arg -> Prop.
  Hypothesis Hdot : P ADot.
  Hypothesis Hfield : forall l, P (AField l).
  Hypothesis Hvar : forall x l, P (AVar x l).
  Hypothesis Hfun : forall f, P (AFun f).
  Hypothesis Hstr : forall s, P (AStr s).
  Hypothesis Hnum : forall n, P (ANum n).
  Hypothesis Hpipe : forall cmds, Forall (Forall P) cmds -> P (APipe cmds).
  Fixpoint arg_ind2 (a : arg) : P a :=
    match a with
    | ADot => Hdot | AField l => Hfield l | AVar x l => Hvar x l | AFun f => Hfun f | AStr s => Hstr s | ANum n => Hnum n
    | APipe cmds =>
        Hpipe cmds ((fix go (cs : list (list arg)) : Forall (Forall P) cs :=
          match cs with
          | [] => Forall_nil _
          | c :: cs' => Forall_cons _ ((fix go2 (c : list arg) : Forall P c :=
              match c with [] => Forall_nil _ | x :: c' => Forall_cons _ (arg_ind2 x) (go2 c') end) c) (go cs')
          end) cmds)
    end.
End Induction.
Section InductionN.
  Variable P : node -> Prop.
  Hypothesis Htext : forall s, P (NText s).
  Hypothesis Haction : forall c, P (NAction c).
  Hypothesis Hif : forall c yes no, Forall P yes -> Forall P no -> P (NIf c yes no).
  Hypothesis Hrange : forall p yes no, Forall P yes -> Forall P no -> P (NRange p yes no).
  Hypothesis Hwith : forall p yes no, Forall P yes -> Forall P no -> P (NWith p yes no).
  Fixpoint node_ind2 (n : node) : P n :=
    let all := fix go (l : list node) : Forall P l := match l with [] => Forall_nil _ | x :: l' => Forall_cons _ (node_ind2 x) (go l') end in
    match n with
    | NText s => Htext s | NAction c => Haction c
    | NIf c yes no => Hif c yes no (all yes) (all no)
    | NRange p yes no => Hrange p yes no (all yes) (all no)
    | NWith p yes no => Hwith p yes no (all yes) (all no)
    end.
End InductionN.

(** The executor, without nested fixpoints. *)
Section Unfold.
  Variable O : Type.
  Variable get : O -> str -> option (value O).
  Notation value := (value O).
  Fixpoint eval_args (e : vars O) (dot : value) (l : list arg) : option (list value) :=
    match l with [] => Some [] | x :: l' => match eval_arg O get e dot x, eval_args e dot l' with Some v, Some vs => Some (v :: vs) | _, _ => None end end.
  Definition eval_cmd (e : vars O) (dot : value) (c : list arg) (final : option value) : option value :=
    match c with
    | AFun f :: l => match eval_args e dot l with Some vs => call O f (with_final O vs final) | None => None end
    | [x] => match final with None => eval_arg O get e dot x | Some _ => None end
    | _ => None
    end.
  Fixpoint eval_cmds (e : vars O) (dot : value) (cs : list (list arg)) (final : option value) : option value :=
    match cs with [] => final | c :: cs' => match eval_cmd e dot c final with Some v => eval_cmds e dot cs' (Some v) | None => None end end.
  Lemma eval_args_fix e dot l :
    (fix go (l : list arg) : option (list value) :=
      match l with [] => Some [] | x :: l' => match eval_arg O get e dot x, go l' with Some v, Some vs => Some (v :: vs) | _, _ => None end end) l = eval_args e dot l.
  Proof. induction l as [|x l IH]; [reflexivity|]. cbn [eval_args]. rewrite IH. reflexivity. Qed.
  Lemma eval_pipe_eq e dot cmds : eval_pipe O get e dot cmds = eval_cmds e dot cmds None.
  Proof.
    unfold eval_pipe. cbn [eval_arg].
    match goal with |- ?F cmds None = _ => enough (G : forall final, F cmds final = eval_cmds e dot cmds final) by apply G end.
    induction cmds as [|c cs IH]; intro final; [reflexivity|].
    cbn [eval_cmds]. unfold eval_cmd at 1.
    destruct c as [|x l]; [reflexivity|].
    destruct x; try (destruct l; [destruct final; [reflexivity|]|reflexivity]; match goal with |- match ?x with _ => _ end = _ => destruct x; [apply IH|reflexivity] end).
    rewrite eval_args_fix. destruct (eval_args e dot l); [|reflexivity]. match goal with |- match ?x with _ => _ end = _ => destruct x; [apply IH|reflexivity] end.
  Qed.
  Lemma exec_list_fix l : forall e dot,
    (fix go (e : vars O) (dot : value) (l : list node) : option str :=
      match l with [] => Some [] | x :: l' => match exec_node O get e dot x, go e dot l' with Some a, Some b => Some (a ++ b) | _, _ => None end end) e dot l = exec_nodes O get e dot l.
  Proof. induction l as [|x l IH]; intros e dot; [reflexivity|]. cbn [exec_nodes]. rewrite IH. reflexivity. Qed.
  (** The outcomes of the body of a range, one after the other. *)
  Fixpoint exec_each (e : vars O) (p : pipeline) (body : list node) (l : list value) : option str :=
    match l with [] => Some [] | v :: l' => match exec_nodes O get (bind O p v e) v body, exec_each e p body l' with Some a, Some b => Some (a ++ b) | _, _ => None end end.
  Lemma exec_each_fix e p body l :
    (fix each (l : list value) : option str :=
       match l with
       | [] => Some []
       | v :: l' =>
           match (fix go (e : vars O) (dot : value) (l : list node) : option str :=
                    match l with [] => Some [] | x :: l' => match exec_node O get e dot x, go e dot l' with Some a, Some b => Some (a ++ b) | _, _ => None end end)
                 (bind O p v e) v body, each l' with Some a, Some b => Some (a ++ b) | _, _ => None end
       end) l = exec_each e p body l.
  Proof. induction l as [|v l IH]; [reflexivity|]. cbn [exec_each]. rewrite IH, exec_list_fix. reflexivity. Qed.
  Lemma exec_if e dot c yes no :
    exec_node O get e dot (NIf c yes no) =
    match eval_cmds e dot c None with Some v => if truth O v then exec_nodes O get e dot yes else exec_nodes O get e dot no | None => None end.
  Proof. cbn [exec_node]. rewrite eval_pipe_eq. destruct (eval_cmds e dot c None); [|reflexivity]. rewrite !exec_list_fix. reflexivity. Qed.
  Lemma exec_with e dot p yes no :
    exec_node O get e dot (NWith p yes no) =
    match eval_cmds e dot (pl_cmds p) None with Some v => if truth O v then exec_nodes O get (bind O p v e) v yes else exec_nodes O get (bind O p v e) dot no | None => None end.
  Proof. cbn [exec_node]. rewrite eval_pipe_eq. destruct (eval_cmds e dot (pl_cmds p) None); [|reflexivity]. rewrite !exec_list_fix. reflexivity. Qed.
  Lemma exec_range e dot p body no :
    exec_node O get e dot (NRange p body no) =
    match eval_cmds e dot (pl_cmds p) None with
    | Some (VList []) => exec_nodes O get e dot no
    | Some (VList l) => exec_each e p body l
    | _ => None
    end.
  Proof.
    cbn [exec_node]. rewrite eval_pipe_eq. destruct (eval_cmds e dot (pl_cmds p) None) as [v|]; [|reflexivity].
    destruct v as [ | | |l| ]; try reflexivity. destruct l as [|v l]; [apply exec_list_fix|]. apply (exec_each_fix e p body (v :: l)).
  Qed.
  Lemma exec_action e dot c : exec_node O get e dot (NAction c) = match eval_cmds e dot c None with Some v => print O v | None => None end.
  Proof. cbn [exec_node]. rewrite eval_pipe_eq. reflexivity. Qed.
  Lemma exec_nodes_app e dot l1 l2 :
    exec_nodes O get e dot (l1 ++ l2) = match exec_nodes O get e dot l1, exec_nodes O get e dot l2 with Some a, Some b => Some (a ++ b) | _, _ => None end.
  Proof.
    induction l1 as [|x l1 IH].
    - cbn. destruct (exec_nodes O get e dot l2); reflexivity.
    - cbn [app exec_nodes]. rewrite IH. destruct (exec_node O get e dot x); [|reflexivity].
      destruct (exec_nodes O get e dot l1); [|reflexivity]. destruct (exec_nodes O get e dot l2); [|reflexivity]. now rewrite app_assoc.
  Qed.
End Unfold.

Section Typing.
  Variables O C : Type.
  Variable get : O -> str -> option (value O).
  (** The types of the fields of a class, and the objects of a class. *)
  Variable sig : C -> str -> option (ty C).
  Variable of_class : C -> O -> Prop.
  Notation value := (value O).
  Fixpoint has_ty (t : ty C) (v : value) : Prop :=
    match t with
    | TyStr => exists s, v = VStr s
    | TyBool => exists b, v = VBool b
    | TyNum => exists n, v = VNum n
    | TyZero => v = VNum 0
    | TyList ne t' => exists l, v = VList l /\ (ne = true -> l <> []) /\ Forall (has_ty t') l
    | TyObj c => exists o, v = VObj o /\ of_class c o
    end.
  Hypothesis get_sound : forall c o n t, of_class c o -> sig c n = Some t -> exists v, get o n = Some v /\ has_ty t v.

  Fixpoint tc_fields (t : ty C) (l : list str) : option (ty C) :=
    match l with [] => Some t | n :: l' => match t with TyObj c => match sig c n with Some t' => tc_fields t' l' | None => None end | _ => None end end.
  Definition all_bool (l : list (ty C)) : bool := forallb (fun t => match t with TyBool => true | _ => false end) l.
  Definition same_basic (a b : ty C) : bool := match a, b with TyStr, TyStr | TyBool, TyBool => true | _, _ => false end.
  Definition tc_call (f : str) (args : list (ty C)) : option (ty C) :=
    if str_eqb f (T "ToLower") then match args with [TyStr] => Some TyStr | _ => None end
    else if str_eqb f (T "ToUpper") then match args with [TyStr] => Some TyStr | _ => None end
    else if str_eqb f (T "GoName") then match args with [TyStr] => Some TyStr | _ => None end
    else if str_eqb f (T "Contains") then match args with [TyStr; TyStr] => Some TyBool | _ => None end
    else if str_eqb f (T "eq") then match args with a :: b :: l => if forallb (same_basic a) (b :: l) then Some TyBool else None | _ => None end
    else if str_eqb f (T "ne") then match args with [a; b] => if same_basic a b then Some TyBool else None | _ => None end
    else if str_eqb f (T "and") then match args with a :: l => if all_bool args then Some TyBool else None | _ => None end
    else if str_eqb f (T "or") then match args with a :: l => if all_bool args then Some TyBool else None | _ => None end
    else if str_eqb f (T "not") then match args with [a] => Some TyBool | _ => None end
    else if str_eqb f (T "index") then match args with [TyList true t; TyZero] => Some t | _ => None end
    else None.
  Definition tenv := list (str * ty C).
  Definition tc_final (args : list (ty C)) (final : option (ty C)) : list (ty C) := match final with Some v => args ++ [v] | None => args end.
  Fixpoint tc_arg (e : tenv) (dot : ty C) (a : arg) {struct a} : option (ty C) :=
    let tc_args := fix go (l : list arg) : option (list (ty C)) :=
      match l with [] => Some [] | x :: l' => match tc_arg e dot x, go l' with Some v, Some vs => Some (v :: vs) | _, _ => None end end in
    let tc_cmd := fun (c : list arg) (final : option (ty C)) =>
      match c with
      | AFun f :: l => match tc_args l with Some vs => tc_call f (tc_final vs final) | None => None end
      | [x] => match final with None => tc_arg e dot x | Some _ => None end
      | _ => None
      end in
    match a with
    | ADot => Some dot
    | AField l => tc_fields dot l
    | AVar x l => match mget e x with Some v => tc_fields v l | None => None end
    | AFun f => tc_call f []
    | AStr s => Some TyStr
    | ANum 0 => Some TyZero
    | ANum n => Some TyNum
    | APipe cmds =>
        (fix go (cs : list (list arg)) (final : option (ty C)) : option (ty C) :=
           match cs with
           | [] => final
           | c :: cs' => match tc_cmd c final with Some v => go cs' (Some v) | None => None end
           end) cmds None
    end.
  Definition tc_bind (p : pipeline) (t : ty C) (e : tenv) : tenv := match pl_decl p with Some x => (x, t) :: e | None => e end.
  Definition printable (t : ty C) : bool := match t with TyStr | TyBool | TyNum | TyZero => true | _ => false end.
  Fixpoint tc_node (e : tenv) (dot : ty C) (n : node) {struct n} : bool :=
    let tc_list := fix go (e : tenv) (dot : ty C) (l : list node) : bool := match l with [] => true | x :: l' => tc_node e dot x && go e dot l' end in
    match n with
    | NText s => true
    | NAction cmds => match tc_arg e dot (APipe cmds) with Some t => printable t | None => false end
    | NIf cmds yes no => match tc_arg e dot (APipe cmds) with Some t => tc_list e dot yes && tc_list e dot no | None => false end
    | NWith p yes no => match tc_arg e dot (APipe (pl_cmds p)) with Some t => tc_list (tc_bind p t e) t yes && tc_list (tc_bind p t e) dot no | None => false end
    | NRange p body no => match tc_arg e dot (APipe (pl_cmds p)) with Some (TyList _ t) => tc_list (tc_bind p t e) t body && tc_list e dot no | _ => false end
    end.
  Fixpoint tc_nodes (e : tenv) (dot : ty C) (l : list node) : bool := match l with [] => true | x :: l' => tc_node e dot x && tc_nodes e dot l' end.
  (** A template is accepted for a class. *)
  Definition tc_template (text : str) (c : C) : bool := match parse_template text with Some ns => tc_nodes [([], TyObj c)] (TyObj c) ns | None => false end.

  Definition env_ok (g : tenv) (e : vars O) : Prop := forall x t, mget g x = Some t -> exists v, mget e x = Some v /\ has_ty t v.
  Lemma fields_sound l : forall t v t', has_ty t v -> tc_fields t l = Some t' -> exists v', fields_of O get v l = Some v' /\ has_ty t' v'.
  Proof.
    induction l as [|n l IH]; intros t v t' H K; cbn [tc_fields fields_of] in *.
    - injection K as <-. eauto.
    - destruct t; try discriminate. destruct H as (o & -> & H). destruct (sig c n) as [t1|] eqn:E; [|discriminate].
      destruct (get_sound _ _ _ _ H E) as (v1 & G & H1). cbn [field_of]. rewrite G. eapply IH; eauto.
  Qed.
  Lemma and_sound l : forall a, all_bool l = true -> forall vs b, a = VBool b -> Forall2 has_ty l vs -> exists x, fn_and O a vs = VBool x.
  Proof.
    induction l as [|t l IH]; intros a H vs b -> K; inversion K as [|? v ? vs' Hv Hvs]; subst; cbn [fn_and]; [eauto|].
    cbn in H. apply andb_prop in H as [Ht H]. destruct t; try discriminate. destruct Hv as [x ->]. destruct (truth O (VBool b)); eauto.
  Qed.
  Lemma or_sound l : forall a, all_bool l = true -> forall vs b, a = VBool b -> Forall2 has_ty l vs -> exists x, fn_or O a vs = VBool x.
  Proof.
    induction l as [|t l IH]; intros a H vs b -> K; inversion K as [|? v ? vs' Hv Hvs]; subst; cbn [fn_or]; [eauto|].
    cbn in H. apply andb_prop in H as [Ht H]. destruct t; try discriminate. destruct Hv as [x ->]. destruct (truth O (VBool b)); eauto.
  Qed.
  Lemma basic_sound a b v w : same_basic a b = true -> has_ty a v -> has_ty b w -> exists x, basic_eq O v w = Some x.
  Proof. destruct a, b; try discriminate; intros _ [x ->] [y ->]; cbn; eauto. Qed.
  Lemma eq_sound a v l : has_ty a v -> forallb (same_basic a) l = true -> forall vs, Forall2 has_ty l vs -> exists x, eq_any O v vs = Some x.
  Proof.
    intro H. induction l as [|t l IH]; intros K vs F; inversion F as [|? w ? vs' Hw Hvs]; subst; cbn [eq_any]; [eauto|].
    cbn in K. apply andb_prop in K as [Kt K]. destruct (basic_sound _ _ _ _ Kt H Hw) as [[|] ->]; eauto.
  Qed.
  Ltac inv2 := repeat match goal with H : Forall2 _ (_ :: _) _ |- _ => inversion H; subst; clear H | H : Forall2 _ [] _ |- _ => inversion H; subst; clear H end.
  Ltac dty := repeat match goal with H : has_ty TyStr _ |- _ => destruct H as [? ->] | H : has_ty TyZero _ |- _ => cbn in H; subst end.
  Lemma call_sound f ts vs t : Forall2 has_ty ts vs -> tc_call f ts = Some t -> exists v, call O f vs = Some v /\ has_ty t v.
  Proof.
    intros F. unfold tc_call, call.
    destruct (str_eqb f (T "ToLower")).
    { destruct ts as [|[] []]; try discriminate. intros [= <-]. inv2. dty. cbn. eauto. }
    destruct (str_eqb f (T "ToUpper")).
    { destruct ts as [|[] []]; try discriminate. intros [= <-]. inv2. dty. cbn. eauto. }
    destruct (str_eqb f (T "GoName")).
    { destruct ts as [|[] []]; try discriminate. intros [= <-]. inv2. dty. cbn. eauto. }
    destruct (str_eqb f (T "Contains")).
    { destruct ts as [|[] [|[] []]]; try discriminate. intros [= <-]. inv2. dty. cbn. eauto. }
    destruct (str_eqb f (T "eq")).
    { destruct ts as [|a [|b l]]; try discriminate. destruct (forallb (same_basic a) (b :: l)) eqn:E; [|discriminate]. intros [= <-].
      inversion F as [|? v ? vs' Hv Hvs]; subst. destruct (eq_sound _ _ _ Hv E _ Hvs) as [x Hx]. inversion Hvs; subst. rewrite Hx. cbn. eauto. }
    destruct (str_eqb f (T "ne")).
    { destruct ts as [|a [|b [|]]]; try discriminate. destruct (same_basic a b) eqn:E; [|discriminate]. intros [= <-]. inv2.
      match goal with H : has_ty a ?v, K : has_ty b ?w |- _ => destruct (basic_sound _ _ _ _ E H K) as [x ->] end. cbn. eauto. }
    destruct (str_eqb f (T "and")).
    { destruct ts as [|a l]; try discriminate. destruct (all_bool (a :: l)) eqn:E; [|discriminate]. intros [= <-].
      inversion F as [|? v ? vs' Hv Hvs]; subst. cbn in E. apply andb_prop in E as [E1 E]. destruct a; try discriminate. destruct Hv as [b ->].
      destruct (and_sound _ (VBool b) E _ _ eq_refl Hvs) as [x ->]. cbn. eauto. }
    destruct (str_eqb f (T "or")).
    { destruct ts as [|a l]; try discriminate. destruct (all_bool (a :: l)) eqn:E; [|discriminate]. intros [= <-].
      inversion F as [|? v ? vs' Hv Hvs]; subst. cbn in E. apply andb_prop in E as [E1 E]. destruct a; try discriminate. destruct Hv as [b ->].
      destruct (or_sound _ (VBool b) E _ _ eq_refl Hvs) as [x ->]. cbn. eauto. }
    destruct (str_eqb f (T "not")).
    { destruct ts as [|a []]; try discriminate. intros [= <-]. inv2. cbn. eauto. }
    destruct (str_eqb f (T "index")); [|discriminate].
    destruct ts as [|[| | | |[] t'|] [|[] []]]; try discriminate. intros [= <-]. inv2. dty.
    match goal with H : has_ty (TyList true _) _ |- _ => destruct H as (l & -> & N & A) end.
    destruct l as [|v l]; [now destruct N|]. inversion A; subst. cbn. eauto.
  Qed.

  Fixpoint tc_args (e : tenv) (dot : ty C) (l : list arg) : option (list (ty C)) :=
    match l with [] => Some [] | x :: l' => match tc_arg e dot x, tc_args e dot l' with Some v, Some vs => Some (v :: vs) | _, _ => None end end.
  Definition tc_cmd (e : tenv) (dot : ty C) (c : list arg) (final : option (ty C)) : option (ty C) :=
    match c with
    | AFun f :: l => match tc_args e dot l with Some vs => tc_call f (tc_final vs final) | None => None end
    | [x] => match final with None => tc_arg e dot x | Some _ => None end
    | _ => None
    end.
  Fixpoint tc_cmds (e : tenv) (dot : ty C) (cs : list (list arg)) (final : option (ty C)) : option (ty C) :=
    match cs with [] => final | c :: cs' => match tc_cmd e dot c final with Some v => tc_cmds e dot cs' (Some v) | None => None end end.
  Lemma tc_args_fix e dot l :
    (fix go (l : list arg) : option (list (ty C)) :=
      match l with [] => Some [] | x :: l' => match tc_arg e dot x, go l' with Some v, Some vs => Some (v :: vs) | _, _ => None end end) l = tc_args e dot l.
  Proof. induction l as [|x l IH]; [reflexivity|]. cbn [tc_args]. rewrite IH. reflexivity. Qed.
  Lemma tc_pipe_eq e dot cmds : tc_arg e dot (APipe cmds) = tc_cmds e dot cmds None.
  Proof.
    cbn [tc_arg].
    match goal with |- ?F cmds None = _ => enough (G : forall final, F cmds final = tc_cmds e dot cmds final) by apply G end.
    induction cmds as [|c cs IH]; intro final; [reflexivity|].
    cbn [tc_cmds]. unfold tc_cmd at 1.
    destruct c as [|x l]; [reflexivity|].
    destruct x; try (destruct l; [destruct final; [reflexivity|]|reflexivity]; match goal with |- match ?x with _ => _ end = _ => destruct x; [apply IH|reflexivity] end).
    rewrite tc_args_fix. destruct (tc_args e dot l); [|reflexivity]. match goal with |- match ?x with _ => _ end = _ => destruct x; [apply IH|reflexivity] end.
  Qed.
  Lemma tc_list_fix l : forall e dot, (fix go (e : tenv) (dot : ty C) (l : list node) : bool := match l with [] => true | x :: l' => tc_node e dot x && go e dot l' end) e dot l = tc_nodes e dot l.
  Proof. induction l as [|x l IH]; intros e dot; [reflexivity|]. cbn [tc_nodes]. rewrite IH. reflexivity. Qed.

  Definition arg_sound (a : arg) : Prop :=
    forall g e dt dot t, env_ok g e -> has_ty dt dot -> tc_arg g dt a = Some t -> exists v, eval_arg O get e dot a = Some v /\ has_ty t v.
  Lemma args_sound l : Forall arg_sound l -> forall g e dt dot ts, env_ok g e -> has_ty dt dot -> tc_args g dt l = Some ts ->
    exists vs, eval_args O get e dot l = Some vs /\ Forall2 has_ty ts vs.
  Proof.
    induction 1 as [|x l Hx Hl IH]; intros g e dt dot ts He Hd K; cbn [tc_args eval_args] in *.
    - injection K as <-. eauto.
    - destruct (tc_arg g dt x) as [t|] eqn:E; [|discriminate]. destruct (tc_args g dt l) as [ts'|] eqn:E'; [|discriminate]. injection K as <-.
      destruct (Hx _ _ _ _ _ He Hd E) as (v & -> & Hv). destruct (IH _ _ _ _ _ He Hd E') as (vs & -> & Hvs). eauto.
  Qed.
  Lemma cmd_sound c : Forall arg_sound c -> forall g e dt dot ft final t, env_ok g e -> has_ty dt dot ->
    match ft, final with Some t, Some v => has_ty t v | None, None => True | _, _ => False end ->
    tc_cmd g dt c ft = Some t -> exists v, eval_cmd O get e dot c final = Some v /\ has_ty t v.
  Proof.
    intros H g e dt dot ft final t He Hd Hf K. unfold tc_cmd, eval_cmd in *. destruct c as [|x l]; [discriminate|].
    assert (One : l = [] -> forall t, match ft with None => tc_arg g dt x | Some _ => None end = Some t ->
      exists v, match final with None => eval_arg O get e dot x | Some _ => None end = Some v /\ has_ty t v).
    { intros _ t' K'. destruct ft; [discriminate|]. destruct final; [contradiction|]. inversion H as [|? ? Hx Hl]; subst. eapply Hx; eauto. }
    destruct x as [|fl|x fl|f|s|n|p]; try (destruct l; [now apply One|discriminate]).
    destruct (tc_args g dt l) as [ts|] eqn:E; [|discriminate]. inversion H as [|? ? Hx Hl]; subst.
    destruct (args_sound _ Hl _ _ _ _ _ He Hd E) as (vs & -> & Hvs). eapply call_sound; [|exact K].
    unfold tc_final, with_final. destruct ft, final; try contradiction; [|exact Hvs]. apply Forall2_app; [exact Hvs|]. constructor; [exact Hf|constructor].
  Qed.
  Lemma cmds_sound cs : Forall (Forall arg_sound) cs -> forall g e dt dot ft final t, env_ok g e -> has_ty dt dot ->
    match ft, final with Some t, Some v => has_ty t v | None, None => True | _, _ => False end ->
    tc_cmds g dt cs ft = Some t -> exists v, eval_cmds O get e dot cs final = Some v /\ has_ty t v.
  Proof.
    induction 1 as [|c cs Hc Hcs IH]; intros g e dt dot ft final t He Hd Hf K; cbn [tc_cmds eval_cmds] in *.
    - subst. destruct final; [eauto|contradiction].
    - destruct (tc_cmd g dt c ft) as [t1|] eqn:E; [|discriminate]. destruct (cmd_sound _ Hc _ _ _ _ _ _ _ He Hd Hf E) as (v & -> & Hv).
      eapply IH; eauto. exact Hv.
  Qed.
  Lemma arg_sound_all a : arg_sound a.
  Proof.
    induction a using arg_ind2; intros g e dt dot t He Hd K.
    - cbn in *. injection K as <-. eauto.
    - cbn [tc_arg eval_arg] in *. eapply fields_sound; eauto.
    - cbn [tc_arg eval_arg] in *. unfold lookup. destruct (mget g x) as [t1|] eqn:E; [|discriminate]. destruct (He _ _ E) as (v & -> & Hv). eapply fields_sound; eauto.
    - cbn [tc_arg eval_arg] in *. eapply call_sound; eauto.
    - cbn [tc_arg eval_arg] in *. injection K as <-. cbn. eauto.
    - cbn [tc_arg eval_arg] in *. destruct n; injection K as <-; cbn; eauto.
    - rewrite tc_pipe_eq in K. change (exists v, eval_pipe O get e dot cmds = Some v /\ has_ty t v). rewrite eval_pipe_eq. eapply cmds_sound; eauto. exact I.
  Qed.
  Lemma pipe_sound cs g e dt dot t : env_ok g e -> has_ty dt dot -> tc_arg g dt (APipe cs) = Some t -> exists v, eval_cmds O get e dot cs None = Some v /\ has_ty t v.
  Proof. intros He Hd K. rewrite <- eval_pipe_eq. unfold eval_pipe. eapply arg_sound_all; eauto. Qed.
  Lemma print_sound t v : printable t = true -> has_ty t v -> exists s, print O v = Some s.
  Proof. destruct t; try discriminate; intros _ H; cbn in H.
    - destruct H as [x ->]. cbn. eauto.
    - destruct H as [[|] ->]; cbn; eauto.
    - destruct H as [x ->]. cbn. eauto.
    - subst. cbn. eauto.
  Qed.
  Lemma bind_ok p t v g e : env_ok g e -> has_ty t v -> env_ok (tc_bind p t g) (bind O p v e).
  Proof.
    intros He Hv. unfold tc_bind, bind. destruct (pl_decl p) as [x|]; [|exact He]. intros y t' K. cbn [mget] in *.
    destruct (str_eqb y x); [injection K as <-; eauto|]. now apply He.
  Qed.
  Definition node_sound (n : node) : Prop := forall g e dt dot, env_ok g e -> has_ty dt dot -> tc_node g dt n = true -> exists s, exec_node O get e dot n = Some s.
  Lemma nodes_sound l : Forall node_sound l -> forall g e dt dot, env_ok g e -> has_ty dt dot -> tc_nodes g dt l = true -> exists s, exec_nodes O get e dot l = Some s.
  Proof.
    induction 1 as [|x l Hx Hl IH]; intros g e dt dot He Hd K; cbn [tc_nodes exec_nodes] in *; [eauto|].
    apply andb_prop in K as [K1 K2]. destruct (Hx _ _ _ _ He Hd K1) as [s ->]. destruct (IH _ _ _ _ He Hd K2) as [s' ->]. eauto.
  Qed.
  Lemma each_sound p body g e t : Forall node_sound body -> env_ok g e -> tc_nodes (tc_bind p t g) t body = true -> forall l, Forall (has_ty t) l -> exists s, exec_each O get e p body l = Some s.
  Proof.
    intros Hb He K l. induction l as [|v l IH]; intro A; cbn [exec_each]; [eauto|]. inversion A as [|? ? H1 H2]; subst.
    destruct (nodes_sound _ Hb _ _ _ _ (bind_ok p _ _ _ _ He H1) H1 K) as [s ->]. destruct (IH H2) as [s' ->]. eauto.
  Qed.
  Lemma node_sound_all n : node_sound n.
  Proof.
    induction n using node_ind2; intros g e dt dot He Hd K.
    - cbn. eauto.
    - rewrite exec_action. cbn [tc_node] in K. destruct (tc_arg g dt (APipe c)) as [t|] eqn:E; [|discriminate].
      destruct (pipe_sound _ _ _ _ _ _ He Hd E) as (v & -> & Hv). eapply print_sound; eauto.
    - rewrite exec_if. cbn [tc_node] in K. destruct (tc_arg g dt (APipe c)) as [t|] eqn:E; [|discriminate]. rewrite !tc_list_fix in K. apply andb_prop in K as [K1 K2].
      destruct (pipe_sound _ _ _ _ _ _ He Hd E) as (v & -> & Hv). destruct (truth O v); eapply nodes_sound; eauto.
    - rewrite exec_range. cbn [tc_node] in K. destruct (tc_arg g dt (APipe (pl_cmds p))) as [t|] eqn:E; [|discriminate]. destruct t as [| | | |ne t|]; try discriminate.
      rewrite !tc_list_fix in K. apply andb_prop in K as [K1 K2].
      destruct (pipe_sound _ _ _ _ _ _ He Hd E) as (v & -> & l & -> & _ & A). destruct l as [|v l]; [eapply nodes_sound; eauto|].
      eapply each_sound; eauto.
    - rewrite exec_with. cbn [tc_node] in K. destruct (tc_arg g dt (APipe (pl_cmds p))) as [t|] eqn:E; [|discriminate]. rewrite !tc_list_fix in K. apply andb_prop in K as [K1 K2].
      destruct (pipe_sound _ _ _ _ _ _ He Hd E) as (v & -> & Hv). destruct (truth O v); (eapply nodes_sound; [eassumption|eapply bind_ok; eassumption| |eassumption]); assumption.
  Qed.
  Theorem tc_sound text c o : tc_template text c = true -> of_class c o -> exists s, apply_template O get text o = Some s.
  Proof.
    unfold tc_template, apply_template, execute. destruct (parse_template text) as [ns|]; [|discriminate]. intros K H.
    eapply nodes_sound; [|clear K| |exact K].
    - apply Forall_forall. intros n _. apply node_sound_all.
    - intros x t. cbn [mget]. destruct (str_eqb x []); [|discriminate]. intros [= <-]. cbn. eauto.
    - cbn. eauto.
  Qed.
End Typing.
