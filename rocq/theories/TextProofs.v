From Coq Require Import String Lia.
From Verif Require Import GoStr GoStrProofs GoMap Strs SvcTypes HttpTransport Handler Generator Template TemplateProofs Assets Render RenderProofs TextSpec TextFile.

Section Exec.
  Variable O : Type.
  Variable get : O -> str -> option (value O).
  Lemma exec_cons e dot n l a r : exec_node O get e dot n = Some a -> exec_nodes O get e dot l = Some (concat r) -> exec_nodes O get e dot (n :: l) = Some (concat (a :: r)).
  Proof. intros H1 H2. cbn [exec_nodes concat]. rewrite H1, H2. reflexivity. Qed.
  Lemma exec_act e dot c v s : eval_cmds O get e dot c None = Some v -> print O v = Some s -> exec_node O get e dot (NAction c) = Some s.
  Proof. intros H1 H2. rewrite exec_action, H1. exact H2. Qed.
  Lemma exec_act_get e dot x n o s : lookup O e x = Some (VObj o) -> get o n = Some (VStr s) -> exec_node O get e dot (NAction [[AVar x [n]]]) = Some s.
  Proof. intros H1 H2. rewrite exec_action. unfold eval_cmds, eval_cmd. cbn [eval_arg]. rewrite H1. cbn [fields_of field_of]. rewrite H2. reflexivity. Qed.
  Lemma exec_range_map A e dot p body (g : A -> value O) (l : list A) f : eval_cmds O get e dot (pl_cmds p) None = Some (VList (map g l)) ->
    (forall x, exec_nodes O get (bind O p (g x) e) (g x) body = Some (f x)) -> exec_node O get e dot (NRange p body []) = Some (each f l).
  Proof.
    intros H1 H2. rewrite exec_range, H1. assert (E : forall l, exec_each O get e p body (map g l) = Some (each f l)).
    { clear l H1. intro l. induction l as [|x l IH]; [reflexivity|]. cbn [map exec_each]. rewrite (H2 x), IH. reflexivity. }
    destruct l as [|x l]; [reflexivity|]. exact (E (x :: l)).
  Qed.
  Lemma exec_if_b e dot c yes no v b Y N : eval_cmds O get e dot c None = Some v -> truth O v = b -> exec_nodes O get e dot yes = Some Y -> exec_nodes O get e dot no = Some N ->
    exec_node O get e dot (NIf c yes no) = Some (if b then Y else N).
  Proof. intros H1 H2 H3 H4. rewrite exec_if, H1, H2. destruct b; assumption. Qed.
  Lemma exec_with_t e dot p yes v Y : eval_cmds O get e dot (pl_cmds p) None = Some v -> truth O v = true -> exec_nodes O get (bind O p v e) v yes = Some Y ->
    exec_node O get e dot (NWith p yes []) = Some Y.
  Proof. intros H1 H2 H3. rewrite exec_with, H1, H2. exact H3. Qed.
  Lemma exec_with_s e dot p yes s Y : eval_cmds O get e dot (pl_cmds p) None = Some (VStr s) -> exec_nodes O get (bind O p (VStr s) e) (VStr s) yes = Some Y ->
    exec_node O get e dot (NWith p yes []) = Some (if nonempty s then Y else []).
  Proof. intros H1 H3. rewrite exec_with, H1. destruct s; [reflexivity|]. exact H3. Qed.
  Lemma truth_list A (g : A -> value O) l : truth O (VList (map g l)) = nonempty l. Proof. destruct l; reflexivity. Qed.
  Notation ev e dot c := (eval_cmds O get e dot c None).
  Lemma cond_eq2 e dot args x a b : eval_args O get e dot args = Some [VStr x; VStr a; VStr b] -> ev e dot [AFun (T "eq") :: args] = Some (VBool (str_eqb x a || str_eqb x b)).
  Proof. intro H. unfold eval_cmds, eval_cmd. rewrite H. unfold with_final. change (call O (T "eq") [VStr x; VStr a; VStr b]) with (option_map (@VBool O) (eq_any O (VStr x) [VStr a; VStr b])). cbn [eq_any basic_eq]. destruct (str_eqb x a), (str_eqb x b); reflexivity. Qed.
  Lemma cond_eq e dot args x a : eval_args O get e dot args = Some [VStr x; VStr a] -> ev e dot [AFun (T "eq") :: args] = Some (VBool (str_eqb x a)).
  Proof. intro H. unfold eval_cmds, eval_cmd. rewrite H. unfold with_final. change (call O (T "eq") [VStr x; VStr a]) with (option_map (@VBool O) (eq_any O (VStr x) [VStr a])). cbn [eq_any basic_eq]. destruct (str_eqb x a); reflexivity. Qed.
  Lemma cond_ne e dot args x a : eval_args O get e dot args = Some [VStr x; VStr a] -> ev e dot [AFun (T "ne") :: args] = Some (VBool (negb (str_eqb x a))).
  Proof. intro H. unfold eval_cmds, eval_cmd. rewrite H. reflexivity. Qed.
  Lemma cond_and e dot args x a : eval_args O get e dot args = Some [VBool x; VBool a] -> ev e dot [AFun (T "and") :: args] = Some (VBool (x && a)).
  Proof. intro H. unfold eval_cmds, eval_cmd. rewrite H. destruct x; reflexivity. Qed.
  Lemma cond_or e dot args x a : eval_args O get e dot args = Some [VBool x; VBool a] -> ev e dot [AFun (T "or") :: args] = Some (VBool (x || a)).
  Proof. intro H. unfold eval_cmds, eval_cmd. rewrite H. destruct x; reflexivity. Qed.
  Lemma cond_not_or e dot a b x y : eval_arg O get e dot a = Some (VBool x) -> (forall f, a <> AFun f) -> eval_arg O get e dot b = Some (VBool y) ->
    ev e dot [[AFun (T "or"); APipe [[AFun (T "not"); a]]; b]] = Some (VBool (negb x || y)).
  Proof.
    intros H1 H2 H3. apply cond_or. cbn [eval_args]. rewrite H3. change (eval_arg O get e dot (APipe [[AFun (T "not"); a]])) with (eval_pipe O get e dot [[AFun (T "not"); a]]).
    rewrite eval_pipe_eq. unfold eval_cmds, eval_cmd. cbn [eval_args]. rewrite H1. destruct x; reflexivity.
  Qed.
  Lemma cond_not_list A (g : A -> value O) l e dot args : eval_args O get e dot args = Some [VList (map g l)] -> ev e dot [AFun (T "not") :: args] = Some (VBool (negb (nonempty l))).
  Proof. intro H. unfold eval_cmds, eval_cmd. rewrite H. destruct l; reflexivity. Qed.
  Lemma exec_first A (g : A -> value O) l e dot c x args body Y : ev e dot c = Some (VList (map g l)) -> eval_args O get e dot args = Some [VList (map g l); VNum 0] ->
    (forall b, truth O (g b) = true) -> (forall b, exec_nodes O get (bind O (mkPipe (Some x) [AFun (T "index") :: args]) (g b) e) (g b) body = Some (Y b)) ->
    exec_node O get e dot (NIf c [NWith (mkPipe (Some x) [AFun (T "index") :: args]) body []] []) = Some (match l with b :: _ => Y b | [] => [] end).
  Proof.
    intros H1 H2 H3 H4. rewrite exec_if, H1. destruct l as [|b l]; [reflexivity|]. change (truth O (VList (map g (b :: l)))) with true. cbn iota.
    cbn [exec_nodes]. rewrite exec_with. cbn [pl_cmds].
    assert (E : ev e dot [AFun (T "index") :: args] = Some (g b)) by (unfold eval_cmds, eval_cmd; rewrite H2; reflexivity).
    rewrite E, (H3 b), (H4 b). rewrite app_nil_r. reflexivity.
  Qed.
  Lemma truth_bool b : truth O (VBool b) = b. Proof. destruct b; reflexivity. Qed.
  Lemma truth_str s : truth O (VStr s) = nonempty s. Proof. destruct s; reflexivity. Qed.
End Exec.
Section Baron.
  Variable format_source : str -> option str.
  Notation get := (get format_source).
  Notation field_code := (field_code format_source).
  Notation oneof_code := (oneof_code format_source).
  Lemma get_field_code f : Render.get format_source (OField f) (T "GenQueryUnmarshaler") = Some (VStr (field_code f)).
  Proof. unfold Render.get, TextFile.field_code. cbn [str_eqb]. destruct (field_unmarshaler_made format_source f) as [s E]. rewrite E. reflexivity. Qed.
  Lemma get_oneof_code f : Render.get format_source (OOneof f) (T "GenQueryUnmarshaler") = Some (VStr (oneof_code f)).
  Proof. unfold Render.get, TextFile.oneof_code. destruct (oneof_unmarshaler_made format_source f) as [s E]. rewrite E. reflexivity. Qed.
  Definition baron_nodes : list node := match parse_template (T baron_text) with Some l => l | None => [] end.
  Lemma parses : parse_template (T baron_text) = Some baron_nodes. Proof. vm_compute. reflexivity. Qed.

  Definition n0 : node := Eval vm_compute in nth 0 baron_nodes (NText []).
  Definition n1 : node := Eval vm_compute in nth 1 baron_nodes (NText []).
  Definition n2 : node := Eval vm_compute in nth 2 baron_nodes (NText []).
  Definition n3 : node := Eval vm_compute in nth 3 baron_nodes (NText []).
  Definition n4 : node := Eval vm_compute in nth 4 baron_nodes (NText []).
  Definition n5 : node := Eval vm_compute in nth 5 baron_nodes (NText []).
  Definition n6 : node := Eval vm_compute in nth 6 baron_nodes (NText []).
  Definition n7 : node := Eval vm_compute in nth 7 baron_nodes (NText []).
  Definition n8 : node := Eval vm_compute in nth 8 baron_nodes (NText []).
  Definition n9 : node := Eval vm_compute in nth 9 baron_nodes (NText []).
  Definition n10 : node := Eval vm_compute in nth 10 baron_nodes (NText []).
  Definition n11 : node := Eval vm_compute in nth 11 baron_nodes (NText []).
  Definition n12 : node := Eval vm_compute in nth 12 baron_nodes (NText []).
  Definition n13 : node := Eval vm_compute in nth 13 baron_nodes (NText []).
  Definition n14 : node := Eval vm_compute in nth 14 baron_nodes (NText []).
  Definition n15 : node := Eval vm_compute in nth 15 baron_nodes (NText []).
  Definition n16 : node := Eval vm_compute in nth 16 baron_nodes (NText []).
  Definition n17 : node := Eval vm_compute in nth 17 baron_nodes (NText []).
  Definition n18 : node := Eval vm_compute in nth 18 baron_nodes (NText []).
  Definition n19 : node := Eval vm_compute in nth 19 baron_nodes (NText []).
  Definition n20 : node := Eval vm_compute in nth 20 baron_nodes (NText []).
  Definition n21 : node := Eval vm_compute in nth 21 baron_nodes (NText []).
  Definition n22 : node := Eval vm_compute in nth 22 baron_nodes (NText []).
  Definition n23 : node := Eval vm_compute in nth 23 baron_nodes (NText []).
  Definition n24 : node := Eval vm_compute in nth 24 baron_nodes (NText []).
  Definition n25 : node := Eval vm_compute in nth 25 baron_nodes (NText []).
  Definition n26 : node := Eval vm_compute in nth 26 baron_nodes (NText []).
  Definition n27 : node := Eval vm_compute in nth 27 baron_nodes (NText []).
  Definition n28 : node := Eval vm_compute in nth 28 baron_nodes (NText []).
  Definition n29 : node := Eval vm_compute in nth 29 baron_nodes (NText []).
  Definition n30 : node := Eval vm_compute in nth 30 baron_nodes (NText []).
  Definition n31 : node := Eval vm_compute in nth 31 baron_nodes (NText []).
  Definition n32 : node := Eval vm_compute in nth 32 baron_nodes (NText []).
  Definition n33 : node := Eval vm_compute in nth 33 baron_nodes (NText []).
  Definition n34 : node := Eval vm_compute in nth 34 baron_nodes (NText []).
  Definition n35 : node := Eval vm_compute in nth 35 baron_nodes (NText []).
  Definition n36 : node := Eval vm_compute in nth 36 baron_nodes (NText []).
  Definition n37 : node := Eval vm_compute in nth 37 baron_nodes (NText []).
  Definition n38 : node := Eval vm_compute in nth 38 baron_nodes (NText []).
  Definition n39 : node := Eval vm_compute in nth 39 baron_nodes (NText []).
  Definition n40 : node := Eval vm_compute in nth 40 baron_nodes (NText []).
  Definition n41 : node := Eval vm_compute in nth 41 baron_nodes (NText []).
  Definition n42 : node := Eval vm_compute in nth 42 baron_nodes (NText []).
  Definition n43 : node := Eval vm_compute in nth 43 baron_nodes (NText []).
  Definition n44 : node := Eval vm_compute in nth 44 baron_nodes (NText []).
  Definition n45 : node := Eval vm_compute in nth 45 baron_nodes (NText []).
  Definition n46 : node := Eval vm_compute in nth 46 baron_nodes (NText []).
  Definition n47 : node := Eval vm_compute in nth 47 baron_nodes (NText []).
  Definition n48 : node := Eval vm_compute in nth 48 baron_nodes (NText []).
  Definition n49 : node := Eval vm_compute in nth 49 baron_nodes (NText []).
  Definition n50 : node := Eval vm_compute in nth 50 baron_nodes (NText []).
  Definition n51 : node := Eval vm_compute in nth 51 baron_nodes (NText []).
  Lemma nodes_eq : baron_nodes = [n0; n1; n2; n3; n4; n5; n6; n7; n8; n9; n10; n11; n12; n13; n14; n15; n16; n17; n18; n19; n20; n21; n22; n23; n24; n25; n26; n27; n28; n29; n30; n31; n32; n33; n34; n35; n36; n37; n38; n39; n40; n41; n42; n43; n44; n45; n46; n47; n48; n49; n50; n51]. Proof. vm_compute. reflexivity. Qed.
  Notation ex d := (exec_node obj get [([], VObj (OData d))] (VObj (OData d))).
  Ltac cond := lazymatch goal with
    | |- _ = Some (VBool (with_grpc _)) => apply cond_eq2; reflexivity
    | |- _ = Some (VBool (with_nats _)) => apply cond_eq2; reflexivity
    | |- _ = Some (VBool (str_eqb _ _)) => apply cond_eq; reflexivity
    | |- _ = Some (VBool (negb (str_eqb _ _))) => apply cond_ne; reflexivity
    | |- _ = Some (VBool (negb (nonempty _))) => eapply cond_not_list; reflexivity
    | |- _ = Some (VBool (_ && _)) => apply cond_and; reflexivity
    | |- _ = Some (VBool (negb _ || _)) => apply cond_not_or; [reflexivity|discriminate|reflexivity]
    | |- _ = Some (VBool (nonempty _)) => fail
    | |- _ => reflexivity
    end.
  Ltac steps :=
    lazymatch goal with
    | |- exec_nodes _ _ _ _ [] = Some _ => reflexivity
    | |- exec_nodes _ _ _ _ (_ :: _) = Some _ => apply exec_cons; [node|steps]
    end
  with node :=
    lazymatch goal with
    | |- exec_node _ _ _ _ (NText _) = _ => vm_compute; reflexivity
    | |- exec_node _ _ _ _ (NAction _) = Some (TextFile.field_code _ _) => eapply exec_act_get; [reflexivity|apply get_field_code]
    | |- exec_node _ _ _ _ (NAction _) = Some (TextFile.oneof_code _ _) => eapply exec_act_get; [reflexivity|apply get_oneof_code]
    | |- exec_node _ _ _ _ (NAction _) = _ => eapply exec_act; [reflexivity|reflexivity]
    | |- exec_node _ _ _ _ (NRange _ _ _) = Some (each ?f ?l) => eapply (exec_range_map _ _ _ _ _ _ _ _ l f); [reflexivity|intro; steps]
    | |- exec_node _ _ _ _ (NIf _ _ _) = Some (if ?b then _ else _) =>
        first [apply (exec_if_b _ _ _ _ _ _ _ (VBool b)); [cond|apply truth_bool|steps|steps] | eapply exec_if_b; [reflexivity|first [apply truth_list|apply truth_str]|steps|steps]]
    | |- exec_node _ _ _ _ (NIf _ _ _) = Some (match hm_binds ?m with [] => _ | _ => _ end) =>
        apply (exec_first _ _ _ (fun b => VObj (OBind m b)) (hm_binds m)); [reflexivity|reflexivity|reflexivity|intro; steps]
    | |- exec_node _ _ _ _ (NWith _ _ _) = Some (if nonempty _ then _ else _) => apply exec_with_s; [reflexivity|steps]
    | |- exec_node _ _ _ _ (NWith _ _ _) = Some _ => eapply exec_with_t; [reflexivity|reflexivity|steps]
    end.
  Lemma e0 d : ex d n0 = Some (p0 format_source d).
  Proof. unfold n0, p0. node. Qed.
  Lemma e1 d : ex d n1 = Some (p1 format_source d).
  Proof. unfold n1, p1. node. Qed.
  Lemma e2 d : ex d n2 = Some (p2 format_source d).
  Proof. unfold n2, p2. node. Qed.
  Lemma e3 d : ex d n3 = Some (p3 format_source d).
  Proof. unfold n3, p3. node. Qed.
  Lemma e4 d : ex d n4 = Some (p4 format_source d).
  Proof. unfold n4, p4. node. Qed.
  Lemma e5 d : ex d n5 = Some (p5 format_source d).
  Proof. unfold n5, p5. node. Qed.
  Lemma e6 d : ex d n6 = Some (p6 format_source d).
  Proof. unfold n6, p6. node. Qed.
  Lemma e7 d : ex d n7 = Some (p7 format_source d).
  Proof. unfold n7, p7. node. Qed.
  Lemma e8 d : ex d n8 = Some (p8 format_source d).
  Proof. unfold n8, p8. node. Qed.
  Lemma e9 d : ex d n9 = Some (p9 format_source d).
  Proof. unfold n9, p9. node. Qed.
  Lemma e10 d : ex d n10 = Some (p10 format_source d).
  Proof. unfold n10, p10. node. Qed.
  Lemma e11 d : ex d n11 = Some (p11 format_source d).
  Proof. unfold n11, p11. node. Qed.
  Lemma e12 d : ex d n12 = Some (p12 format_source d).
  Proof. unfold n12, p12. node. Qed.
  Lemma e13 d : ex d n13 = Some (p13 format_source d).
  Proof. unfold n13, p13. node. Qed.
  Lemma e14 d : ex d n14 = Some (p14 format_source d).
  Proof. unfold n14, p14. node. Qed.
  Lemma e15 d : ex d n15 = Some (p15 format_source d).
  Proof. unfold n15, p15. node. Qed.
  Lemma e16 d : ex d n16 = Some (p16 format_source d).
  Proof. unfold n16, p16. node. Qed.
  Lemma e17 d : ex d n17 = Some (p17 format_source d).
  Proof. unfold n17, p17. node. Qed.
  Lemma e18 d : ex d n18 = Some (p18 format_source d).
  Proof. unfold n18, p18. node. Qed.
  Lemma e19 d : ex d n19 = Some (p19 format_source d).
  Proof. unfold n19, p19. node. Qed.
  Lemma e20 d : ex d n20 = Some (p20 format_source d).
  Proof. unfold n20, p20. node. Qed.
  Lemma e21 d : ex d n21 = Some (p21 format_source d).
  Proof. unfold n21, p21. node. Qed.
  Lemma e22 d : ex d n22 = Some (p22 format_source d).
  Proof. unfold n22, p22. node. Qed.
  Lemma e23 d : ex d n23 = Some (p23 format_source d).
  Proof. unfold n23, p23. node. Qed.
  Lemma e24 d : ex d n24 = Some (p24 format_source d).
  Proof. unfold n24, p24. node. Qed.
  Lemma e25 d : ex d n25 = Some (p25 format_source d).
  Proof. unfold n25, p25. node. Qed.
  Lemma e26 d : ex d n26 = Some (p26 format_source d).
  Proof. unfold n26, p26. node. Qed.
  Lemma e27 d : ex d n27 = Some (p27 format_source d).
  Proof. unfold n27, p27. node. Qed.
  Lemma e28 d : ex d n28 = Some (p28 format_source d).
  Proof. unfold n28, p28. node. Qed.
  Lemma e29 d : ex d n29 = Some (p29 format_source d).
  Proof. unfold n29, p29. node. Qed.
  Lemma e30 d : ex d n30 = Some (p30 format_source d).
  Proof. unfold n30, p30. node. Qed.
  Lemma e31 d : ex d n31 = Some (p31 format_source d).
  Proof. unfold n31, p31. node. Qed.
  Lemma e32 d : ex d n32 = Some (p32 format_source d).
  Proof. unfold n32, p32. node. Qed.
  Lemma e33 d : ex d n33 = Some (p33 format_source d).
  Proof. unfold n33, p33. node. Qed.
  Lemma e34 d : ex d n34 = Some (p34 format_source d).
  Proof. unfold n34, p34. node. Qed.
  Lemma e35 d : ex d n35 = Some (p35 format_source d).
  Proof. unfold n35, p35. node. Qed.
  Lemma e36 d : ex d n36 = Some (p36 format_source d).
  Proof. unfold n36, p36. node. Qed.
  Lemma e37 d : ex d n37 = Some (p37 format_source d).
  Proof. unfold n37, p37. node. Qed.
  Lemma e38 d : ex d n38 = Some (p38 format_source d).
  Proof. unfold n38, p38. node. Qed.
  Lemma e39 d : ex d n39 = Some (p39 format_source d).
  Proof. unfold n39, p39. node. Qed.
  Lemma e40 d : ex d n40 = Some (p40 format_source d).
  Proof. unfold n40, p40. node. Qed.
  Lemma e41 d : ex d n41 = Some (p41 format_source d).
  Proof. unfold n41, p41. node. Qed.
  Lemma e42 d : ex d n42 = Some (p42 format_source d).
  Proof. unfold n42, p42. node. Qed.
  Lemma e43 d : ex d n43 = Some (p43 format_source d).
  Proof. unfold n43, p43. node. Qed.
  Lemma e44 d : ex d n44 = Some (p44 format_source d).
  Proof. unfold n44, p44. node. Qed.
  Lemma e45 d : ex d n45 = Some (p45 format_source d).
  Proof. unfold n45, p45. node. Qed.
  Lemma e46 d : ex d n46 = Some (p46 format_source d).
  Proof. unfold n46, p46. node. Qed.
  Lemma e47 d : ex d n47 = Some (p47 format_source d).
  Proof. unfold n47, p47. node. Qed.
  Lemma e48 d : ex d n48 = Some (p48 format_source d).
  Proof. unfold n48, p48. node. Qed.
  Lemma e49 d : ex d n49 = Some (p49 format_source d).
  Proof. unfold n49, p49. node. Qed.
  Lemma e50 d : ex d n50 = Some (p50 format_source d).
  Proof. unfold n50, p50. node. Qed.
  Lemma e51 d : ex d n51 = Some (p51 format_source d).
  Proof. unfold n51, p51. node. Qed.
End Baron.

Lemma baron_is format_source d : render_asset format_source BaronPath d = Some (concat (baron_pieces format_source d)).
Proof.
  unfold render_asset. change (asset_string BaronPath) with (Some (T baron_text)). unfold apply_template. rewrite parses. unfold execute. rewrite nodes_eq. unfold baron_pieces.
  apply exec_cons; [exact (e0 format_source d)|].
  apply exec_cons; [exact (e1 format_source d)|].
  apply exec_cons; [exact (e2 format_source d)|].
  apply exec_cons; [exact (e3 format_source d)|].
  apply exec_cons; [exact (e4 format_source d)|].
  apply exec_cons; [exact (e5 format_source d)|].
  apply exec_cons; [exact (e6 format_source d)|].
  apply exec_cons; [exact (e7 format_source d)|].
  apply exec_cons; [exact (e8 format_source d)|].
  apply exec_cons; [exact (e9 format_source d)|].
  apply exec_cons; [exact (e10 format_source d)|].
  apply exec_cons; [exact (e11 format_source d)|].
  apply exec_cons; [exact (e12 format_source d)|].
  apply exec_cons; [exact (e13 format_source d)|].
  apply exec_cons; [exact (e14 format_source d)|].
  apply exec_cons; [exact (e15 format_source d)|].
  apply exec_cons; [exact (e16 format_source d)|].
  apply exec_cons; [exact (e17 format_source d)|].
  apply exec_cons; [exact (e18 format_source d)|].
  apply exec_cons; [exact (e19 format_source d)|].
  apply exec_cons; [exact (e20 format_source d)|].
  apply exec_cons; [exact (e21 format_source d)|].
  apply exec_cons; [exact (e22 format_source d)|].
  apply exec_cons; [exact (e23 format_source d)|].
  apply exec_cons; [exact (e24 format_source d)|].
  apply exec_cons; [exact (e25 format_source d)|].
  apply exec_cons; [exact (e26 format_source d)|].
  apply exec_cons; [exact (e27 format_source d)|].
  apply exec_cons; [exact (e28 format_source d)|].
  apply exec_cons; [exact (e29 format_source d)|].
  apply exec_cons; [exact (e30 format_source d)|].
  apply exec_cons; [exact (e31 format_source d)|].
  apply exec_cons; [exact (e32 format_source d)|].
  apply exec_cons; [exact (e33 format_source d)|].
  apply exec_cons; [exact (e34 format_source d)|].
  apply exec_cons; [exact (e35 format_source d)|].
  apply exec_cons; [exact (e36 format_source d)|].
  apply exec_cons; [exact (e37 format_source d)|].
  apply exec_cons; [exact (e38 format_source d)|].
  apply exec_cons; [exact (e39 format_source d)|].
  apply exec_cons; [exact (e40 format_source d)|].
  apply exec_cons; [exact (e41 format_source d)|].
  apply exec_cons; [exact (e42 format_source d)|].
  apply exec_cons; [exact (e43 format_source d)|].
  apply exec_cons; [exact (e44 format_source d)|].
  apply exec_cons; [exact (e45 format_source d)|].
  apply exec_cons; [exact (e46 format_source d)|].
  apply exec_cons; [exact (e47 format_source d)|].
  apply exec_cons; [exact (e48 format_source d)|].
  apply exec_cons; [exact (e49 format_source d)|].
  apply exec_cons; [exact (e50 format_source d)|].
  apply exec_cons; [exact (e51 format_source d)|].
  reflexivity.
Qed.

(** ** Parts of a text *)
Lemma holds_refl s : holds s s. Proof. exists [], []. now rewrite app_nil_r. Qed.
Lemma holds_trans s t x : holds s t -> holds t x -> holds s x.
Proof. intros (a & b & ->) (c & e & ->). exists (a ++ c), (e ++ b). rewrite !app_assoc. reflexivity. Qed.
Lemma holds_each A (f : A -> str) l x : In x l -> holds (each f l) (f x).
Proof. intro H. apply in_split in H. destruct H as (a & b & ->). unfold each. rewrite map_app, concat_app. exists (concat (map f a)), (concat (map f b)). reflexivity. Qed.
Lemma holds_concat l x : In x l -> holds (concat l) x.
Proof. intro H. apply in_split in H. destruct H as (a & b & ->). rewrite concat_app. exists (concat a), (concat b). reflexivity. Qed.
Definition ends (p h : str) : bool := str_eqb (skipn (length p - length h) p) h.
Definition starts (q t : str) : bool := str_eqb (firstn (length t) q) t.
Lemma slice L pre p mid q post h t : L = pre ++ p :: mid ++ q :: post -> ends p h = true -> starts q t = true -> holds (concat L) (concat (h :: mid ++ [t])).
Proof.
  intros -> H1 H2. apply str_eqb_eq in H1. apply str_eqb_eq in H2.
  rewrite <- (firstn_skipn (length p - length h) p), H1. rewrite <- (firstn_skipn (length t) q), H2.
  exists (concat pre ++ firstn (length p - length h) p), (skipn (length t) q ++ concat post).
  rewrite concat_app. cbn [concat]. rewrite !concat_app. cbn [concat]. rewrite app_nil_r, !app_assoc. reflexivity.
Qed.
Lemma nth_split_at i (L : list str) : i < length L -> L = firstn i L ++ nth i L [] :: skipn (S i) L.
Proof.
  revert L. induction i as [|i IH]; intros [|x L] H; cbn [length] in H; try lia; [reflexivity|]. cbn [firstn nth app]. change (skipn (S (S i)) (x :: L)) with (skipn (S i) L). f_equal. apply IH. lia.
Qed.
Lemma nth_skipn j i : forall (L : list str), nth j (skipn i L) [] = nth (i + j) L [].
Proof. induction i as [|i IH]; intros [|x L]; try reflexivity; [destruct j; reflexivity|]. apply IH. Qed.
Lemma slice_at i k L h t : ends (nth i L []) h = true -> starts (nth (S i + k) L []) t = true -> Nat.ltb (S i + k) (length L) = true ->
  holds (concat L) (concat (h :: firstn k (skipn (S i) L) ++ [t])).
Proof.
  intros H1 H2 E. apply Nat.ltb_lt in E. apply (slice L (firstn i L) (nth i L []) (firstn k (skipn (S i) L)) (nth (S i + k) L []) (skipn (S k) (skipn (S i) L)) h t); [|exact H1|exact H2].
  assert (A : i < length L) by lia. assert (B : k < length (skipn (S i) L)) by (rewrite skipn_length; lia).
  pose proof (nth_split_at k (skipn (S i) L) B) as F. rewrite nth_skipn in F. pose proof (nth_split_at i L A) as G. exact (eq_trans G (f_equal (fun z => firstn i L ++ nth i L [] :: z) F)).
Qed.
Lemma each_ext A (f g : A -> str) l : (forall x, f x = g x) -> each f l = each g l.
Proof. intro H. unfold each. now rewrite (map_ext f g H). Qed.
Lemma each_map A B (h : A -> B) (f : B -> str) l : each f (map h l) = each (fun x => f (h x)) l.
Proof. unfold each. now rewrite map_map. Qed.
Lemma nonempty_map A B (h : A -> B) l : nonempty (map h l) = nonempty l. Proof. destruct l; reflexivity. Qed.
Lemma each_filter A (p : A -> bool) (f g : A -> str) l : (forall x, p x = true -> g x = f x) -> each (fun x => concat [if p x then g x else []]) l = each f (filter p l).
Proof.
  intro H. unfold each. induction l as [|x l IH]; [reflexivity|]. cbn [map concat filter]. unfold each in IH. rewrite app_nil_r. destruct (p x) eqn:E; cbn [map concat app].
  - rewrite <- IH, (H x E). reflexivity.
  - rewrite <- IH. reflexivity.
Qed.
