(** All of baron's templates pass the checker of TemplateProofs. *)
From Coq Require Import Lia.
From Verif Require Import GoStr GoStrProofs GoMap SvcTypes HttpTransport Handler Generator Template TemplateProofs Assets Cmdline Render.

(** ** The templates in httptransport that make the conversion of a field *)
Definition shape_sig (c : unit) (n : str) : option (ty unit) :=
  if str_eqb n (T "LocalName") then Some TyStr else if str_eqb n (T "GoType") then Some TyStr else if str_eqb n (T "StarExpr") then Some TyBool
  else if str_eqb n (T "IsBaseType") then Some TyBool else if str_eqb n (T "Repeated") then Some TyBool else None.
Lemma shape_sound : forall (c : unit) o n t, True -> shape_sig c n = Some t -> exists v, get_shape o n = Some v /\ has_ty hfield unit (fun _ _ => True) t v.
Proof.
  intros c o n t _. unfold shape_sig, get_shape.
  repeat match goal with |- context[str_eqb n ?x] => destruct (str_eqb n x); [intros [= <-]; cbn; eauto|] end. discriminate.
Qed.
Definition ok_shape (t : str) : bool := tc_template unit shape_sig t tt.
Lemma shape_applies t f : ok_shape t = true -> exists s, apply_template hfield get_shape t f = Some s.
Proof. intro H. exact (tc_sound hfield unit get_shape shape_sig (fun _ _ => True) shape_sound t tt f H I). Qed.
Lemma single_ok : ok_shape (single_tmpl ++ error_tmpl) = true. Proof. vm_compute. reflexivity. Qed.
Definition converted (g : str) : str := if existsb (str_eqb g) [T "uint32"; T "int32"; T "float32"] then g ++ T "(converted)" else T "converted".
Lemma repeated_ok g : ok_shape (repeated_tmpl (scalar_stmt (scalar_table g) (T "converted") (T "v")) (converted g)) = true /\
  ok_shape (repeated_tmpl (scalar_stmt (scalar_table g) (T "converted") (T "v")) (converted g) ++ error_tmpl) = true.
Proof.
  unfold scalar_table, converted. cbn [existsb].
  repeat match goal with |- context[str_eqb g ?x] => let E := fresh "E" in destruct (str_eqb g x) eqn:E; [apply str_eqb_eq in E; subst g; vm_compute; split; reflexivity|] end.
  cbn [orb]. vm_compute. split; reflexivity.
Qed.
Theorem convert_func_made f : exists s, convert_func f = Some s.
Proof.
  unfold convert_func. destruct (hf_enum f && negb (hf_rep f)); [eauto|]. destruct (negb (hf_base f) || hf_rep f); [|eauto]. apply shape_applies.
  destruct (negb (hf_rep f)); [apply single_ok|]. destruct (repeated_ok (hf_gotype f)) as [A B]. unfold converted in A, B.
  destruct (negb (str_eqb (hf_gotype f) (T "string"))); [exact B|exact A].
Qed.

(** ** The others *)
Inductive cls := CData | CConfig | CService | CMethod | CType | CHelper | CHMeth | CBind | CField | COneof | CHandler.
Definition of_class (c : cls) (o : obj) : Prop :=
  match c, o with
  | CData, OData d => Forall (fun m => hm_binds m <> []) (td_helper d)
  | CHelper, OHelper l => Forall (fun m => hm_binds m <> []) l
  | CHMeth, OHMeth m | CBind, OBind m _ => hm_binds m <> []
  | CConfig, OConfig _ | CService, OService _ | CMethod, OMethod _ | CType, OType _ | CField, OField _ | COneof, OOneof _ | CHandler, OHandler _ _ => True
  | _, _ => False
  end.
Definition strs (l : list string) (n : str) : bool := existsb (fun x => str_eqb n (T x)) l.
Definition sig_plain (c : cls) (n : str) : option (ty cls) :=
  match c with
  | CData => if strs ["ImportPath"; "PBImportPath"; "PackageName"; "Version"; "VersionDate"]%string n then Some TyStr
             else if str_eqb n (T "Service") then Some (TyObj CService) else if str_eqb n (T "HTTPHelper") then Some (TyObj CHelper)
             else if str_eqb n (T "Config") then Some (TyObj CConfig) else None
  | CConfig => if str_eqb n (T "Transport") then Some TyStr else None
  | CService => if str_eqb n (T "Name") then Some TyStr else if str_eqb n (T "Methods") then Some (TyList false (TyObj CMethod)) else None
  | CMethod => if str_eqb n (T "Name") then Some TyStr else if str_eqb n (T "RequestType") then Some (TyObj CType) else if str_eqb n (T "ResponseType") then Some (TyObj CType) else None
  | CType => if str_eqb n (T "Name") then Some TyStr else None
  | CHelper => if str_eqb n (T "Methods") then Some (TyList false (TyObj CHMeth)) else None
  | CHMeth => if strs ["Name"; "RequestType"; "ResponseType"]%string n then Some TyStr else if str_eqb n (T "Bindings") then Some (TyList true (TyObj CBind)) else None
  | CBind => if strs ["Label"; "PathTemplate"; "BasePath"; "Verb"]%string n then Some TyStr
             else if str_eqb n (T "Fields") then Some (TyList false (TyObj CField)) else if str_eqb n (T "OneofFields") then Some (TyList false (TyObj COneof))
             else if str_eqb n (T "Parent") then Some (TyObj CHMeth) else if str_eqb n (T "PathSections") then Some (TyList false TyStr) else None
  | CField => if strs ["Name"; "QueryParamName"; "CamelName"; "LowCamelName"; "LocalName"; "Location"; "GoType"; "ConvertFunc"; "TypeConversion"; "ZeroValue"]%string n then Some TyStr
              else if strs ["StarExpr"; "ConvertFuncNeedsErrorCheck"; "IsBaseType"; "IsEnum"; "Repeated"]%string n then Some TyBool else None
  | COneof => if strs ["Name"; "Location"]%string n then Some TyStr else if str_eqb n (T "Options") then Some (TyList false (TyObj CField)) else None
  | CHandler => if str_eqb n (T "ServiceName") then Some TyStr else if str_eqb n (T "Methods") then Some (TyList false (TyObj CMethod)) else None
  end.
Notation oty := (has_ty obj cls of_class).
Lemma list_ty A (P : A -> value obj) ne t (l : list A) : (ne = true -> l <> []) -> (forall x, In x l -> oty t (P x)) -> oty (TyList ne t) (VList (map P l)).
Proof.
  intros H K. cbn. eexists. split; [reflexivity|]. split.
  - intro Hn. specialize (H Hn). now destruct l.
  - apply Forall_forall. intros v Hv. apply in_map_iff in Hv as (x & <- & Hx). now apply K.
Qed.
Ltac nm := match goal with n : str |- _ => repeat match goal with |- context[str_eqb n ?x] => let E := fresh "E" in destruct (str_eqb n x) eqn:E; [apply str_eqb_eq in E; subst n|] end end.
Lemma plain_sound : forall c o n t, of_class c o -> sig_plain c n = Some t -> exists v, get_plain o n = Some v /\ oty t v.
Proof.
  intros c o n t H. unfold sig_plain, strs. cbn [existsb].
  destruct c, o; cbn [of_class] in H; try contradiction; nm; cbn [orb]; try discriminate; intros [= <-];
    try (eexists; split; [reflexivity|cbn; eauto; fail]);
    try (eexists; split; [reflexivity|]; apply list_ty; [first [discriminate | intros _; exact H]|]; intros x Hx; cbn; first [eexists; reflexivity | eexists; split; [reflexivity|]; exact I |
      eexists; split; [reflexivity|]; first [exact H | exact (proj1 (Forall_forall _ _) H x Hx)]]).
  1,2: eexists; split; [reflexivity|]; eexists; split; [reflexivity|exact I].
  (* ConvertFunc *)
  destruct (convert_func_made f) as [s Es]. exists (VStr s). split; [|cbn; eauto]. cbn [get_plain]. unfold get_field.
  change (str_eqb (T "ConvertFunc") (T "Name")) with false. cbn. rewrite Es. reflexivity.
Qed.
Definition ok_plain (t : str) (c : cls) : bool := tc_template cls sig_plain t c.
Lemma plain_applies t c o : ok_plain t c = true -> of_class c o -> exists s, apply_template obj get_plain t o = Some s.
Proof. exact (tc_sound obj cls get_plain sig_plain of_class plain_sound t c o). Qed.

Section Render.
  Variable format_source : str -> option str.
  Notation get := (get format_source).
  Lemma path_ok : ok_plain (path_logic ++ generic_logic) CField = true. Proof. vm_compute. reflexivity. Qed.
  Lemma query_ok : ok_plain (query_logic ++ generic_logic ++ T "}") CField = true. Proof. vm_compute. reflexivity. Qed.
  Lemma oneof_ok : ok_plain oneof_tmpl COneof = true. Proof. vm_compute. reflexivity. Qed.
  Theorem field_unmarshaler_made f : exists s, field_unmarshaler format_source f = Some s.
  Proof.
    unfold field_unmarshaler. destruct (str_eqb (hf_loc f) (T "path")).
    - destruct (plain_applies _ _ (OField f) path_ok I) as [s ->]. cbn. eauto.
    - destruct (plain_applies _ _ (OField f) query_ok I) as [s ->]. cbn. eauto.
  Qed.
  Theorem oneof_unmarshaler_made o : exists s, oneof_unmarshaler format_source o = Some s.
  Proof. unfold oneof_unmarshaler. destruct (plain_applies _ _ (OOneof o) oneof_ok I) as [s ->]. cbn. eauto. Qed.
  Definition sig (c : cls) (n : str) : option (ty cls) :=
    match c with CField | COneof => if str_eqb n (T "GenQueryUnmarshaler") then Some TyStr else sig_plain c n | _ => sig_plain c n end.
  Lemma get_sound : forall c o n t, of_class c o -> sig c n = Some t -> exists v, get o n = Some v /\ oty t v.
  Proof.
    intros c o n t H. unfold sig, Render.get. pose proof (plain_sound c o n t H) as K.
    destruct c, o; cbn [of_class] in H; try contradiction; try exact K; destruct (str_eqb n (T "GenQueryUnmarshaler")); try exact K; intros [= <-].
    - destruct (field_unmarshaler_made f) as [s ->]. cbn. eauto.
    - destruct (oneof_unmarshaler_made o) as [s ->]. cbn. eauto.
  Qed.
  Definition ok (t : str) (c : cls) : bool := tc_template cls sig t c.
  Lemma applies t c o : ok t c = true -> of_class c o -> exists s, apply_template obj get t o = Some s.
  Proof. exact (tc_sound obj cls get sig of_class get_sound t c o). Qed.
  Lemma assets_ok : forallb (fun x => match asset_string x with Some t => if str_eqb x ServiceMethodsPath then ok t CHandler else ok t CData | None => false end) assets = true.
  Proof. vm_compute. reflexivity. Qed.
  Lemma renders x d : In x assets -> x <> ServiceMethodsPath -> Forall (fun m => hm_binds m <> []) (td_helper d) -> exists s, render_asset format_source x d = Some s.
  Proof.
    intros Hx Hn Hd. pose proof (proj1 (forallb_forall _ _) assets_ok x Hx) as K. cbn beta in K. unfold render_asset. destruct (asset_string x) as [t|]; [|discriminate].
    assert (E : str_eqb x ServiceMethodsPath = false) by (destruct (str_eqb x ServiceMethodsPath) eqn:E; [apply str_eqb_eq in E; contradiction|reflexivity]).
    rewrite E in K. exact (applies t CData (OData d) K Hd).
  Qed.
  Lemma methods_ok : ok (T service_methods_text) CHandler = true. Proof. vm_compute. reflexivity. Qed.
  Lemma methods_render svc ms : exists s, render_methods format_source svc ms = Some s.
  Proof. exact (applies _ CHandler (OHandler svc ms) methods_ok I). Qed.
End Render.
Lemma new_bindings_length ms m is : forall bs, new_bindings ms m is = Ret bs -> length bs = length is.
Proof.
  induction is as [|i is IH]; intros bs; cbn [new_bindings]; [intros [= <-]; reflexivity|].
  destruct (new_binding ms i m); try discriminate. destruct (new_bindings ms m is); try discriminate. intros [= <-]. cbn. now rewrite IH.
Qed.
Lemma helper_binds ms svc : forall hs, new_helper ms svc = Ret hs -> Forall (fun m => hm_binds m <> []) hs.
Proof.
  induction svc as [|m svc IH]; intros hs; cbn [new_helper]; [intros [= <-]; constructor|].
  destruct (sm_bindings m) as [|b bs] eqn:E; [apply IH|]. unfold new_method. destruct (new_bindings ms m (seq 0 (length (sm_bindings m)))) as [l| |] eqn:El; try discriminate.
  destruct (new_helper ms svc) as [hs'| |]; try discriminate. intros [= <-]. apply Forall_cons; [|now apply IH]. cbn [hm_binds].
  apply new_bindings_length in El. rewrite E in El. intros ->. discriminate.
Qed.
