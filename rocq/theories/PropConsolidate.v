(** Property theorems C17-C22: HTTP consolidation (svcdef/consolidate_http.go). *)
From Coq Require Import Permutation.
From Verif Require Import GoStr GoStrProofs Scanner ScannerSpec Lexer LexerSpec LexRun PropLexer Unquote Parser Strs SvcTypes
  Consolidate ConsolidateSpec ConsolidateProofs.

(** C17: after consolidation every binding has exactly one entry per field of the request message, in
    field order, each in path, body or query - whatever the proto files are, in whatever order. *)
Theorem c17_one_place : forall U g sd files sd', all_placed sd -> consolidate U g sd files = Ret (COk sd') ->
  all_placed sd'.
Proof. intros U g sd files sd' H E. eapply consolidate_placed; eassumption. Qed.
Print Assumptions c17_one_place.

(** C18: where a field travels under a parsed binding. *)
Theorem c18_location : forall b name loc, param_location name b = loc <-> located b name loc.
Proof.
  intros b name loc. split; [intros <-; apply location_located|]. intro H.
  exact (located_fun b name _ _ (location_located b name) H).
Qed.
Print Assumptions c18_location.

(** C19: verb and path. *)
Theorem c19_verb_and_path : forall b v p, get_verb b = (v, p) <-> verb_and_path b v p.
Proof. exact get_verb_iff. Qed.
Print Assumptions c19_verb_and_path.

(** C20: the braced parts of a template, for every text ... *)
Theorem c20_path_params : forall b v p ps, get_verb b = (v, p) -> (get_path_params b = ps <-> braced p ps).
Proof. intros b v p ps E. unfold get_path_params. rewrite E. cbn [snd]. apply braced_iff. Qed.
Print Assumptions c20_path_params.
(** ... and for a template written as text and {name} parts. *)
Theorem c20_template : forall b v xs, get_verb b = (v, flat_map write_seg xs) -> Forall seg_ok xs ->
  get_path_params b = seg_names xs.
Proof. intros b v xs E H. apply (proj2 (c20_path_params b v _ _ E)). apply braced_template. exact H. Qed.
Print Assumptions c20_template.

(** C21: assembling succeeds iff every parsed method has a Go method (with a known request message, if
    there is a binding); then each Go method keeps its name and types and gets, after the bindings it
    had, exactly what the parsed bindings for it say. *)
Theorem c21_assemble : forall sd sv hs, sd_service sd = Some sv -> NoDup (map sm_name (sv_methods sv)) ->
  ((exists sd', assemble_http_params sd hs = COk sd') <-> Forall (has_home (sv_methods sv)) (hs_methods hs))
  /\ forall sd', assemble_http_params sd hs = COk sd' ->
     sd_pkg sd' = sd_pkg sd /\ sd_messages sd' = sd_messages sd /\ sd_enums sd' = sd_enums sd
     /\ exists sv', sd_service sd' = Some sv' /\ sv_name sv' = sv_name sv
        /\ Forall2 (fun m m' => same_but_bindings m m' /\ exists new, sm_bindings m' = sm_bindings m ++ new
                      /\ Forall2 (consolidated (req_fields (sd_messages sd) m)) (bindings_for (hs_methods hs) (sm_name m)) new)
                   (sv_methods sv) (sv_methods sv').
Proof.
  intros sd sv hs Es Hnd. unfold assemble_http_params. rewrite Es. split.
  - split.
    + intros [sd' H]. destruct (assemble_methods _ _ _) as [ms| |] eqn:E; try discriminate.
      eapply assemble_only; eassumption.
    + intro H. rewrite (assemble_all _ _ _ Hnd H). eexists. reflexivity.
  - intros sd' H. destruct (assemble_methods _ _ _) as [ms| |] eqn:E; try discriminate. injection H as <-. cbn.
    split; [reflexivity|]. split; [reflexivity|]. split; [reflexivity|]. eexists. split; [reflexivity|]. split; [reflexivity|]. cbn.
    pose proof (assemble_only _ _ _ _ Hnd E) as Hh. rewrite (assemble_all _ _ _ Hnd Hh) in E. injection E as <-.
    apply assemble_forall2.
Qed.
Print Assumptions c21_assemble.
(** What a binding says determines the consolidated binding. *)
Theorem c21_consolidated_unique : forall fields b s s', consolidated fields b s -> consolidated fields b s' -> s = s'.
Proof. exact consolidated_fun. Qed.
(** A method no parsed method names is left as it is. *)
Theorem c21_others_unchanged : forall sd sv hs sd' sv' m, sd_service sd = Some sv -> NoDup (map sm_name (sv_methods sv)) ->
  assemble_http_params sd hs = COk sd' -> sd_service sd' = Some sv' ->
  In m (sv_methods sv) -> (forall hm, In hm (hs_methods hs) -> go_camel_case (hm_name hm) <> sm_name m) -> In m (sv_methods sv').
Proof.
  intros sd sv hs sd' sv' m Es Hnd H Es' Hm Hno. destruct (c21_assemble sd sv hs Es Hnd) as [_ K].
  destruct (K sd' H) as (_ & _ & _ & sv2 & E2 & _ & F). rewrite Es' in E2. injection E2 as <-.
  clear -F Hm Hno. induction F as [|a b l l' [(E1 & E2 & E3) (new & E4 & E5)] F IH]; [destruct Hm|].
  destruct Hm as [->|Hm]; [left|right; apply IH; exact Hm].
  assert (Hb : bindings_for (hs_methods hs) (sm_name m) = []).
  { clear -Hno. unfold bindings_for. induction (hs_methods hs) as [|h hms IH]; [reflexivity|]. cbn [flat_map].
    destruct (str_eqb_spec (sm_name m) (go_camel_case (hm_name h))) as [E|_].
    - exfalso. apply (Hno h); [left; reflexivity|auto].
    - cbn [app]. apply IH. intros hm Hh. apply Hno. right. exact Hh. }
  rewrite Hb in E5. inversion E5; subst new. rewrite app_nil_r in E4. destruct m, b. cbn in *. congruence.
Qed.
Print Assumptions c21_others_unchanged.
(** It fails only for a parsed method without a Go method ... *)
Theorem c21_error : forall sd sv hs e, sd_service sd = Some sv -> NoDup (map sm_name (sv_methods sv)) ->
  assemble_http_params sd hs = CErr e ->
  exists hm, In hm (hs_methods hs) /\ e = ECNoMethod (hm_name hm) /\ ~ In (go_camel_case (hm_name hm)) (map sm_name (sv_methods sv)).
Proof.
  intros sd sv hs e Es Hnd H. unfold assemble_http_params in H. rewrite Es in H.
  destruct (assemble_methods _ _ _) as [ms|e1|] eqn:E; try discriminate. injection H as <-. eapply assemble_err; eassumption.
Qed.
Print Assumptions c21_error.
(** ... and panics only for a method whose request message is not among the messages. *)
Theorem c21_panic : forall sd sv hs, sd_service sd = Some sv -> NoDup (map sm_name (sv_methods sv)) ->
  assemble_http_params sd hs = CPanic ->
  exists hm m, In hm (hs_methods hs) /\ In m (sv_methods sv) /\ sm_name m = go_camel_case (hm_name hm) /\ ft_msg (sm_req m) = None.
Proof.
  intros sd sv hs Es Hnd H. unfold assemble_http_params in H. rewrite Es in H.
  destruct (assemble_methods _ _ _) as [ms|e1|] eqn:E; try discriminate. eapply assemble_panic; eassumption.
Qed.
Print Assumptions c21_panic.

(** C22: the order in which the map of proto files is traversed does not matter when one file at most
    has a service definition (whatever becomes of that file). *)
Theorem c22_order_irrelevant : forall U sd files files' main others, unicode_ok U ->
  Permutation files (main :: others) -> Permutation files' (main :: others) ->
  Forall (serviceless_text U) others -> file_text U main ->
  consolidate U globals0 sd files = consolidate U globals0 sd files'.
Proof.
  intros U sd files files' main others HU H1 H2 Ho Hm.
  rewrite (consolidate_perm U HU files main others sd H1 Ho Hm). symmetry. exact (consolidate_perm U HU files' main others sd H2 Ho Hm).
Qed.
Print Assumptions c22_order_irrelevant.

(** ** Where it fails *)
Definition dq1 : str := [c_dquote].
Definition sample_msg : message := mkMsg (T "B") [mkFld (T "X") (T "x") (mkFT (T "string") None None None None false false);
                                                  mkFld (T "Y") (T "y") (mkFT (T "string") None None None None false false)].
Definition meth (n : str) : smethod := mkSMeth n (mkFT (T "B") None None (Some (MDef 0)) None true false) (mkFT (T "B") None None (Some (MDef 0)) None true false) [].
Definition sample_sd : svcdef := mkSvcdef (T "p") [sample_msg] [] (Some (mkSvc (T "S") [meth (T "A"); meth (T "D")])).
Definition file_ok : str := T "service S { rpc a (B) returns (C) { option (h) = { get: " ++ dq1 ++ T "/a/{x}/z" ++ dq1 ++ T " }; } }".
Definition file_optional : str := T "service S2 { rpc D (B) returns (C) { foo } }".
Definition file_plain : str := T "message M { }".
Definition bindings_of (o : outcome (cres svcdef)) : option (list (list (str * str * list str))) :=
  match o with
  | Ret (COk sd) => match sd_service sd with
    | Some sv => Some (map (fun m => map (fun b => (sb_verb b, sb_path b, map pm_loc (sb_params b))) (sm_bindings m)) (sv_methods sv))
    | None => None end
  | _ => None
  end.

(** A second file with a service whose rpc has an unreadable option ends the consolidation of the
    files after it without an error: the outcome depends on the order. *)
Theorem c22_order_refuted :
  bindings_of (consolidate latin1 globals0 sample_sd [file_ok; file_optional]) = Some [[(T "get", T "/a/{x}/z", [T "path"; T "query"])]; []]
  /\ bindings_of (consolidate latin1 globals0 sample_sd [file_optional; file_ok]) = Some [[]; []].
Proof. vm_compute. split; reflexivity. Qed.
(** What an earlier file with a closing brace too many leaves in the package variables of the scanner makes a good
    file unreadable. *)
Theorem c22_state_leaks_refuted :
  bindings_of (consolidate latin1 globals0 sample_sd [file_ok]) <> None
  /\ bindings_of (consolidate latin1 globals0 sample_sd [T "message M { } }"]) <> None
  /\ bindings_of (consolidate latin1 globals0 sample_sd [T "message M { } }"; file_ok]) = None
  /\ bindings_of (consolidate latin1 globals0 sample_sd [file_ok; file_ok]) <> None
  /\ bindings_of (consolidate latin1 globals0 sample_sd [file_ok ++ T " }"; file_ok]) = None.
Proof. vm_compute. split; [discriminate|split; [discriminate|split; [reflexivity|split; [discriminate|reflexivity]]]]. Qed.
(** A request message defined in another package is a nil pointer: the program panics. *)
Theorem c21_no_panic_refuted :
  consolidate latin1 globals0 (mkSvcdef (T "p") [] [] (Some (mkSvc (T "S") [mkSMeth (T "A") (mkFT (T "Empty") None None None None true false)
     (mkFT (T "B") None None None None true false) []]))) [file_ok] = Panic.
Proof. vm_compute. reflexivity. Qed.

(** ** The hypotheses are met *)
Example sample_placed : all_placed sample_sd.
Proof. intros sv m sb E Hm Hsb. injection E as <-. cbn in Hm. destruct Hm as [<-|[<-|[]]]; destruct Hsb. Qed.
Example sample_consolidates :
  bindings_of (consolidate latin1 globals0 sample_sd [file_plain; file_ok]) = Some [[(T "get", T "/a/{x}/z", [T "path"; T "query"])]; []].
Proof. vm_compute. reflexivity. Qed.
Example sample_names : NoDup (map sm_name (sv_methods (mkSvc (T "S") [meth (T "A"); meth (T "D")]))).
Proof. cbn. constructor; [intros [H|[]]; discriminate|]. constructor; [intros []|constructor]. Qed.
Example sample_template : Forall seg_ok [Lit (T "/a/"); Par (T "x"); Lit (T "/b"); Par (T "y.z")]
  /\ braced_parts 0 (flat_map write_seg [Lit (T "/a/"); Par (T "x"); Lit (T "/b"); Par (T "y.z")]) = [T "x"; T "y.z"].
Proof. split; [|reflexivity]. repeat (apply Forall_cons; [cbn; try split; try split; nope|]). apply Forall_nil. Qed.
Example odd_templates : braced_parts 0 (T "/{a{b}/{c") = [T "ab"] /\ braced_parts 0 (T "{}") = [[]]
  /\ braced_parts 0 (T "{a" ++ [c_nl] ++ T "b}{c}") = [T "c"].
Proof. vm_compute. auto. Qed.
Example plain_serviceless : serviceless_text latin1 file_plain.
Proof.
  exists [T "message"; T " "; T "M"; T " "; T "{"; T " "; T "}"]. split; [reflexivity|]. split; [solve_ws|].
  apply pf_end. split; [nope|]. do 4 (apply ne_other; [discriminate|discriminate|]). apply (ne_block [T " "] []); [|constructor].
  apply ne_other; [discriminate|discriminate|constructor].
Qed.
Example sample_file_text : file_text latin1 (concat sample_file).
Proof. destruct sample_file_is_proto_file as [b H]. exists sample_file, [b]. split; [reflexivity|]. split; [exact sample_file_separated|exact H]. Qed.
