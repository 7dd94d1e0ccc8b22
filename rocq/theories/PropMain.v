(** Property theorems C76: a whole run of baron. *)
From Coq Require Import Permutation.
From Verif Require PropHandler.
From Verif Require Import HttpTransport GenHttp.
From Verif Require Import GoStr GoStrProofs GoMap SplitJoin Scanner Parser ParserSpec Strs Consolidate ConsolidateSpec SvcTypes Svcdef NewDef NewDefSpec PropNewDef Handler HandlerSpec Generator GeneratorSpec GeneratorProofs GeneratorProofs2 PropGenerator
  Paths PathsSpec PathsProofs PropPaths Protoc ProtocSpec ProtocProofs PropProtoc Cmdline CmdlineProofs Main MainSpec MainProofs.

(** ** C76 *)
Section M.
  Variable tmpl : svcdef -> opts -> str -> data -> option bytes.
  Variable parse_go : bytes -> option (list decl).
  Variable print_go : list decl -> bytes.
  Variable format_source : bytes -> option bytes.
  Notation baron_run := (baron_run tmpl parse_go print_go format_source).

  Lemma failed_ops : forall upper tm fs root bp d prev ops, main_ops upper tm parse_go print_go format_source fs root bp d prev ops false -> forall q, q <> bp -> run_ops fs ops q = fs q.
  Proof.
    intros upper tm fs root bp d prev ops H q Hq. remember false as fin eqn:Ef. destruct H as [E|b o1 E Hw Hg|]; [reflexivity| |discriminate]. apply run_untouched. intros o Ho Ht. exact (Hq (gen_file_touches _ _ _ _ _ Hw Ho Ht)).
  Qed.

  (** How a run ends: having changed no more than protoc's files; or with a non-zero status, having changed no more than these and the
      .pb.baron.go file of the first argument; or with status zero, having generated the service.  (Whatever protoc and the Go tools do.) *)
  Theorem c76_outcomes : forall w o protos cw d names gps t fs fs' zero, setting w protos cw d names gps t fs -> baron_run w o protos fs fs' zero ->
    let bp := d ++ [baron_name (hd [] names)] in
    (forall q, ~ pb_files d names q -> fs' q = fs q) \/
    (zero = false /\ forall q, ~ pb_files d names q -> q <> bp -> fs' q = fs q) \/
    (zero = true /\ exists name sp sd sv,
       service_path (w_cwd w) (map text_of gps) (op_svcout o) name = Some sp /\ sd_service sd = Some sv /\
       (forall m sb, In m (sv_methods sv) -> In sb (sm_bindings m) -> exists texts, (forall x, In x texts -> exists n, In n names /\ fs (d ++ [proto_file n]) = Some x) /\ written_in (w_unicode w) texts (sm_name m) sb) /\
       let root := goes cw sp in let svc := to_lower (sv_name sv) in
       (forall q, ~ pb_files d names q -> q <> bp -> ~ In q (map (app root) (all_files svc (op_client o))) -> ~ stale root svc q -> fs' q = fs q) /\
       (forall p, In p (all_files svc (op_client o)) -> fs' (root ++ p) <> None) /\
       (exists c, tmpl sd o (T "server/server.go.tmpl") (data_of sv (op_client o)) = Some c /\ fs' (root ++ server_file) = Some (format_code format_source c)) /\
       (forall q, stale root svc q -> fs' q = None) /\
       (~ stale root svc bp -> exists c, tmpl sd o (T "baron/NAME.pb.baron.go.tmpl") (data_of sv (op_client o)) = Some c /\ fs' bp = Some (format_code format_source c))).
  Proof.
    intros w o protos cw d names gps t fs fs' zero SE R bp. destruct R as [fs' z E|fs1 c E N|fs1 c sd p E E2 Es|fs1 c sd p sv l ops fin E E2 Es root Hw Hd HR]; pose proof (front_of w protos cw d names gps t fs SE (op_svcout o)) as F; rewrite E in F.
    - left. exact F.
    - left. exact (proj1 F).
    - left. exact (proj1 F).
    - destruct F as (F & EF & EP & name & g1 & Esp & En & _). rewrite EF, EP in *. rewrite (baron_path_of w protos cw d names gps t fs SE) in HR. destruct (new_from_facts w protos cw d names gps t fs SE _ _ _ _ _ _ sv F E2 Es) as [Hsl Hwr].
      fold bp in HR. destruct fin.
      + right. right. split; [reflexivity|]. exists name, (cf_svc_path c), sd, sv. split; [exact Esp|]. split; [exact Es|]. split; [exact Hwr|]. destruct (se_cwd _ _ _ _ _ _ _ _ SE) as [Ec Pc].
        assert (Er : root = goes cw (cf_svc_path c)) by (unfold root; rewrite Ec; apply at_abs; exact Pc). rewrite <- Er. cbv zeta.
        assert (Hs : ~ In c_slash (to_lower (d_name (data_of sv (op_client o))))) by (apply lower_free; exact Hsl).
        pose proof (only_generated_touched _ _ _ _ _ fs1 root d (hd [] names) (data_of sv (op_client o)) _ ops true Hs HR ops) as HT.
        destruct (finished_run _ _ _ _ _ fs1 root d (hd [] names) (data_of sv (op_client o)) _ ops true Hs HR eq_refl) as (m & b & Hg & Hb & Hf & Hst & Hbp). cbn [d_name d_client data_of] in *.
        split; [|split; [|split; [|split]]].
        * intros q Q1 Q2 Q3 Q4. rewrite <- (F q Q1). apply HT; [exists []; symmetry; apply app_nil_r|exact Q2|exact Q3|exact Q4].
        * intros q Hq. destruct (Hf q Hq) as [-> K]. exact K.
        * destruct (runner_fresh _ _ _ _ _ _ _ _ Hg) as (c0 & K1 & K2). exists c0. split; [exact K1|]. destruct (Hf server_file) as [-> _]; [right; left; reflexivity|exact K2].
        * exact Hst.
        * intro K. unfold baron_file in Hb. change (other_response (tmpl sd o) format_source BaronPath (data_of sv (op_client o)) None) with (finish format_source (tmpl sd o BaronPath (data_of sv (op_client o)))) in Hb.
          destruct (tmpl sd o BaronPath (data_of sv (op_client o))) as [c0|] eqn:Et; [|discriminate]. cbn [finish] in Hb. exists c0. split; [exact Et|]. injection Hb as ->. exact (Hbp K).
      + right. left. split; [reflexivity|]. intros q Q1 Q2. rewrite <- (F q Q1). exact (failed_ops _ _ _ _ _ _ _ _ HR q Q2).
  Qed.

  (** In a ready world every run exits with status zero, the Go files of protoc are there, the definition it generated from has the rpcs and the routes
      that are written in the .proto file, the service has all of its files (those of the user as they were, but for gofmt), and nothing else
      has changed. *)
  Theorem c76_generates : forall w o protos cw d names gps t fs sv outs gos root fs' zero, setting w protos cw d names gps t fs -> ready tmpl parse_go w o cw d names gps t fs sv outs gos root ->
    ~ In c_slash (go_camel_case (s_name sv)) -> baron_run w o protos fs fs' zero ->
    zero = true /\ exists sd svc hs, let dt := data_of svc (op_client o) in let fmt := format_code format_source in
      sv_name svc = go_camel_case (s_name sv) /\ map sm_name (sv_methods svc) = map (fun m => go_camel_case (m_name m)) (s_methods sv) /\
      new_helper (sd_messages sd) (sv_methods svc) = Ret hs /\ Forall2 (fun b r => route_of (w_upper w) gos (fst b) (snd b) r) (written_bindings sv) (make_routes hs) /\
      (forall n, In n names -> fs' (d ++ [go_file n]) = Some (fst (outs (proto_file n))) /\ fs' (d ++ [grpc_file n]) = snd (outs (proto_file n))) /\
      (exists c, tmpl sd o (T "baron/NAME.pb.baron.go.tmpl") dt = Some c /\ fs' (d ++ [baron_name (hd [] names)]) = Some (fmt c)) /\
      (exists c, tmpl sd o (T "server/server.go.tmpl") dt = Some c /\ fs' (root ++ server_file) = Some (fmt c)) /\
      (forall p x, In (p, x) (user_files (to_lower (sv_name svc)) (op_client o)) ->
         match fs (root ++ p) with
         | Some b => fs' (root ++ p) = Some (fmt b)
         | None => exists c, tmpl sd o x dt = Some c /\ fs' (root ++ p) = Some (fmt c)
         end) /\
      match fs (root ++ service_file) with
      | Some b => exists ds out, parse_go b = Some ds /\ render (w_upper w) (sv_name svc) (map (fun m => mkRpc (sm_name m) (ft_name (sm_req m)) (ft_name (sm_resp m))) (sv_methods svc)) (Some ds) (Ret out) /\ fs' (root ++ service_file) = Some (fmt (print_go out))
      | None => exists c, tmpl sd o (T "service/service.go.tmpl") dt = Some c /\ fs' (root ++ service_file) = Some (fmt c)
      end /\
      (forall q, ~ pb_files d names q -> q <> d ++ [baron_name (hd [] names)] -> ~ In q (map (app root) (all_files (to_lower (sv_name svc)) (op_client o))) -> ~ stale root (to_lower (sv_name svc)) q -> fs' q = fs q).
  Proof.
    intros w o protos cw d names gps t fs sv outs gos root fs' zero SE RD Hsl R.
    destruct (ready_front tmpl parse_go w o protos cw d names gps t fs sv outs gos root SE RD) as (g & c & sd & p2 & svc & hs & E & EF & EP & EN & ER & M & F & E2 & Es & En & Em & Eh & Ert).
    destruct R as [fs' z K|g' c' K N|g' c' sd' p' K K2 Ks|g' c' sd' p' svc' l ops fin K K2 Ks root' Hw Hd HR]; try (rewrite E in K; discriminate); rewrite E in K; injection K as <- <-.
    - exfalso. rewrite EF, EP in N. exact (N _ _ E2).
    - exfalso. rewrite EF, EP in K2. congruence.
    - rewrite EF, EP in *. assert (sd' = sd) by congruence. subst sd'. assert (svc' = svc) by congruence. subst svc'. unfold root' in *. clear root'. rewrite ER in *. rewrite (baron_path_of w protos cw d names gps t fs SE) in HR. rewrite EN in HR.
      assert (Fr : forall q, g (root ++ q) = fs (root ++ q)) by (intro q; apply F; exact (proj1 (rd_apart _ _ _ _ _ _ _ _ _ _ _ _ _ _ RD q))).
      assert (Hs : ~ In c_slash (to_lower (d_name (data_of svc (op_client o))))) by (apply lower_free; cbn [d_name data_of]; rewrite En; exact Hsl). rewrite <- En in HR.
      assert (Hfin : fin = true).
      { inversion HR as [Eb|b o1 Eb Hwr Hg|b o1 m order o2 o3 Eb Hwr Hg Hp Hf Hc]; [|exfalso|reflexivity].
        - exfalso. unfold baron_file in Eb. change (other_response (tmpl sd o) format_source BaronPath (data_of svc (op_client o)) None) with (finish format_source (tmpl sd o BaronPath (data_of svc (op_client o)))) in Eb.
          pose proof (rd_templates _ _ _ _ _ _ _ _ _ _ _ _ _ _ RD sd svc hs BaronPath Es Eh (or_introl eq_refl) ltac:(discriminate)) as Z. destruct (tmpl sd o BaronPath (data_of svc (op_client o))); [discriminate|congruence].
        - revert Hg. apply gokit_never_fails; [intros x Hx Hn; exact (rd_templates _ _ _ _ _ _ _ _ _ _ _ _ _ _ RD sd svc hs x Es Eh Hx Hn)|]. intros b' Hb'. rewrite (previous_files_read (last root []) (to_lower (sv_name svc)) (op_client o) l service_file Hs Hw (or_introl eq_refl)) in Hb' by discriminate. rewrite <- (Hd service_file), Fr in Hb'.
          destruct (rd_service _ _ _ _ _ _ _ _ _ _ _ _ _ _ RD b' Hb') as (ds & Eds & Hds). exists ds. split; [exact Eds|]. exact (proj1 (PropHandler.regeneration_does_not_panic _ _ _ ds Hds)). }
      subst fin. split; [reflexivity|]. exists sd, svc, hs. cbv zeta. split; [exact En|]. split; [exact Em|]. split; [exact Eh|]. split; [exact Ert|].
      pose proof (user_files_survive _ _ _ _ _ g root l d (hd [] names) (data_of svc (op_client o)) ops Hs Hw Hd HR) as HUf. pose proof (service_file_survives _ _ _ _ _ g root l d (hd [] names) (data_of svc (op_client o)) ops Hs Hw Hd HR) as HSf.
      pose proof (only_generated_touched _ _ _ _ _ g root d (hd [] names) (data_of svc (op_client o)) _ ops true Hs HR ops) as HT.
      destruct (finished_run _ _ _ _ _ g root d (hd [] names) (data_of svc (op_client o)) _ ops true Hs HR eq_refl) as (m & b & Hg & Hb & Hf & Hst & Hbp). cbn [d_name d_client d_methods data_of] in *.
      assert (A : forall q, (exists p, q = root ++ p) \/ ~ exists p, q = root ++ p) by (intro q; destruct (under q root) eqn:Eu; [left; apply under_spec; exact Eu|right; intro Z; assert (under q root = true) by (apply under_spec; exact Z); congruence]).
      assert (O : forall q, (forall p, q <> root ++ p) -> q <> d ++ [baron_name (hd [] names)] -> run_ops g ops q = g q).
      { intros q Q1 Q2. apply HT; [exists []; symmetry; apply app_nil_r|exact Q2| |].
        - intro Z. apply in_map_iff in Z. destruct Z as (p & Z & _). exact (Q1 p (eq_sym Z)).
        - intros (old & rest & _ & Z). exact (Q1 _ Z). }
      split; [|split; [|split; [|split; [|split]]]].
      + intros n Hn. destruct (M n Hn) as [M1 M2].
        assert (B1 : d ++ [go_file n] <> d ++ [baron_name (hd [] names)]) by (intro Z; apply app_inv_head in Z; injection Z as Z; unfold go_file, baron_name in Z; apply (f_equal (@rev N)) in Z; rewrite !rev_app_distr in Z; vm_compute in Z; discriminate).
        assert (B2 : d ++ [grpc_file n] <> d ++ [baron_name (hd [] names)]) by (intro Z; apply app_inv_head in Z; injection Z as Z; unfold grpc_file, baron_name in Z; apply (f_equal (@rev N)) in Z; rewrite !rev_app_distr in Z; vm_compute in Z; discriminate).
        rewrite (O (d ++ [go_file n])), (O (d ++ [grpc_file n])); [split; [exact M1|exact M2]| |exact B2| |exact B1]; intros p Z; apply (proj1 (rd_apart _ _ _ _ _ _ _ _ _ _ _ _ _ _ RD p)); exists n; split; [exact Hn|right; symmetry; exact Z|exact Hn|left; symmetry; exact Z].
      + unfold baron_file in Hb. change (other_response (tmpl sd o) format_source BaronPath (data_of svc (op_client o)) None) with (finish format_source (tmpl sd o BaronPath (data_of svc (op_client o)))) in Hb.
        destruct (tmpl sd o BaronPath (data_of svc (op_client o))) as [c0|] eqn:Et; [|discriminate]. cbn [finish] in Hb. exists c0. split; [exact Et|]. injection Hb as ->. apply Hbp. intros (old & rest & _ & Z). exact (proj2 (rd_apart _ _ _ _ _ _ _ _ _ _ _ _ _ _ RD (old ++ rest)) (eq_sym Z)).
      + destruct (runner_fresh _ _ _ _ _ _ _ _ Hg) as (c0 & K3 & K4). exists c0. split; [exact K3|]. destruct (Hf server_file) as [-> _]; [right; left; reflexivity|exact K4].
      + intros p x Hp. specialize (HUf p x Hp). rewrite Fr in HUf. exact HUf.
      + rewrite Fr in HSf. exact HSf.
      + intros q Q1 Q2 Q3 Q4. rewrite <- (F q Q1). apply HT; [exists []; symmetry; apply app_nil_r|exact Q2|exact Q3|exact Q4].
  Qed.
  (** And there is such a run, if what is at [root] is a directory. *)
  Theorem c76_runs : forall w o protos cw d names gps t fs sv outs gos root l, setting w protos cw d names gps t fs -> ready tmpl parse_go w o cw d names gps t fs sv outs gos root ->
    ~ In c_slash (go_camel_case (s_name sv)) -> wf_node (NDir l) -> on_disk fs root (NDir l) -> exists fs', baron_run w o protos fs fs' true.
  Proof.
    intros w o protos cw d names gps t fs sv outs gos root l SE RD Hsl Hw Hd.
    destruct (ready_front tmpl parse_go w o protos cw d names gps t fs sv outs gos root SE RD) as (g & c & sd & p2 & svc & hs & E & EF & EP & EN & ER & M & F & E2 & Es & En & Em & Eh & Ert).
    assert (Fr : forall q, g (root ++ q) = fs (root ++ q)) by (intro q; apply F; exact (proj1 (rd_apart _ _ _ _ _ _ _ _ _ _ _ _ _ _ RD q))).
    assert (Hs : ~ In c_slash (to_lower (sv_name svc))) by (apply lower_free; rewrite En; exact Hsl).
    destruct (run_exists (w_upper w) (tmpl sd o) parse_go print_go format_source g root (at_path (fp_join [cf_pb_path c; baron_file_name (hd [] (cf_files c))])) (data_of svc (op_client o)) (read_previous_generation (last root []) (cf_name c) (NDir l))) as [ops HR].
    - intros x Hx Hn. exact (rd_templates _ _ _ _ _ _ _ _ _ _ _ _ _ _ RD sd svc hs x Es Eh Hx Hn).
    - intros b Hb. rewrite EN, <- En in Hb. rewrite (previous_files_read (last root []) _ (op_client o) l service_file Hs Hw (or_introl eq_refl)) in Hb by discriminate. rewrite <- (Hd service_file) in Hb.
      destruct (rd_service _ _ _ _ _ _ _ _ _ _ _ _ _ _ RD b Hb) as (ds & Eds & Hds). destruct (proj2 (PropHandler.regeneration_does_not_panic (w_upper w) (sv_name svc) (map rpc_of (sv_methods svc)) ds Hds)) as [out Ho]. exists ds, out. split; [exact Eds|exact Ho].
    - exists (run_ops g ops). eapply RunGenerate; [exact E|rewrite EF, EP; exact E2|exact Es|exact Hw| |].
      + intro rel. rewrite ER, Fr. apply Hd.
      + rewrite ER. exact HR.
  Qed.
End M.
Print Assumptions c76_outcomes.
Print Assumptions c76_generates.
Print Assumptions c76_runs.

(** ** Examples: baron started in /w with .proto files there *)
Definition disk_of (l : list (path * bytes)) : disk := fun q => match find (fun e => path_eqb q (fst e)) l with Some e => Some (snd e) | None => None end.
Definition ex_world (temp : option str) (packages : list str) (go : gomap gofile) (outs : gomap (bytes * option bytes)) (order : nat -> list (str * bytes) -> list (str * bytes)) : world :=
  mkWorld (T "/w") (T "/go") [] (fun _ => true) (fun _ _ _ => Some (fun f => match mget outs f with Some x => x | None => ([], None) end)) (fun _ _ => Some packages) temp (fun _ => true) (fun _ => true)
    (fun b => mget go b) order PropSvcdef.up latin1.
Definition ids_ok (go : gomap gofile) : bool := forallb (fun x => forallb (fun s => negb (existsb (N.eqb c_slash) (ts_name s))) (type_specs (snd x))) go.
Lemma ex_setting : forall temp packages go outs order names fs, temp = None \/ temp = Some (T "/tmp/x") -> names <> [] -> forallb (fun n => negb (existsb (N.eqb c_slash) n)) names = true -> ids_ok go = true ->
  (forall k l, Permutation l (order k l)) -> (forall q, fs ([T "tmp"; T "x"] ++ q) = None) ->
  setting (ex_world temp packages go outs order) (map proto_file names) [T "w"] [T "w"] names [[T "go"]] [T "tmp"; T "x"] fs.
Proof.
  assert (NS : forall s, existsb (N.eqb c_slash) s = false -> ~ In c_slash s) by (intros s H K; assert (existsb (N.eqb c_slash) s = true) by (apply existsb_exists; exists c_slash; split; [exact K|reflexivity]); congruence).
  intros temp packages go outs order names fs Ht Hne Hn Hi Ho Hf.
  assert (Tm : forall s, In s [T "w"; T "go"; T "tmp"; T "x"] -> tame s) by (intros s K; repeat destruct K as [<-|K]; try contradiction; (split; [split; [discriminate|split; [discriminate|split; [discriminate|noslash]]]|split; noslash])).
  split.
  - split; [reflexivity|]. apply Forall_cons; [apply (Tm (T "w")); cbn; auto|apply Forall_nil].
  - split; [destruct names; [congruence|discriminate]|]. clear Hne. rewrite forallb_forall in Hn. induction names as [|n ns IH]; [apply Forall2_nil|]. cbn [map]. apply Forall2_cons; [|apply IH; intros x Hx; apply Hn; right; exact Hx].
    specialize (Hn n (or_introl eq_refl)). apply negb_true_iff in Hn. apply NS in Hn. split; [|exact Hn]. destruct (plain_proto n Hn) as (P1 & P2 & P3 & P4). assert (A : is_abs (proto_file n) = false).
    { unfold proto_file. destruct n as [|c n]; [reflexivity|]. destruct (is_abs ((c :: n) ++ T ".proto")) eqn:E; [|reflexivity]. exfalso. apply Hn. left. unfold is_abs in E. apply has_prefix_iff in E. destruct E as [r E]. injection E as E _. exact E. }
    rewrite (goes_rel [T "w"] (proto_file n) A). rewrite (split1_one c_slash (proto_file n) P4). apply (go_plain [proto_file n] [T "w"]). apply Forall_cons; [|apply Forall_nil]. exact (conj P1 (conj P2 (conj P3 P4))).
  - apply Forall_cons; [apply (Tm (T "w")); cbn; auto|apply Forall_nil].
  - split; [reflexivity|]. apply Forall_cons; [|apply Forall_nil]. apply Forall_cons; [apply (Tm (T "go")); cbn; auto|apply Forall_nil].
  - split; [intros td K; cbn [w_temp ex_world] in K; destruct Ht as [-> | ->]; [discriminate|]; injection K as <-; reflexivity|]. apply Forall_cons; [apply (Tm (T "tmp")); cbn; auto|]. apply Forall_cons; [apply (Tm (T "x")); cbn; auto|apply Forall_nil].
  - exact Hf.
  - intros n q _. split; intro K; discriminate.
  - intros b gf s E K. cbn [w_go ex_world] in E. unfold ids_ok in Hi. rewrite forallb_forall in Hi. assert (In (b, gf) go).
    { clear - E. induction go as [|[k v] m IH]; cbn [mget] in E; [discriminate|]. destruct (str_eqb_spec b k) as [->|Hn]; [injection E as ->; left; reflexivity|right; exact (IH E)]. }
    specialize (Hi _ H). rewrite forallb_forall in Hi. specialize (Hi s K). apply negb_true_iff in Hi. apply NS. exact Hi.
  - exact Ho.
Qed.
Definition ex_go : gomap gofile := [(T "PB", PropNewDef.ex_pb); (T "GRPC", PropNewDef.ex_grpc)].
Definition ex_outs : gomap (bytes * option bytes) := [(T "s.proto", (T "PB", Some (T "GRPC")))].
Definition ex_disk : disk := disk_of [([T "w"; T "s.proto"], concat ex_block)].
Definition ex_w : world := ex_world (Some (T "/tmp/x")) [T "m"] ex_go ex_outs (fun _ l => l).
Definition ex_templates (_ : svcdef) (_ : opts) (x : str) (_ : data) : option bytes := Some x.
Example c76_setting_nonvacuous : setting ex_w [T "s.proto"] [T "w"] [T "w"] [T "s"] [[T "go"]] [T "tmp"; T "x"] ex_disk.
Proof. apply (ex_setting (Some (T "/tmp/x")) [T "m"] ex_go ex_outs (fun _ l => l) [T "s"] ex_disk); [right; reflexivity|discriminate|reflexivity|vm_compute; reflexivity|intros; apply Permutation_refl|reflexivity]. Qed.
Example c76_ready_nonvacuous : ready ex_templates (fun _ => None) ex_w opts0 [T "w"] [T "w"] [T "s"] [[T "go"]] [T "tmp"; T "x"] ex_disk ex_service (fun f => match mget ex_outs f with Some x => x | None => ([], None) end) [PropNewDef.ex_pb; PropNewDef.ex_grpc] [T "w"; T "s-service"].
Proof.
  split.
  - split; [repeat constructor; intros []|]. intros n n' [<-|[]] [<-|[]] K. discriminate.
  - exists (fun _ => concat ex_block). split; [intros n [<-|[]]; vm_compute; reflexivity|]. exists (concat ex_block), [], [], ex_block, [], []. split; [apply Permutation_refl|]. split; [constructor|].
    cbn [app]. rewrite app_nil_r. split; [reflexivity|]. split; [pose proof ex_separated as E; cbn [app] in E; rewrite app_nil_r in E; exact E|].
    assert (N0 : LexerSpec.service_free []) by (split; [intros []|constructor]). split; [exact N0|]. split; [exact ex_is_block|]. split; [apply LexerSpec.pf_end; exact N0|]. split; [exact ex_spells|exact ex_service_ok].
  - repeat split.
  - intros g _. reflexivity.
  - split; [vm_compute; repeat constructor|]. split; [exact ex_compiled|exact latin1_ok].
  - intros n [<-|[]] K. discriminate.
  - split; [eexists _, _; reflexivity|]. exists (T "/w/s-service"). repeat split. intro g. eexists _, _. reflexivity.
  - intro q. split; [intros (n & [<-|[]] & [K|K]); discriminate|discriminate].
  - intros sd svc hs x _ _ _ _. discriminate.
  - intros b K. discriminate.
Qed.

(** ** What is not so *)
Section Not.
  Variable tmpl : svcdef -> opts -> str -> data -> option bytes.
  Variable parse_go : bytes -> option (list decl).
  Variable print_go : list decl -> bytes.
  Variable format_source : bytes -> option bytes.
  Notation baron_run := (baron_run tmpl parse_go print_go format_source).
  (** A directory that is in no Go package: baron says nothing, does nothing, and exits with status zero. *)
  Theorem c76_no_package_silent : forall w o protos cw d names gps t fs fs' zero, setting w protos cw d names gps t fs -> w_packages w (text_of d) fs = Some [] -> baron_run w o protos fs fs' zero -> fs' = fs /\ zero = true.
  Proof.
    intros w o protos cw d names gps t fs fs' zero SE Hp R. assert (E : parse_input w (op_svcout o) protos fs = FExit fs true) by (unfold parse_input; rewrite (files_of _ _ _ _ _ _ _ _ SE), (first_file _ _ _ _ _ _ _ _ SE), Hp; reflexivity).
    destruct R as [fs' z K|g' c' K N|g' c' sd' p' K K2 Ks|g' c' sd' p' svc' l ops fin K K2 Ks root' Hw Hd HR]; rewrite E in K; try discriminate. injection K as <- <-. split; reflexivity.
  Qed.
  (** If protoc or one of its plugins is missing or fails, the status is not zero, and only Go files of protoc can have changed. *)
  Theorem c76_protoc_fails : forall w o protos cw d names gps t fs fs' zero, setting w protos cw d names gps t fs -> (exists x l, w_packages w (text_of d) fs = Some (x :: l)) ->
    snd (generate_pb (w_compile w) (w_has w) (map (fun n => text_of (d ++ [proto_file n])) names) (map text_of gps) (text_of d) fs) = false ->
    baron_run w o protos fs fs' zero -> zero = false /\ forall q, ~ pb_files d names q -> fs' q = fs q.
  Proof.
    intros w o protos cw d names gps t fs fs' zero SE (x & l0 & Hp) Hg R. pose proof (front_of w protos cw d names gps t fs SE (op_svcout o)) as F.
    assert (E : exists g, parse_input w (op_svcout o) protos fs = FExit g false).
    { unfold parse_input. rewrite (files_of _ _ _ _ _ _ _ _ SE), (first_file _ _ _ _ _ _ _ _ SE), (gopath_of _ _ _ _ _ _ _ _ SE), Hp. destruct (generate_pb _ _ _ _ (text_of d) fs) as [g ok]. cbn [snd] in Hg. subst ok. exists g. reflexivity. }
    destruct E as [g E]. rewrite E in F.
    destruct R as [fs' z K|g' c' K N|g' c' sd' p' K K2 Ks|g' c' sd' p' svc' l ops fin K K2 Ks root' Hw Hd HR]; rewrite E in K; try discriminate. injection K as <- <-. split; [reflexivity|exact F].
  Qed.
  (** No temporary directory: protoc's files are there, nothing else, and the status is zero. *)
  Theorem c76_no_temp_silent : forall w o protos cw d names gps t fs fs' zero, setting w protos cw d names gps t fs -> (exists x l, w_packages w (text_of d) fs = Some (x :: l)) -> w_temp w = None ->
    snd (generate_pb (w_compile w) (w_has w) (map (fun n => text_of (d ++ [proto_file n])) names) (map text_of gps) (text_of d) fs) = true ->
    baron_run w o protos fs fs' zero -> zero = true /\ forall q, ~ pb_files d names q -> fs' q = fs q.
  Proof.
    intros w o protos cw d names gps t fs fs' zero SE (x & l0 & Hp) Ht Hg R. pose proof (front_of w protos cw d names gps t fs SE (op_svcout o)) as F.
    assert (E : exists g, parse_input w (op_svcout o) protos fs = FExit g true).
    { unfold parse_input. rewrite (files_of _ _ _ _ _ _ _ _ SE), (first_file _ _ _ _ _ _ _ _ SE), (gopath_of _ _ _ _ _ _ _ _ SE), Hp. destruct (generate_pb _ _ _ _ (text_of d) fs) as [g ok]. cbn [snd] in Hg. subst ok. cbn [negb]. unfold from_paths. rewrite Ht. exists g. reflexivity. }
    destruct E as [g E]. rewrite E in F. destruct R as [fs' z K|g' c' K N|g' c' sd' p' K K2 Ks|g' c' sd' p' svc' l ops fin K K2 Ks root' Hw Hd HR]; rewrite E in K; try discriminate. injection K as <- <-. split; [reflexivity|exact F].
  Qed.
  (** The exit status.  Zero without a service generated is possible in three ways only. *)
  Theorem c76_zero : forall w o protos fs fs', baron_run w o protos fs fs' true ->
    let gopath := go_path (w_gopath w) (w_default w) in
    exists files, clean_proto_paths (fun s => Some (fp_abs (w_cwd w) s)) protos = Some files /\
    let dir := abs_dir (hd [] files) in
    ((* the definitions are in no Go package *) w_packages w dir fs = Some [] /\ fs' = fs) \/
    (exists fs1, generate_pb (w_compile w) (w_has w) files gopath dir fs = (fs1, true) /\
      ((* the name of the service could not be found *) from_paths w gopath files fs1 = (fs', FrErr) \/
       (exists name p sp fs2, from_paths w gopath files fs1 = (fs2, FrName name p) /\ service_path (w_cwd w) gopath (op_svcout o) name = Some sp /\ w_mkdir w sp = true /\
         ((* the service is in no Go package *) (w_packages w sp fs2 = Some [] /\ fs' = fs2) \/
          (w_walk w sp = true /\ exists c sd p' sv, cf_svc_path c = sp /\ new_from w 2 p fs2 dir files = Some (NewOk sd p') /\ sd_service sd = Some sv))))).
  Proof.
    intros w o protos fs fs' R gopath. assert (G : exists z, z = true /\ baron_run w o protos fs fs' z) by (exists true; split; [reflexivity|exact R]). clear R. destruct G as (z & Ez & R). destruct R as [fs' z E|fs1 c E N|fs1 c sd p E E2 Es|fs1 c sd p sv l ops fin E E2 Es root Hw Hd HR]; try discriminate; unfold parse_input in E; fold gopath in E;
      (destruct (clean_proto_paths _ protos) as [files|]; [|first [discriminate|injection E as <- <-; discriminate]]); exists files; (split; [reflexivity|]); intro dir; fold dir in E;
      (destruct (w_packages w dir fs) as [[|x xs]|]; [|right|first [discriminate|injection E as <- <-; discriminate]]); try discriminate.
    - left. injection E as <- <-. split; reflexivity.
    - destruct (generate_pb (w_compile w) (w_has w) files gopath dir fs) as [fs1 ok]. destruct ok; [|injection E as <- <-; discriminate]. exists fs1. split; [reflexivity|]. cbn [negb] in E.
      destruct (from_paths w gopath files fs1) as [fs2 r]. destruct r as [| |name p]; [left; injection E as <- <-; reflexivity|injection E as <- <-; discriminate|]. right.
      destruct (service_path (w_cwd w) gopath (op_svcout o) name) as [sp|] eqn:Esp; [|injection E as <- <-; discriminate]. exists name, p, sp, fs2. split; [reflexivity|]. split; [exact Esp|].
      destruct (w_mkdir w sp); [|injection E as <- <-; discriminate]. split; [reflexivity|]. left. cbn [negb] in E. destruct (w_packages w sp fs2) as [[|y ys]|]; [injection E as <- <-; split; reflexivity| |injection E as <- <-; discriminate].
      destruct (w_walk w sp); [discriminate|injection E as <- <-; discriminate].
    - destruct (generate_pb (w_compile w) (w_has w) files gopath dir fs) as [fs1' ok]. destruct ok; [|discriminate]. exists fs1'. split; [reflexivity|]. cbn [negb] in E.
      destruct (from_paths w gopath files fs1') as [fs2 r]. destruct r as [| |name p0]; try discriminate. right.
      destruct (service_path (w_cwd w) gopath (op_svcout o) name) as [sp|] eqn:Esp; [|discriminate]. exists name, p0, sp, fs2. split; [reflexivity|]. split; [exact Esp|].
      destruct (w_mkdir w sp); [|discriminate]. split; [reflexivity|]. right. cbn [negb] in E. destruct (w_packages w sp fs2) as [[|y ys]|]; try discriminate.
      destruct (w_walk w sp); [|discriminate]. split; [reflexivity|]. injection E as <- <-. cbn [cf_files cf_pb_path cf_svc_path cf_process] in *. exists (mkCfg files dir sp (to_lower name) p0), sd, p, sv. split; [reflexivity|]. split; [exact E2|exact Es].
  Qed.
  (** What the run says nothing of, and yet is done: the three ways end with status zero and with nothing more on the disk. *)
  Theorem c76_silent : forall w o protos fs fs' z, baron_run w o protos fs fs' z ->
    let gopath := go_path (w_gopath w) (w_default w) in
    forall files, clean_proto_paths (fun s => Some (fp_abs (w_cwd w) s)) protos = Some files ->
    let dir := abs_dir (hd [] files) in
    (w_packages w dir fs = Some [] -> z = true /\ fs' = fs) /\ (w_packages w dir fs = None -> z = false /\ fs' = fs) /\
    forall x xs fs1, w_packages w dir fs = Some (x :: xs) -> generate_pb (w_compile w) (w_has w) files gopath dir fs = (fs1, true) ->
      (forall fs2, from_paths w gopath files fs1 = (fs2, FrErr) -> z = true /\ fs' = fs2) /\ (forall fs2, from_paths w gopath files fs1 = (fs2, FrPanic) -> z = false /\ fs' = fs2) /\
      forall name p fs2, from_paths w gopath files fs1 = (fs2, FrName name p) ->
        (service_path (w_cwd w) gopath (op_svcout o) name = None -> z = false /\ fs' = fs2) /\
        forall sp, service_path (w_cwd w) gopath (op_svcout o) name = Some sp ->
          (w_mkdir w sp = false -> z = false /\ fs' = fs2) /\
          (w_mkdir w sp = true ->
             (w_packages w sp fs2 = Some [] -> z = true /\ fs' = fs2) /\ (w_packages w sp fs2 = None -> z = false /\ fs' = fs2) /\
             (w_walk w sp = false -> w_packages w sp fs2 <> Some [] -> z = false /\ fs' = fs2) /\
             (forall y ys, w_packages w sp fs2 = Some (y :: ys) -> w_walk w sp = true -> (forall sd p', new_from w 2 p fs2 dir files <> Some (NewOk sd p')) -> z = false /\ fs' = fs2)).
  Proof.
    intros w o protos fs fs' z R gopath files Hf dir.
    assert (X : forall g z0, parse_input w (op_svcout o) protos fs = FExit g z0 -> z = z0 /\ fs' = g).
    { intros g z0 E. destruct R as [fs' z K|g' c' K N|g' c' sd' p' K K2 Ks|g' c' sd' p' svc' l ops fin K K2 Ks root' Hw Hd HR]; rewrite E in K; try discriminate. injection K as <- <-. split; reflexivity. }
    unfold parse_input in X. fold gopath in X. rewrite Hf in X. fold dir in X.
    split; [intro Hp; rewrite Hp in X; apply X; reflexivity|]. split; [intro Hp; rewrite Hp in X; apply X; reflexivity|]. intros x xs fs1 Hp Hg. rewrite Hp, Hg in X. cbn [negb] in X.
    split; [intros fs2 Hr; rewrite Hr in X; apply X; reflexivity|]. split; [intros fs2 Hr; rewrite Hr in X; apply X; reflexivity|]. intros name p fs2 Hr. rewrite Hr in X.
    split; [intro Hs; rewrite Hs in X; apply X; reflexivity|]. intros sp Hs. rewrite Hs in X. split; [intro Hm; rewrite Hm in X; apply X; reflexivity|]. intro Hm. rewrite Hm in X. cbn [negb] in X.
    split; [intro Hq; rewrite Hq in X; apply X; reflexivity|]. split; [intro Hq; rewrite Hq in X; apply X; reflexivity|].
    split; [intros Hk Hn; destruct (w_packages w sp fs2) as [[|y ys]|]; [contradiction| |]; rewrite ?Hk in X; apply X; reflexivity|].
    intros y ys Hq Hk Hn. clear X. assert (E : parse_input w (op_svcout o) protos fs = FGo fs2 (mkCfg files dir sp (to_lower name) p)).
    { unfold parse_input. fold gopath. rewrite Hf. fold dir. rewrite Hp, Hg. cbn [negb]. rewrite Hr, Hs, Hm. cbn [negb]. rewrite Hq, Hk. reflexivity. }
    destruct R as [fs' z K|g' c' K N|g' c' sd' p' K K2 Ks|g' c' sd' p' svc' l ops fin K K2 Ks root' Hw Hd HR]; rewrite E in K; try discriminate; injection K as <- <-;
      cbn [cf_files cf_pb_path cf_svc_path cf_process] in *; [split; reflexivity|destruct (Hn _ _ K2)|destruct (Hn _ _ K2)].
  Qed.
End Not.
Lemma exit_run : forall tmpl parse_go print_go format_source w o protos fs g z0 fs2 z, parse_input w (op_svcout o) protos fs = FExit g z0 -> baron_run tmpl parse_go print_go format_source w o protos fs fs2 z -> fs2 = g /\ z = z0.
Proof.
  intros tmpl parse_go print_go format_source w o protos fs g z0 fs2 z E R. destruct R as [fs' z K|g' c' K N|g' c' sd' p' K K2 Ks|g' c' sd' p' svc' l ops fin K K2 Ks root' Hw Hd HR]; rewrite E in K; try discriminate. injection K as <- <-. split; reflexivity.
Qed.
(** A .proto file that protoc compiles but baron's own parser refuses: the status is zero, and there is no service. *)
Definition plain_grpc : gofile := mkGo (T "pb") [GDGen [mkTS (T "SServer") (TIface [PropSvcdef.unary_method "N" "B" "C"])]].
Definition refused_text : str := T "service S { option deprecated = true; rpc N(B) returns (C); }".
Theorem c76_refused_proto_silent : forall tmpl parse_go print_go format_source, exists w fs fs', setting w [T "s.proto"] [T "w"] [T "w"] [T "s"] [[T "go"]] [T "tmp"; T "x"] fs /\ fs [T "w"; T "s.proto"] = Some refused_text /\
  baron_run tmpl parse_go print_go format_source w opts0 [T "s.proto"] fs fs' true /\ (forall fs2 z, baron_run tmpl parse_go print_go format_source w opts0 [T "s.proto"] fs fs2 z -> z = true /\ forall q, ~ pb_files [T "w"] [T "s"] q -> fs2 q = fs q).
Proof.
  intros tmpl parse_go print_go format_source. set (w := ex_world (Some (T "/tmp/x")) [T "m"] [(T "PB", PropNewDef.ex_pb); (T "GRPC", plain_grpc)] ex_outs (fun _ l => l)). set (fs := disk_of [([T "w"; T "s.proto"], refused_text)]).
  assert (SE : setting w [T "s.proto"] [T "w"] [T "w"] [T "s"] [[T "go"]] [T "tmp"; T "x"] fs) by (refine (ex_setting _ _ _ _ _ [T "s"] fs _ _ _ _ _ _); [right; reflexivity|discriminate|reflexivity|vm_compute; reflexivity|intros; apply Permutation_refl|reflexivity]).
  assert (D : fs [T "w"; T "s.proto"] = Some refused_text) by reflexivity.
  assert (C : match parse_input w (op_svcout opts0) [T "s.proto"] fs with FExit _ z => z | FGo _ _ => false end = true) by (vm_compute; reflexivity).
  clearbody w fs. pose proof (front_of w _ _ _ _ _ _ fs SE (op_svcout opts0)) as F.
  destruct (parse_input w (op_svcout opts0) [T "s.proto"] fs) as [g z|g c] eqn:E; [|discriminate]. subst z. exists w, fs, g. split; [exact SE|]. split; [exact D|]. split; [apply RunFront; exact E|].
  intros fs2 z R. destruct (exit_run _ _ _ _ _ _ _ _ _ _ _ _ E R) as [-> ->]. split; [reflexivity|exact F].
Qed.
(** A world in which all goes well, but for what the definition is. *)
Definition found_def (w : world) (protos : list str) (fs : disk) : option (config * service) :=
  match parse_input w (op_svcout opts0) protos fs with
  | FGo g c => match new_from w 2 (cf_process c) g (cf_pb_path c) (cf_files c) with Some (NewOk sd _) => match sd_service sd with Some sv => Some (c, sv) | None => None end | _ => None end
  | FExit _ _ => None
  end.
Lemma ex_run : forall parse_go print_go format_source w protos d names t fs c sv, setting w protos [T "w"] d names [[T "go"]] t fs -> found_def w protos fs = Some (c, sv) ->
  (forall q, ~ pb_files d names (goes [T "w"] (cf_svc_path c) ++ q) /\ fs (goes [T "w"] (cf_svc_path c) ++ q) = None) ->
  exists fs', baron_run ex_templates parse_go print_go format_source w opts0 protos fs fs' true /\ forall p, In p (all_files (to_lower (sv_name sv)) false) -> fs' (goes [T "w"] (cf_svc_path c) ++ p) <> None.
Proof.
  intros parse_go print_go format_source w protos d names t fs c sv SE Hf Hr. unfold found_def in Hf. pose proof (front_of w _ _ _ _ _ _ fs SE (op_svcout opts0)) as F. destruct (parse_input w (op_svcout opts0) protos fs) as [|g c'] eqn:E; [discriminate|].
  destruct (new_from w 2 (cf_process c') g (cf_pb_path c') (cf_files c')) as [[sd p2| |]|] eqn:E2; try discriminate. destruct (sd_service sd) as [sv'|] eqn:Es; [|discriminate]. injection Hf as -> ->. destruct F as (F & EF & EP & name & g1 & Esp & En & _).
  destruct (se_cwd _ _ _ _ _ _ _ _ SE) as [Ec Pc]. assert (Er : at_path (fp_abs (w_cwd w) (cf_svc_path c)) = goes [T "w"] (cf_svc_path c)) by (rewrite Ec; apply at_abs; exact Pc).
  assert (Hd : on_disk g (goes [T "w"] (cf_svc_path c)) (NDir [])) by (intro rel; destruct (Hr rel) as [H1 H2]; rewrite (F _ H1), H2; destruct rel; reflexivity). assert (Hw : wf_node (NDir [])) by (constructor; constructor).
  destruct (run_exists (w_upper w) (ex_templates sd opts0) parse_go print_go format_source g (goes [T "w"] (cf_svc_path c)) (at_path (fp_join [cf_pb_path c; baron_file_name (hd [] (cf_files c))])) (data_of sv false) (read_previous_generation (last (goes [T "w"] (cf_svc_path c)) []) (cf_name c) (NDir []))) as [ops HR].
  - intros x _. discriminate.
  - intros b K. exfalso. unfold read_previous_generation in K. cbn [walk] in K. destruct (walked _ _ _); discriminate.
  - exists (run_ops g ops). assert (R : baron_run ex_templates parse_go print_go format_source w opts0 protos fs (run_ops g ops) true) by (eapply RunGenerate; [exact E|exact E2|exact Es|exact Hw|rewrite Er; exact Hd|rewrite Er; exact HR]). split; [exact R|].
    intros p Hp. rewrite EF, EP in E2, HR. rewrite (baron_path_of w _ _ _ _ _ _ fs SE) in HR. destruct (new_from_facts w _ _ _ _ _ _ fs SE _ _ _ _ _ _ sv F E2 Es) as [Hsl _].
    destruct (finished_run _ _ _ _ _ g (goes [T "w"] (cf_svc_path c)) d (hd [] names) (data_of sv false) _ ops true (lower_free _ Hsl) HR eq_refl) as (m & b & _ & _ & Hall & _). destruct (Hall p Hp) as [-> K]. exact K.
Qed.
(** Two .proto files with a service each: the directory can be named after the one and the code be that of the other. *)
Definition two_grpc (n : string) : gofile := mkGo (T "pb") [GDGen [mkTS (T n) (TIface [PropSvcdef.unary_method "N" "B" "C"])]].
Theorem c76_two_services_refuted : forall parse_go print_go format_source, exists w fs fs', setting w [T "a.proto"; T "b.proto"] [T "w"] [T "w"] [T "a"; T "b"] [[T "go"]] [T "tmp"; T "x"] fs /\
  fs [T "w"; T "a.proto"] = Some (T "service A { rpc N(B) returns (C); }") /\ fs [T "w"; T "b.proto"] = Some (T "service B { rpc N(B) returns (C); }") /\
  baron_run ex_templates parse_go print_go format_source w opts0 [T "a.proto"; T "b.proto"] fs fs' true /\ fs' [T "w"; T "b-service"; T "cmd"; T "a"; T "main.go"] <> None.
Proof.
  intros parse_go print_go format_source. set (w := ex_world (Some (T "/tmp/x")) [T "m"] [(T "PB", PropNewDef.ex_pb); (T "PB2", mkGo (T "pb") []); (T "A", two_grpc "AServer"); (T "B", two_grpc "BServer")]
    [(T "a.proto", (T "PB", Some (T "A"))); (T "b.proto", (T "PB2", Some (T "B")))] (fun k l => if Nat.eqb k 2 then rev l else l)).
  set (fs := disk_of [([T "w"; T "a.proto"], T "service A { rpc N(B) returns (C); }"); ([T "w"; T "b.proto"], T "service B { rpc N(B) returns (C); }")]).
  assert (SE : setting w [T "a.proto"; T "b.proto"] [T "w"] [T "w"] [T "a"; T "b"] [[T "go"]] [T "tmp"; T "x"] fs).
  { refine (ex_setting _ _ _ _ _ [T "a"; T "b"] fs _ _ _ _ _ _); [right; reflexivity|discriminate|reflexivity|vm_compute; reflexivity| |reflexivity]. intros k l. destruct (Nat.eqb k 2); [apply Permutation_rev|apply Permutation_refl]. }
  assert (C : match found_def w [T "a.proto"; T "b.proto"] fs with Some (c, sv) => str_eqb (cf_svc_path c) (T "/w/b-service") && str_eqb (sv_name sv) (T "A") | None => false end = true) by (vm_compute; reflexivity).
  assert (D1 : fs [T "w"; T "a.proto"] = Some (T "service A { rpc N(B) returns (C); }")) by reflexivity. assert (D2 : fs [T "w"; T "b.proto"] = Some (T "service B { rpc N(B) returns (C); }")) by reflexivity.
  assert (D3 : forall q, fs (goes [T "w"] (T "/w/b-service") ++ q) = None) by reflexivity. clearbody w fs.
  destruct (found_def w [T "a.proto"; T "b.proto"] fs) as [[c sv]|] eqn:E; [|discriminate]. apply andb_true_iff in C. destruct C as [C1 C2]. destruct (str_eqb_spec (cf_svc_path c) (T "/w/b-service")) as [C1'|]; [|discriminate]. destruct (str_eqb_spec (sv_name sv) (T "A")) as [C2'|]; [|discriminate]. clear C1 C2.
  destruct (ex_run parse_go print_go format_source w _ _ _ _ fs c sv SE E) as (fs' & R & Hp).
  - intro q. rewrite C1'. split; [intros (n & [<-|[<-|[]]] & [K|K]); discriminate|apply D3].
  - exists w, fs, fs'. split; [exact SE|]. split; [exact D1|]. split; [exact D2|]. split; [exact R|]. rewrite C1', C2' in Hp. apply (Hp [T "cmd"; T "a"; T "main.go"]). cbn. tauto.
Qed.
(** A _grpc.pb.go file that an earlier run left beside a .proto file which has no service now is read again: the code has an rpc that is in no .proto file. *)
Definition old_grpc : gofile := mkGo (T "pb") [GDGen [mkTS (T "SServer") (TIface [PropSvcdef.unary_method "N" "B" "C"; PropSvcdef.unary_method "Gone" "B" "C"])]].
Theorem c76_old_grpc_read_refuted : exists w fs c sv, setting w [T "a.proto"; T "b.proto"] [T "w"] [T "w"] [T "a"; T "b"] [[T "go"]] [T "tmp"; T "x"] fs /\
  (forall q b, fs q = Some b -> q = [T "w"; T "a.proto"] /\ b = T "service S { rpc N(B) returns (C); }" \/ q = [T "w"; T "b.proto"] /\ b = T "message B { }" \/ q = [T "w"; T "b_grpc.pb.go"]) /\
  found_def w [T "a.proto"; T "b.proto"] fs = Some (c, sv) /\ In (T "Gone") (map sm_name (sv_methods sv)) /\
  forall parse_go print_go format_source, exists fs', baron_run ex_templates parse_go print_go format_source w opts0 [T "a.proto"; T "b.proto"] fs fs' true.
Proof.
  set (w := ex_world (Some (T "/tmp/x")) [T "m"] [(T "PB", PropNewDef.ex_pb); (T "PB2", mkGo (T "pb") []); (T "S", plain_grpc); (T "OLD", old_grpc)] [(T "a.proto", (T "PB", Some (T "S"))); (T "b.proto", (T "PB2", None))] (fun _ l => l)).
  set (fs := disk_of [([T "w"; T "a.proto"], T "service S { rpc N(B) returns (C); }"); ([T "w"; T "b.proto"], T "message B { }"); ([T "w"; T "b_grpc.pb.go"], T "OLD")]).
  assert (SE : setting w [T "a.proto"; T "b.proto"] [T "w"] [T "w"] [T "a"; T "b"] [[T "go"]] [T "tmp"; T "x"] fs) by (refine (ex_setting _ _ _ _ _ [T "a"; T "b"] fs _ _ _ _ _ _); [right; reflexivity|discriminate|reflexivity|vm_compute; reflexivity|intros; apply Permutation_refl|reflexivity]).
  assert (C : match found_def w [T "a.proto"; T "b.proto"] fs with Some (c, sv) => str_eqb (cf_svc_path c) (T "/w/s-service") && existsb (str_eqb (T "Gone")) (map sm_name (sv_methods sv)) | None => false end = true) by (vm_compute; reflexivity).
  assert (D3 : forall q, fs (goes [T "w"] (T "/w/s-service") ++ q) = None) by reflexivity.
  assert (D1 : forall q b, fs q = Some b -> q = [T "w"; T "a.proto"] /\ b = T "service S { rpc N(B) returns (C); }" \/ q = [T "w"; T "b.proto"] /\ b = T "message B { }" \/ q = [T "w"; T "b_grpc.pb.go"]).
  { intros q b K. unfold fs, disk_of in K. cbn [find fst] in K. repeat match type of K with context [path_eqb q ?p] => destruct (path_eqb_spec q p) as [->|_]; [injection K as <-; cbn [snd]; auto|cbn iota in K] end. discriminate. }
  clearbody w fs.
  destruct (found_def w [T "a.proto"; T "b.proto"] fs) as [[c sv]|] eqn:E; [|discriminate]. apply andb_true_iff in C. destruct C as [C1 C2]. destruct (str_eqb_spec (cf_svc_path c) (T "/w/s-service")) as [C1'|]; [|discriminate].
  exists w, fs, c, sv. split; [exact SE|]. split; [exact D1|split; [exact E|split]].
  - apply existsb_exists in C2. destruct C2 as (x & Hx & K). destruct (str_eqb_spec (T "Gone") x) as [->|]; [exact Hx|discriminate].
  - intros parse_go print_go format_source. destruct (ex_run parse_go print_go format_source w _ _ _ _ fs c sv SE E) as (fs' & R & _); [|exists fs'; exact R]. intro q. rewrite C1'. split; [intros (n & [<-|[<-|[]]] & [K|K]); discriminate|apply D3].
Qed.
Print Assumptions c76_no_package_silent.
Print Assumptions c76_protoc_fails.
Print Assumptions c76_no_temp_silent.
Print Assumptions c76_refused_proto_silent.
Print Assumptions c76_two_services_refuted.
Print Assumptions c76_old_grpc_read_refuted.
