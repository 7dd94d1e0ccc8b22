(** Property theorems C75: what baron asks of protoc, and where the Go files are. *)
From Verif Require Import GoStr GoStrProofs GoMap Server SplitJoin Generator GeneratorProofs GeneratorProofs2 PropGenerator Paths PathsSpec PathsProofs PropPaths Protoc ProtocSpec ProtocProofs.

(** ** C75 *)
(** protoc is asked for the files that were given, in their order, and no others; to look for imports beside them, then along GOPATH; and to write into the one directory. *)
Theorem c75_request : forall d names gps o, names <> [] -> Forall tame d -> Forall (fun n => ~ In c_slash n) names -> Forall (Forall tame) gps -> Forall tame o ->
  exists r, protoc_request (protoc_args (map (fun n => text_of (d ++ [proto_file n])) names) (map text_of gps) (go_code_args (text_of o))) = Some r /\
    rq_inputs r = map (fun n => text_of (d ++ [proto_file n])) names /\
    map snd (rq_path r) = map text_of (import_dirs d gps) /\ Forall (fun p => fst p = []) (rq_path r) /\
    rq_outs r = [(T "go", [], text_of o); (T "go-grpc", [], text_of o)] /\
    rq_opts r = [(T "go", T "paths=source_relative"); (T "go-grpc", T "paths=source_relative")].
Proof.
  intros d names gps o Hne Hd Hn Hg Ho. destruct names as [|n ns]; [congruence|]. eexists. split; [exact (request_of d n ns gps o Hd Hn Hg Ho)|]. cbn [rq_inputs rq_path rq_outs rq_opts]. split; [reflexivity|].
  split; [rewrite map_map; reflexivity|]. split; [|split; reflexivity]. apply Forall_map, Forall_forall. intros x _. reflexivity.
Qed.
Print Assumptions c75_request.

(** So an import is the first of these files that there is. *)
Theorem c75_imports : forall d names gps o r i fs b, names <> [] -> Forall tame d -> Forall (fun n => ~ In c_slash n) names -> Forall (Forall tame) gps -> Forall tame o ->
  protoc_request (protoc_args (map (fun n => text_of (d ++ [proto_file n])) names) (map text_of gps) (go_code_args (text_of o))) = Some r ->
  i <> [] -> Forall plain i -> (resolve (rq_path r) (join [c_slash] i) fs = Some b <-> found fs i (import_dirs d gps) b).
Proof.
  intros d names gps o r i fs b Hne Hd Hn Hg Ho E Hi Pi. destruct names as [|n ns]; [congruence|]. pose proof (eq_trans (eq_sym E) (request_of d n ns gps o Hd Hn Hg Ho)) as E'. assert (EP : rq_path r = map (fun d => ([], text_of d)) (import_dirs d gps)) by (injection E' as ->; reflexivity). rewrite EP. clear E E' EP.
  assert (A : Forall (Forall plain) (import_dirs d gps)).
  { constructor; [exact (proj1 (tame_text d Hd))|]. apply Forall_forall. intros x K. apply in_flat_map in K. destruct K as (g & Kg & K). rewrite Forall_forall in Hg. pose proof (proj1 (tame_text g (Hg g Kg))) as Pg. pose proof (proj1 (tame_text _ lit_tame)) as L.
    destruct K as [<-|[<-|[]]]; apply Forall_app; (split; [exact Pg|]); [constructor; [inversion L; assumption|constructor]|exact L]. }
  assert (J : forall x, Forall plain x -> at_path (fp_join [text_of x; join [c_slash] i]) = x ++ i).
  { intros x Hx. destruct (join2 (text_of x) (join [c_slash] i) (text_abs x)) as [J _]. rewrite J. rewrite (text_of_goes x Hx), split_join; [|exact Hi|eapply Forall_impl; [|exact Pi]; intros e (_ & _ & _ & K); exact K]. rewrite (go_plain i x Pi). apply at_text. apply Forall_app. split; assumption. }
  clear - A J. revert A. generalize (import_dirs d gps). intros dirs A. induction A as [|x l Hx _ IH]; cbn [map resolve]; [split; [discriminate|intro K; inversion K]|]. rewrite (J x Hx). destruct (fs (x ++ i)) as [c|] eqn:Ef.
  - split; [intros [= ->]; constructor; exact Ef|]. intro K. inversion K as [? ? ? K1|? ? ? K1 K2]; congruence.
  - rewrite IH. split; [intro K; apply FoundLater; assumption|]. intro K. inversion K as [? ? ? K1|? ? ? K1 K2]; [congruence|exact K2].
Qed.
Print Assumptions c75_imports.

Section C.
  Variable compile : list (str * str) -> list str -> disk -> option (str -> bytes * option bytes).
  Variable has_program : str -> bool.
  Notation generate_pb := (generate_pb compile has_program).
  (** If GeneratePBDotGo reports no error, there is a .pb.go file for every .proto file, by the name under which baron looks for it, a
      _grpc.pb.go file for those with a service, and nothing else has changed; if it reports an error nothing has changed. *)
  Theorem c75_outputs : forall d names gps o fs fs' ok, names <> [] -> Forall tame d -> Forall (fun n => ~ In c_slash n) names -> Forall (Forall tame) gps -> Forall tame o ->
    generate_pb (map (fun n => text_of (d ++ [proto_file n])) names) (map text_of gps) (text_of o) fs = (fs', ok) ->
    (ok = false /\ fs' = fs) \/
    (ok = true /\ exists outs, compile (map (fun x => ([], text_of x)) (import_dirs d gps)) (map proto_file names) fs = Some outs /\
       (forall n, In n names -> fs' (o ++ [go_file n]) = Some (fst (outs (proto_file n)))) /\
       (forall n b, In n names -> snd (outs (proto_file n)) = Some b -> fs' (o ++ [grpc_file n]) = Some b) /\
       (forall q, (forall n, In n names -> q <> o ++ [go_file n]) -> (forall n b, In n names -> snd (outs (proto_file n)) = Some b -> q <> o ++ [grpc_file n]) -> fs' q = fs q)).
  Proof.
    intros d names gps o fs fs' ok Hne Hd Hn Hg Ho E. unfold Protoc.generate_pb in E.
    destruct (has_program (T "protoc-gen-go")); [|injection E as <- <-; auto]. destruct (has_program (T "protoc-gen-go-grpc")); [|injection E as <- <-; auto]. destruct (has_program (T "protoc")); [|injection E as <- <-; auto]. cbn [negb] in E.
    destruct names as [|n0 ns]; [congruence|]. unfold run_protoc in E. rewrite (request_of d n0 ns gps o Hd Hn Hg Ho) in E. set (names := n0 :: ns) in *.
    match type of E with (if ?c then _ else _) = _ => change c with true in E end. cbn iota in E. cbn [import_dirs map] in E.
    assert (Pn : Forall plain (map proto_file names)) by (apply Forall_map; eapply Forall_impl; [|exact Hn]; intros n K; apply plain_proto; exact K).
    pose proof (virtual_here d (map (fun d0 => ([], text_of d0)) (flat_map (fun g => [g ++ [T "src"]; g ++ [T "src"; T "github.com"; T "teamlint"; T "baron"; T "third_party"; T "googleapis"]]) gps)) (map proto_file names) Pn) as V.
    rewrite map_map in V. rewrite V in E. clear V. destruct (compile _ (map proto_file names) fs) as [outs|] eqn:Ec in E; [|injection E as <- <-; auto].
    set (files := map (go_out outs (text_of o)) (once (map proto_file names)) ++ flat_map (grpc_out outs (text_of o)) (once (map proto_file names))) in *.
    destruct (distinct (map fst files)) eqn:Ed; [|injection E as <- <-; auto]. injection E as <- <-. right. split; [reflexivity|]. exists outs. split; [exact Ec|]. apply distinct_iff in Ed. destruct (tame_text o Ho) as (Po & _ & _).
    assert (G1 : forall n, In n names -> go_out outs (text_of o) (proto_file n) = (o ++ [go_file n], fst (outs (proto_file n)))).
    { intros n Hi. rewrite Forall_forall in Hn. specialize (Hn n Hi). unfold go_out. rewrite (prefix_proto n Hn). f_equal. apply (at_join o (go_file n) Po (plain_go n Hn)). }
    assert (G2 : forall n, In n names -> grpc_out outs (text_of o) (proto_file n) = match snd (outs (proto_file n)) with Some b => [(o ++ [grpc_file n], b)] | None => [] end).
    { intros n Hi. rewrite Forall_forall in Hn. specialize (Hn n Hi). unfold grpc_out. destruct (snd (outs (proto_file n))) as [b|]; [|reflexivity]. rewrite (prefix_proto n Hn). do 2 f_equal. apply (at_join o (grpc_file n) Po (plain_grpc n Hn)). }
    assert (M : forall n, In n names -> In (proto_file n) (once (map proto_file names))) by (intros n Hi; apply once_in, in_map; exact Hi).
    split; [|split].
    - intros n Hi. apply puts_in; [exact Ed|]. apply in_or_app. left. pose proof (in_map (go_out outs (text_of o)) _ _ (M n Hi)) as Q. rewrite (G1 n Hi) in Q. exact Q.
    - intros n b Hi Hb. apply puts_in; [exact Ed|]. apply in_or_app. right. apply in_flat_map. exists (proto_file n). split; [exact (M n Hi)|]. rewrite (G2 n Hi), Hb. left. reflexivity.
    - intros q H1 H2. apply puts_out. intro K. unfold files in K. rewrite map_app in K. apply in_app_or in K. destruct K as [K|K].
      + rewrite map_map in K. apply in_map_iff in K. destruct K as (v & Ev & K). apply once_in, in_map_iff in K. destruct K as (n & <- & Hi). rewrite (G1 n Hi) in Ev. apply (H1 n Hi). symmetry. exact Ev.
      + apply in_map_iff in K. destruct K as ([p b] & Ev & K). apply in_flat_map in K. destruct K as (v & Kv & K). apply once_in, in_map_iff in Kv. destruct Kv as (n & <- & Hi). rewrite (G2 n Hi) in K.
        destruct (snd (outs (proto_file n))) as [c|] eqn:Es; [|destruct K]. destruct K as [K|[]]. injection K as <- <-. apply (H2 n c Hi Es). symmetry. exact Ev.
  Qed.
  (** And it reports no error if the programs are there, the files compile, and there is no a_grpc.proto beside an a.proto with a service. *)
  Theorem c75_no_error : forall d names gps o fs outs, names <> [] -> Forall tame d -> Forall (fun n => ~ In c_slash n) names -> Forall (Forall tame) gps -> Forall tame o ->
    has_program (T "protoc-gen-go") = true -> has_program (T "protoc-gen-go-grpc") = true -> has_program (T "protoc") = true ->
    compile (map (fun x => ([], text_of x)) (import_dirs d gps)) (map proto_file names) fs = Some outs ->
    (forall n n', In n names -> In n' names -> snd (outs (proto_file n)) <> None -> n' <> n ++ T "_grpc") ->
    snd (generate_pb (map (fun n => text_of (d ++ [proto_file n])) names) (map text_of gps) (text_of o) fs) = true.
  Proof.
    intros d names gps o fs outs Hne Hd Hn Hg Ho P1 P2 P3 Ec Hc. unfold Protoc.generate_pb. rewrite P1, P2, P3. cbn [negb].
    destruct names as [|n0 ns]; [congruence|]. unfold run_protoc. rewrite (request_of d n0 ns gps o Hd Hn Hg Ho). set (names := n0 :: ns) in *.
    match goal with |- snd (if ?c then _ else _) = _ => change c with true end. cbn iota. cbn [import_dirs map] in *.
    assert (Pn : Forall plain (map proto_file names)) by (apply Forall_map; eapply Forall_impl; [|exact Hn]; intros n K; apply plain_proto; exact K).
    pose proof (virtual_here d (map (fun d0 => ([], text_of d0)) (flat_map (fun g => [g ++ [T "src"]; g ++ [T "src"; T "github.com"; T "teamlint"; T "baron"; T "third_party"; T "googleapis"]]) gps)) (map proto_file names) Pn) as V.
    rewrite map_map in V. rewrite V, Ec. clear V. destruct (tame_text o Ho) as (Po & _ & _).
    assert (D : forall x, In x (once (map proto_file names)) -> exists n, x = proto_file n /\ In n names) by (intros x K; apply once_in, in_map_iff in K; destruct K as (n & <- & K); eauto).
    assert (S : forall n, In n names -> ~ In c_slash n) by (intros n K; rewrite Forall_forall in Hn; exact (Hn n K)).
    assert (G1 : forall n, In n names -> fst (go_out outs (text_of o) (proto_file n)) = o ++ [go_file n]).
    { intros n Hi. unfold go_out. cbn [fst]. rewrite (prefix_proto n (S n Hi)). apply (at_join o (go_file n) Po (plain_go n (S n Hi))). }
    assert (G2 : forall n, In n names -> grpc_out outs (text_of o) (proto_file n) = match snd (outs (proto_file n)) with Some b => [(o ++ [grpc_file n], b)] | None => [] end).
    { intros n Hi. unfold grpc_out. destruct (snd (outs (proto_file n))) as [b|]; [|reflexivity]. rewrite (prefix_proto n (S n Hi)). do 2 f_equal. apply (at_join o (grpc_file n) Po (plain_grpc n (S n Hi))). }
    assert (ND : NoDup (once (map proto_file names))).
    { clear. induction (map proto_file names) as [|x l IH]; cbn [once]; [constructor|]. destruct (existsb (str_eqb x) l) eqn:E; [exact IH|]. constructor; [|exact IH]. rewrite once_in. intro K.
      assert (existsb (str_eqb x) l = true) by (apply existsb_exists; exists x; split; [exact K|apply str_eqb_refl]). congruence. }
    match goal with |- context [distinct ?l] => assert (Q : distinct l = true) end; [|rewrite Q; reflexivity]. apply distinct_iff. rewrite map_app.
    revert ND D. generalize (once (map proto_file names)). intros l ND D.
    assert (I1 : forall a b, In a names -> In b names -> o ++ [go_file a] = o ++ [go_file b] -> a = b) by (intros a b _ _ K; apply app_inv_head in K; injection K as K; apply app_inv_tail in K; exact K).
    assert (I2 : forall a b, o ++ [grpc_file a] = o ++ [grpc_file b] -> a = b) by (intros a b K; apply app_inv_head in K; injection K as K; apply app_inv_tail in K; exact K).
    assert (I3 : forall a b, o ++ [go_file a] = o ++ [grpc_file b] -> a = b ++ T "_grpc").
    { intros a b K. apply app_inv_head in K. injection K as K. unfold go_file, grpc_file in K. change (T "_grpc.pb.go") with (T "_grpc" ++ T ".pb.go") in K. rewrite app_assoc in K. apply app_inv_tail in K. exact K. }
    assert (X : forall l1 l2, (forall q, In q l1 -> In q l2 -> False) -> NoDup l1 -> NoDup l2 -> NoDup (l1 ++ l2 : list path)).
    { clear. induction l1 as [|x l1 IH]; intros l2 H H1 H2; [exact H2|]. inversion H1 as [|y z K1 K2]; subst. cbn [app]. constructor; [|apply IH; [intros q A B; exact (H q (or_intror A) B)|exact K2|exact H2]]. intro K. apply in_app_or in K. destruct K as [K|K]; [exact (K1 K)|exact (H x (or_introl eq_refl) K)]. }
    apply X.
    - intros q A B. rewrite map_map in A. apply in_map_iff in A. destruct A as (v & <- & A). destruct (D v A) as (a & -> & Ha). rewrite (G1 a Ha) in B. apply in_map_iff in B. destruct B as ([p b] & Ep & B). apply in_flat_map in B. destruct B as (w & Hw & B). destruct (D w Hw) as (n & -> & Hi).
      rewrite (G2 n Hi) in B. destruct (snd (outs (proto_file n))) as [c|] eqn:Es; [|destruct B]. destruct B as [B|[]]. injection B as <- <-. cbn [fst] in Ep. symmetry in Ep. apply I3 in Ep. apply (Hc n a Hi Ha); [rewrite Es; discriminate|exact Ep].
    - clear X I2 I3 Hc Ec. rewrite map_map. induction ND as [|v l K1 K2 IH]; [constructor|]. cbn [map]. constructor; [|apply IH; intros x K; apply D; right; exact K].
      intro K. apply in_map_iff in K. destruct K as (w & Ew & Kw). destruct (D v (or_introl eq_refl)) as (a & -> & Ha). destruct (D w (or_intror Kw)) as (b & -> & Hb). rewrite (G1 a Ha), (G1 b Hb) in Ew. apply (I1 b a Hb Ha) in Ew. subst b. exact (K1 Kw).
    - clear X I1 I3 G1 Hc Ec. induction ND as [|v l K1 K2 IH]; [constructor|]. cbn [flat_map]. rewrite map_app. destruct (D v (or_introl eq_refl)) as (a & -> & Ha). rewrite (G2 a Ha). assert (IH' : NoDup (map fst (flat_map (grpc_out outs (text_of o)) l))) by (apply IH; intros x K; apply D; right; exact K).
      destruct (snd (outs (proto_file a))) as [c|]; [|exact IH']. cbn [map app fst]. constructor; [|exact IH']. intro K. apply in_map_iff in K. destruct K as ([p b] & Ep & K). apply in_flat_map in K. destruct K as (w & Kw & K). destruct (D w (or_intror Kw)) as (n & -> & Hi). rewrite (G2 n Hi) in K.
      destruct (snd (outs (proto_file n))) as [e|]; [|destruct K]. destruct K as [K|[]]. injection K as <- <-. cbn [fst] in Ep. apply I2 in Ep. subst n. exact (K1 Kw).
  Qed.
  (** The names are those under which the rest of baron looks for the files. *)
  Theorem c75_names : forall d n, ~ In c_slash n -> let p := text_of (d ++ [proto_file n]) in pb_file_name p = go_file n /\ grpc_pb_file_name p = grpc_file n.
  Proof.
    intros d n H p. assert (E : exists dd, p = dd ++ c_slash :: n ++ T ".proto") by (unfold p; rewrite text_snoc; destruct d as [|e d]; [exists []; reflexivity|exists (text_of (e :: d)); reflexivity]).
    destruct E as [dd ->]. destruct (proto_file_names dd n H) as (A & B & _). split; assumption.
  Qed.
  (** ** What is not so *)
  (** A directory with a colon in its name: protoc takes what comes before the colon for a parameter of the plugin, and baron fails. *)
  Theorem c75_colon_refuted : forall files gopath d fs, Exists (fun e => In c_colon e) d -> Forall (fun f => is_abs f = true) files ->
    generate_pb files gopath (text_of d) fs = (fs, false).
  Proof.
    intros files gopath d fs Hd Hf. unfold Protoc.generate_pb. destruct (has_program (T "protoc-gen-go")); [|reflexivity]. destruct (has_program (T "protoc-gen-go-grpc")); [|reflexivity]. destruct (has_program (T "protoc")); [|reflexivity]. cbn [negb].
    assert (C : In c_colon (join [c_slash] d)).
    { clear - Hd. induction Hd as [e d H|e d H IH].
      - destruct d as [|e2 d]; [exact H|]. change (join [c_slash] (e :: e2 :: d)) with (e ++ [c_slash] ++ join [c_slash] (e2 :: d)). apply in_or_app. left. exact H.
      - destruct d as [|e2 d]; [inversion H|]. change (join [c_slash] (e :: e2 :: d)) with (e ++ [c_slash] ++ join [c_slash] (e2 :: d)). apply in_or_app. right. right. exact IH. }
    destruct (cut_colon_in c_slash _ C) as (pa & da & Ec & Hpa). specialize (Hpa ltac:(discriminate)).
    assert (O : out_part (text_of d) = (pa, da)) by (unfold out_part; change (text_of d) with (c_slash :: join [c_slash] d); rewrite Ec; reflexivity).
    unfold run_protoc. destruct (protoc_request (protoc_args files gopath (go_code_args (text_of d)))) as [[ps ins os ops]|] eqn:E; [|reflexivity].
    assert (R : forall l r r', read_args (l ++ go_code_args (text_of d) ++ files) r = Some r' -> Forall (fun a => exists v, a = T "-I" ++ v \/ a = T "--proto_path=" ++ v \/ a = T "--experimental_allow_proto3_optional") l ->
       exists rest, rq_outs r' = rq_outs r ++ (T "go", pa, da) :: rest).
    { induction l as [|a l IH]; intros r r' Hr Hl.
      - cbn [app] in Hr. rewrite read_app in Hr. unfold go_code_args in Hr. cbn [read_args] in Hr.
        assert (E1 : forall r, read_arg (T "--go_out=" ++ text_of d) r = Some (mkReq (rq_path r) (rq_inputs r) (rq_outs r ++ [(T "go", pa, da)]) (rq_opts r))).
        { intros [a b c e]. unfold read_arg. change (drop_prefix (T "--proto_path=") (T "--go_out=" ++ text_of d)) with (@None str). change (drop_prefix (T "-I") (T "--go_out=" ++ text_of d)) with (@None str). cbn iota. rewrite drop_app, O. reflexivity. }
        assert (E2 : forall r, read_arg (T "--go-grpc_out=" ++ text_of d) r = Some (mkReq (rq_path r) (rq_inputs r) (rq_outs r ++ [(T "go-grpc", pa, da)]) (rq_opts r))).
        { intros [a b c e]. unfold read_arg. change (drop_prefix (T "--proto_path=") (T "--go-grpc_out=" ++ text_of d)) with (@None str). change (drop_prefix (T "-I") (T "--go-grpc_out=" ++ text_of d)) with (@None str).
          change (drop_prefix (T "--go_out=") (T "--go-grpc_out=" ++ text_of d)) with (@None str). cbn iota. rewrite drop_app, O. reflexivity. }
        rewrite E1 in Hr. match type of Hr with context [read_arg (T "--go_opt=paths=source_relative") ?r0] => change (read_arg (T "--go_opt=paths=source_relative") r0) with (Some (mkReq (rq_path r0) (rq_inputs r0) (rq_outs r0) (rq_opts r0 ++ [(T "go", T "paths=source_relative")]))) in Hr end.
        cbn iota in Hr. rewrite E2 in Hr. match type of Hr with context [read_arg (T "--go-grpc_opt=paths=source_relative") ?r0] => change (read_arg (T "--go-grpc_opt=paths=source_relative") r0) with (Some (mkReq (rq_path r0) (rq_inputs r0) (rq_outs r0) (rq_opts r0 ++ [(T "go-grpc", T "paths=source_relative")]))) in Hr end.
        cbn iota in Hr. rewrite (read_inputs files _ _ _ _ Hf) in Hr. injection Hr as <-. cbn [rq_outs rq_path rq_inputs rq_opts]. rewrite <- !app_assoc. eexists. reflexivity.
      - inversion Hl as [|x y (v & Hx) Hy]; subst. cbn [app read_args] in Hr. destruct (read_arg a r) as [r1|] eqn:Ea; [|discriminate]. assert (Q : rq_outs r1 = rq_outs r).
        { destruct r as [rp ri ro rs]. unfold read_arg in Ea. destruct Hx as [->|[->| ->]].
          - change (drop_prefix (T "--proto_path=") (T "-I" ++ v)) with (@None str) in Ea. cbn iota in Ea. rewrite drop_app in Ea. destruct v; [discriminate|]. injection Ea as <-. reflexivity.
          - rewrite drop_app in Ea. injection Ea as <-. reflexivity.
          - injection Ea as <-. reflexivity. }
        rewrite <- Q. apply (IH r1 r' Hr Hy). }
    unfold protoc_request, protoc_args in E. cbn [app] in E. rewrite app_comm_cons, app_comm_cons in E. apply R in E.
    - destruct E as (rest & E). cbn [rq_outs app] in E. subst os. destruct rest as [|[[g2 p2] d2] [|? ?]]; try reflexivity. destruct ops as [|[o1 x1] [|[o2 x2] [|? ?]]]; try reflexivity.
      destruct (str_eqb_spec pa []) as [K|_]; [contradiction|]. rewrite !andb_false_r. cbn [andb]. rewrite ?andb_false_r. reflexivity.
    - constructor; [exists []; auto|]. constructor; [eexists; right; left; reflexivity|]. apply Forall_forall. intros a K. apply in_flat_map in K. destruct K as (g & _ & K). destruct K as [<-|[<-|[]]]; eexists; left; reflexivity.
  Qed.
End C.
Print Assumptions c75_outputs.
Print Assumptions c75_no_error.
Print Assumptions c75_names.
Print Assumptions c75_colon_refuted.
(** A file with another extension: protoc keeps it in the name, baron does not look there. *)
Theorem c75_extension_refuted : go_prefix (T "shop.txt") ++ T ".pb.go" = T "shop.txt.pb.go" /\ pb_file_name (T "/p/shop.txt") = T "shop.pb.go".
Proof. split; reflexivity. Qed.
Print Assumptions c75_extension_refuted.

(** ** An example *)
Definition ex_compile (path : list (str * str)) (names : list str) (fs : disk) : option (str -> bytes * option bytes) :=
  Some (fun n => (T "go of " ++ n, if str_eqb n (T "a.proto") then Some (T "grpc of a") else None)).
Definition ex_disk : disk := fun q => if path_eqb q [T "p"; T "a.proto"] then Some (T "A") else if path_eqb q [T "go2"; T "src"; T "x"; T "y.proto"] then Some (T "Y2") else
  if path_eqb q [T "go1"; T "src"; T "github.com"; T "teamlint"; T "baron"; T "third_party"; T "googleapis"; T "x"; T "y.proto"] then Some (T "Y1") else None.
Example c75_example : protoc_args [T "/p/a.proto"; T "/p/b.proto"] [T "/go1"] (go_code_args (T "/p")) =
  [T "--experimental_allow_proto3_optional"; T "--proto_path=/p"; T "-I/go1/src"; T "-I/go1/src/github.com/teamlint/baron/third_party/googleapis"; T "--go_out=/p"; T "--go_opt=paths=source_relative";
   T "--go-grpc_out=/p"; T "--go-grpc_opt=paths=source_relative"; T "/p/a.proto"; T "/p/b.proto"].
Proof. reflexivity. Qed.
Example c75_example_run : let '(fs', ok) := generate_pb ex_compile (fun _ => true) [T "/p/a.proto"; T "/p/b.proto"] [T "/go1"; T "/go2"] (T "/p") ex_disk in
  ok = true /\ fs' [T "p"; T "a.pb.go"] = Some (T "go of a.proto") /\ fs' [T "p"; T "a_grpc.pb.go"] = Some (T "grpc of a") /\ fs' [T "p"; T "b.pb.go"] = Some (T "go of b.proto") /\ fs' [T "p"; T "b_grpc.pb.go"] = None /\ fs' [T "p"; T "a.proto"] = Some (T "A").
Proof. vm_compute. repeat split. Qed.
Example c75_example_import : found ex_disk [T "x"; T "y.proto"] (import_dirs [T "p"] [[T "go1"]; [T "go2"]]) (T "Y1").
Proof. apply FoundLater; [reflexivity|]. apply FoundLater; [reflexivity|]. apply FoundHere. reflexivity. Qed.
