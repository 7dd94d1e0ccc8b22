From Verif Require Import GoStr GoStrProofs GoMap Server SplitJoin Generator GeneratorProofs GeneratorProofs2 PropGenerator Paths PathsSpec PathsProofs PropPaths Protoc ProtocSpec.

Lemma drop_app : forall p s, drop_prefix p (p ++ s) = Some s.
Proof. intros p s. unfold drop_prefix. rewrite has_prefix_app. f_equal. rewrite skipn_app, skipn_all, Nat.sub_diag. reflexivity. Qed.
Lemma in_join : forall c l x, In x (join [c] l) -> x = c \/ exists e, In e l /\ In x e.
Proof.
  intros c l x. induction l as [|e l IH]; cbn [join]; [intros []|]. destruct l as [|e2 l]; [intro H; right; exists e; split; [left; reflexivity|exact H]|].
  intro H. apply in_app_or in H. destruct H as [H|H]; [right; exists e; split; [left; reflexivity|exact H]|]. apply in_app_or in H. destruct H as [[<-|[]]|H]; [left; reflexivity|].
  destruct (IH H) as [K|(y & K1 & K2)]; [left; exact K|right; exists y; split; [right; exact K1|exact K2]].
Qed.
Lemma text_free : forall c d, c <> c_slash -> Forall (fun e => ~ In c e) d -> ~ In c (text_of d).
Proof.
  intros c d Hc H [K|K]; [congruence|]. apply in_join in K. destruct K as [K|(e & K1 & K2)]; [congruence|]. rewrite Forall_forall in H. exact (H e K1 K2).
Qed.
Lemma cut_colon_none : forall s, ~ In c_colon s -> cut_colon s = (s, None).
Proof. induction s as [|c s IH]; intro H; cbn [cut_colon]; [reflexivity|]. destruct (N.eqb_spec c c_colon) as [->|_]; [elim H; left; reflexivity|]. rewrite IH by (intro K; apply H; right; exact K). reflexivity. Qed.
Lemma cut_eq_free : forall s, ~ In 61%N s -> cut_eq s = (s, None).
Proof. induction s as [|c s IH]; intro H; cbn [cut_eq]; [reflexivity|]. destruct (N.eqb_spec c 61) as [->|_]; [elim H; left; reflexivity|]. rewrite IH by (intro K; apply H; right; exact K). reflexivity. Qed.
Lemma cut_colon_in : forall a s, In c_colon s -> exists p d, cut_colon (a :: s) = (p, Some d) /\ (a <> c_colon -> p <> []).
Proof.
  intros a s H. revert a. induction s as [|c s IH]; intro a; [destruct H|]. cbn [cut_colon]. destruct (N.eqb_spec a c_colon) as [->|Ha]; [eexists _, _; split; [reflexivity|congruence]|].
  destruct (N.eqb_spec c c_colon) as [->|Hc]; [eexists _, _; split; [reflexivity|discriminate]|]. destruct H as [H|H]; [congruence|]. destruct (IH H c) as (p & d & E & _). cbn [cut_colon] in E. destruct (N.eqb_spec c c_colon); [congruence|]. rewrite E.
  eexists _, _; split; [reflexivity|discriminate].
Qed.
Lemma tame_text : forall d, Forall tame d -> Forall plain d /\ ~ In c_colon (text_of d) /\ ~ In 61%N (text_of d).
Proof.
  intros d H. split; [eapply Forall_impl; [|exact H]; intros e (K & _); exact K|]. split; (apply text_free; [discriminate|]); (eapply Forall_impl; [|exact H]); intros e (_ & K1 & K2); assumption.
Qed.
Lemma path_parts_text : forall d, Forall tame d -> path_parts (text_of d) = [([], text_of d)].
Proof.
  intros d H. destruct (tame_text d H) as (_ & H1 & H2). unfold path_parts. rewrite (split1_one c_colon _ H1). cbn [filter]. change (negb (str_eqb (text_of d) [])) with true. cbn [map]. unfold path_part. rewrite (cut_eq_free _ H2). reflexivity.
Qed.
Lemma out_part_text : forall d, Forall tame d -> out_part (text_of d) = ([], text_of d).
Proof. intros d H. destruct (tame_text d H) as (_ & H1 & _). unfold out_part. rewrite (cut_colon_none _ H1). reflexivity. Qed.
Lemma join_text : forall l d e, Forall plain d -> Forall plain (e :: l) -> fp_join (text_of d :: e :: l) = text_of (d ++ e :: l).
Proof.
  intros l d e Hd Hl. rewrite fp_join_cons by discriminate.
  assert (A : is_abs (join [c_slash] (text_of d :: e :: l)) = true) by (cbn [join]; apply abs_app; apply text_abs).
  destruct (clean_abs _ [] A) as [E _]. etransitivity; [exact E|]. f_equal. rewrite goes_joined by discriminate. rewrite (text_of_goes d Hd). clear E A. revert d Hd. generalize (e :: l) Hl. clear e l Hl. induction l as [|e l IH]; intros Hl d Hd; cbn [fold_left]; [symmetry; apply app_nil_r|].
  inversion Hl as [|x y Hx Hy]; subst. rewrite (split1_one c_slash e) by (destruct Hx as (_ & _ & _ & K); exact K). rewrite (go_plain [e] d) by (constructor; [exact Hx|constructor]).
  rewrite IH; [rewrite <- app_assoc; reflexivity|exact Hy|]. apply Forall_app. split; [exact Hd|constructor; [exact Hx|constructor]].
Qed.
Lemma lit_tame : Forall tame [T "src"; T "github.com"; T "teamlint"; T "baron"; T "third_party"; T "googleapis"].
Proof. repeat (apply Forall_cons; [repeat split; try discriminate; intro K; vm_compute in K; repeat destruct K as [K|K]; discriminate || contradiction|]). apply Forall_nil. Qed.
Lemma read_app : forall a b r, read_args (a ++ b) r = match read_args a r with Some r' => read_args b r' | None => None end.
Proof. induction a as [|x a IH]; intros b r; cbn [app read_args]; [reflexivity|]. destruct (read_arg x r); [apply IH|reflexivity]. Qed.
Lemma read_path : forall d ps ins os ops, Forall tame d -> read_arg (T "-I" ++ text_of d) (mkReq ps ins os ops) = Some (mkReq (ps ++ [([], text_of d)]) ins os ops).
Proof.
  intros d ps ins os ops H. unfold read_arg. change (drop_prefix (T "--proto_path=") (T "-I" ++ text_of d)) with (@None str). cbn iota. rewrite drop_app. rewrite <- (path_parts_text d H). reflexivity.
Qed.
Lemma read_first : forall d ps ins os ops, Forall tame d -> read_arg (T "--proto_path=" ++ text_of d) (mkReq ps ins os ops) = Some (mkReq (ps ++ [([], text_of d)]) ins os ops).
Proof. intros d ps ins os ops H. unfold read_arg. rewrite drop_app. rewrite (path_parts_text d H). reflexivity. Qed.
Lemma read_gopath : forall gps ps ins os ops, Forall (Forall tame) gps ->
  read_args (flat_map gopath_args (map text_of gps)) (mkReq ps ins os ops)
  = Some (mkReq (ps ++ map (fun d => ([], text_of d)) (flat_map (fun g => [g ++ [T "src"]; g ++ [T "src"; T "github.com"; T "teamlint"; T "baron"; T "third_party"; T "googleapis"]]) gps)) ins os ops).
Proof.
  intros gps ps ins os ops H. revert ps. induction H as [|g gps Hg _ IH]; intro ps; cbn [map flat_map read_args]; [rewrite app_nil_r; reflexivity|].
  pose proof lit_tame as L. assert (Hp : Forall plain g) by (exact (proj1 (tame_text g Hg))). assert (Lp : Forall plain [T "src"; T "github.com"; T "teamlint"; T "baron"; T "third_party"; T "googleapis"]) by (exact (proj1 (tame_text _ L))).
  unfold gopath_args at 1. rewrite (join_text [] g (T "src") Hp) by (constructor; [inversion Lp; assumption|constructor]). rewrite (join_text _ g (T "src") Hp Lp).
  rewrite read_app. cbn [read_args]. rewrite read_path by (apply Forall_app; split; [exact Hg|constructor; [inversion L; assumption|constructor]]). rewrite read_path by (apply Forall_app; split; [exact Hg|exact L]).
  rewrite IH. rewrite map_app, <- !app_assoc. reflexivity.
Qed.
Lemma read_input : forall f r, is_abs f = true -> read_arg f r = Some (mkReq (rq_path r) (rq_inputs r ++ [f]) (rq_outs r) (rq_opts r)).
Proof. intros f [ps ins os ops] H. apply is_abs_cons in H. destruct H as [t ->]. reflexivity. Qed.
Lemma read_inputs : forall fs ps ins os ops, Forall (fun f => is_abs f = true) fs -> read_args fs (mkReq ps ins os ops) = Some (mkReq ps (ins ++ fs) os ops).
Proof.
  intros fs ps ins os ops H. revert ins. induction H as [|f fs Hf _ IH]; intro ins; cbn [read_args]; [rewrite app_nil_r; reflexivity|]. rewrite (read_input f _ Hf). cbn [rq_path rq_inputs rq_outs rq_opts]. rewrite IH, <- app_assoc. reflexivity.
Qed.
Lemma read_outs : forall o ps ins os ops, Forall tame o -> read_args (go_code_args (text_of o)) (mkReq ps ins os ops)
  = Some (mkReq ps ins (os ++ [(T "go", [], text_of o); (T "go-grpc", [], text_of o)]) (ops ++ [(T "go", T "paths=source_relative"); (T "go-grpc", T "paths=source_relative")])).
Proof.
  intros o ps ins os ops H. unfold go_code_args. cbn [read_args].
  assert (E1 : forall r, read_arg (T "--go_out=" ++ text_of o) r = Some (mkReq (rq_path r) (rq_inputs r) (rq_outs r ++ [(T "go", [], text_of o)]) (rq_opts r))).
  { intros [a b c e]. unfold read_arg. change (drop_prefix (T "--proto_path=") (T "--go_out=" ++ text_of o)) with (@None str). change (drop_prefix (T "-I") (T "--go_out=" ++ text_of o)) with (@None str). cbn iota. rewrite drop_app, (out_part_text o H). reflexivity. }
  assert (E2 : forall r, read_arg (T "--go-grpc_out=" ++ text_of o) r = Some (mkReq (rq_path r) (rq_inputs r) (rq_outs r ++ [(T "go-grpc", [], text_of o)]) (rq_opts r))).
  { intros [a b c e]. unfold read_arg. change (drop_prefix (T "--proto_path=") (T "--go-grpc_out=" ++ text_of o)) with (@None str). change (drop_prefix (T "-I") (T "--go-grpc_out=" ++ text_of o)) with (@None str).
    change (drop_prefix (T "--go_out=") (T "--go-grpc_out=" ++ text_of o)) with (@None str). cbn iota. rewrite drop_app, (out_part_text o H). reflexivity. }
  rewrite E1. cbn [rq_path rq_inputs rq_outs rq_opts]. match goal with |- context [read_arg (T "--go_opt=paths=source_relative") ?r] => change (read_arg (T "--go_opt=paths=source_relative") r) with (Some (mkReq (rq_path r) (rq_inputs r) (rq_outs r) (rq_opts r ++ [(T "go", T "paths=source_relative")]))) end.
  cbn iota. cbn [rq_path rq_inputs rq_outs rq_opts]. rewrite E2. cbn [rq_path rq_inputs rq_outs rq_opts]. match goal with |- context [read_arg (T "--go-grpc_opt=paths=source_relative") ?r] => change (read_arg (T "--go-grpc_opt=paths=source_relative") r) with (Some (mkReq (rq_path r) (rq_inputs r) (rq_outs r) (rq_opts r ++ [(T "go-grpc", T "paths=source_relative")]))) end.
  cbn [rq_path rq_inputs rq_outs rq_opts]. rewrite <- !app_assoc. reflexivity.
Qed.

(** ** Names *)
Lemma text_snoc : forall d n, text_of (d ++ [n]) = match d with [] => [c_slash] ++ n | _ => text_of d ++ c_slash :: n end.
Proof.
  intros d n. destruct d as [|e d]; [reflexivity|]. unfold text_of. cbn [app]. f_equal. revert e. induction d as [|e2 d IH]; intro e; [reflexivity|].
  transitivity (e ++ [c_slash] ++ join [c_slash] (e2 :: d ++ [n])); [reflexivity|]. rewrite (IH e2). change (join [c_slash] (e :: e2 :: d)) with (e ++ [c_slash] ++ join [c_slash] (e2 :: d)). rewrite <- !app_assoc. reflexivity.
Qed.
Lemma mapping_here : forall d n, plain n -> apply_mapping (text_of d) [] (text_of (d ++ [n])) = Some n.
Proof.
  intros d n (Hn & _ & _ & Hs). unfold apply_mapping. rewrite text_snoc. destruct d as [|e d].
  - change (text_of []) with [c_slash]. rewrite drop_app. destruct n as [|c n]; [congruence|]. destruct (N.eqb_spec c c_slash) as [->|_]; [elim Hs; left; reflexivity|]. reflexivity.
  - rewrite drop_app. rewrite N.eqb_refl. reflexivity.
Qed.
Lemma virtual_here : forall d ps ns, Forall plain ns -> virtual_names (([], text_of d) :: ps) (map (fun n => text_of (d ++ [n])) ns) = Some ns.
Proof. intros d ps ns H. induction H as [|n ns Hn _ IH]; [reflexivity|]. cbn [map virtual_names]. rewrite IH. cbn [virtual_name]. rewrite (mapping_here d n Hn). reflexivity. Qed.
Lemma at_text : forall d, Forall plain d -> at_path (text_of d) = d.
Proof.
  intros d H. unfold at_path, text_of. change (c_slash :: join [c_slash] d) with ([] ++ c_slash :: join [c_slash] d). rewrite split1_app by (intros []). cbn [filter]. change (negb (str_eqb [] [])) with false. cbn iota.
  destruct d as [|e d]; [reflexivity|]. rewrite split_join; [|discriminate|eapply Forall_impl; [|exact H]; intros x (_ & _ & _ & K); exact K].
  induction H as [|x l Hx _ IH]; [reflexivity|]. cbn [filter]. destruct Hx as (Hx & _). destruct (str_eqb_spec x []) as [K|_]; [contradiction|]. cbn [negb]. f_equal. exact IH.
Qed.
Lemma at_join : forall d x, Forall plain d -> plain x -> at_path (fp_join [text_of d; x]) = d ++ [x].
Proof. intros d x Hd Hx. rewrite (join_text [] d x Hd) by (constructor; [exact Hx|constructor]). apply at_text. apply Forall_app. split; [exact Hd|constructor; [exact Hx|constructor]]. Qed.
Lemma plain_ext : forall n e, ~ In c_slash n -> ~ In c_slash e -> 3 <= length e -> plain (n ++ e).
Proof.
  intros n e Hn He Hl. assert (L : 3 <= length (n ++ e)) by (rewrite app_length; lia). repeat split; try (intro K; rewrite K in L; cbn in L; lia). intro K. apply in_app_or in K. tauto.
Qed.
Lemma lit_slash : ~ In c_slash (T ".proto") /\ ~ In c_slash (T ".pb.go") /\ ~ In c_slash (T "_grpc.pb.go").
Proof. repeat split; intro K; vm_compute in K; repeat destruct K as [K|K]; discriminate || contradiction. Qed.
Lemma plain_proto : forall n, ~ In c_slash n -> plain (proto_file n).
Proof. intros n H. apply plain_ext; [exact H|exact (proj1 lit_slash)|cbn; lia]. Qed.
Lemma plain_go : forall n, ~ In c_slash n -> plain (go_file n).
Proof. intros n H. apply plain_ext; [exact H|exact (proj1 (proj2 lit_slash))|cbn; lia]. Qed.
Lemma plain_grpc : forall n, ~ In c_slash n -> plain (grpc_file n).
Proof. intros n H. apply plain_ext; [exact H|exact (proj2 (proj2 lit_slash))|cbn; lia]. Qed.
Lemma base_here : forall n, ~ In c_slash n -> path_base n = n.
Proof. intros n H. unfold path_base. rewrite (split1_one c_slash n H). reflexivity. Qed.
Lemma prefix_proto : forall n, ~ In c_slash n -> go_prefix (proto_file n) = n.
Proof.
  intros n H. assert (E : path_ext (proto_file n) = T ".proto").
  { unfold path_ext. rewrite base_here by (destruct (plain_proto n H) as (_ & _ & _ & K); exact K). unfold proto_file. change (n ++ T ".proto") with (n ++ c_dot :: T "proto").
    destruct (last_dot n (T "proto")) as (E1 & a & b & l & E2); [intro K; vm_compute in K; repeat destruct K as [K|K]; discriminate || contradiction|]. rewrite E2 in *. rewrite E1. reflexivity. }
  unfold go_prefix. rewrite E. change (str_eqb (T ".proto") (T ".proto") || str_eqb (T ".proto") (T ".protodevel")) with true. cbn iota. unfold proto_file. apply trim_suffix_app.
Qed.
Lemma first_dir : forall d n, Forall plain d -> plain n -> abs_dir (text_of (d ++ [n])) = text_of d.
Proof. intros d n Hd Hn. apply abs_dir_spec. apply Forall_app. split; [|constructor; [|constructor]]; [eapply Forall_impl; [|exact Hd]|]; [intros x (_ & _ & _ & K); exact K|destruct Hn as (_ & _ & _ & K); exact K]. Qed.

(** ** The request *)
Lemma request_of : forall d n ns gps o, Forall tame d -> Forall (fun n => ~ In c_slash n) (n :: ns) -> Forall (Forall tame) gps -> Forall tame o ->
  protoc_request (protoc_args (map (fun n => text_of (d ++ [proto_file n])) (n :: ns)) (map text_of gps) (go_code_args (text_of o)))
  = Some (mkReq (map (fun d => ([], text_of d)) (import_dirs d gps)) (map (fun n => text_of (d ++ [proto_file n])) (n :: ns))
      [(T "go", [], text_of o); (T "go-grpc", [], text_of o)] [(T "go", T "paths=source_relative"); (T "go-grpc", T "paths=source_relative")]).
Proof.
  intros d n ns gps o Hd Hn Hg Ho. unfold protoc_request, protoc_args. destruct (tame_text d Hd) as (Pd & _ & _). inversion Hn as [|x y Hn1 _]; subst.
  assert (F : Forall (fun f => is_abs f = true) (map (fun n => text_of (d ++ [proto_file n])) (n :: ns))) by (apply Forall_map, Forall_forall; intros x _; apply text_abs).
  replace (abs_dir (hd [] (map (fun n => text_of (d ++ [proto_file n])) (n :: ns)))) with (text_of d) by (symmetry; apply first_dir; [exact Pd|apply plain_proto; exact Hn1]).
  rewrite read_app. change (read_args [T "--experimental_allow_proto3_optional"; T "--proto_path=" ++ text_of d] (mkReq [] [] [] [])) with (read_args [T "--proto_path=" ++ text_of d] (mkReq [] [] [] [])).
  cbn [read_args]. rewrite (read_first d _ _ _ _ Hd). cbn [app]. rewrite read_app, (read_gopath gps _ _ _ _ Hg). rewrite read_app, (read_outs o _ _ _ _ Ho). rewrite (read_inputs _ _ _ _ _ F). reflexivity.
Qed.

(** ** The files *)
Lemma once_in : forall l x, In x (once l) <-> In x l.
Proof.
  induction l as [|s l IH]; intro x; cbn [once]; [tauto|]. destruct (existsb (str_eqb s) l) eqn:E.
  - rewrite IH. cbn [In]. split; [auto|]. intros [<-|H]; [|exact H]. apply existsb_exists in E. destruct E as (y & Hy & E). apply str_eqb_eq in E. congruence.
  - cbn [In]. rewrite IH. tauto.
Qed.
Lemma distinct_iff : forall l, distinct l = true <-> NoDup l.
Proof.
  induction l as [|p l IH]; cbn [distinct]; [split; [constructor|reflexivity]|]. rewrite andb_true_iff, IH, negb_true_iff. split.
  - intros [H1 H2]. constructor; [|exact H2]. intro K. assert (E : existsb (path_eqb p) l = true) by (apply existsb_exists; exists p; split; [exact K|destruct (path_eqb_spec p p); [reflexivity|contradiction]]). congruence.
  - intro H. inversion H as [|x y H1 H2]; subst. split; [|exact H2]. apply Bool.not_true_iff_false. intro K. apply existsb_exists in K. destruct K as (y & Hy & E). destruct (path_eqb_spec p y); [congruence|discriminate].
Qed.
Lemma puts_out : forall l fs q, ~ In q (map fst l) -> fold_left (fun fs x => put_file (fst x) (snd x) fs) l fs q = fs q.
Proof.
  induction l as [|[p b] l IH]; intros fs q H; cbn [fold_left]; [reflexivity|]. rewrite IH by (intro K; apply H; right; exact K). unfold put_file. cbn [fst snd]. destruct (path_eqb_spec q p) as [->|_]; [elim H; left; reflexivity|reflexivity].
Qed.
Lemma puts_in : forall l fs p b, NoDup (map fst l) -> In (p, b) l -> fold_left (fun fs x => put_file (fst x) (snd x) fs) l fs p = Some b.
Proof.
  induction l as [|[p b] l IH]; intros fs q c Hn H; cbn [fold_left]; [destruct H|]. cbn [map fst] in Hn. inversion Hn as [|x y H1 H2]; subst. destruct H as [E|H]; [|exact (IH _ q c H2 H)]. injection E as -> ->.
  rewrite puts_out by exact H1. unfold put_file. cbn [fst snd]. destruct (path_eqb_spec q q); [reflexivity|contradiction].
Qed.
