(** The properties of definitions (C46-C48, C59-C62). *)
From Coq Require Import Permutation.
From Verif Require Import GoStr GoStrProofs GoMap Unquote SplitJoin SvcTypes HttpTypes Svcdef SvcdefSpec SvcdefProofs SvcdefProofs2 SvcdefProofs3 SvcdefProofs4 SvcdefProofs5.

(** ** C46: the protobuf name of a field *)
Theorem field_protobuf_name : forall ofs g f, new_field ofs g = SOk f -> field_of g f.
Proof. intros ofs g f H. exact (proj1 (new_field_of ofs g f H)). Qed.
(** With a tag as protoc-gen-go writes it: the name is in the third entry after the number, or after the word packed. *)
Theorem field_name_of_tag : forall ofs n ty tag name, keys_ok ty -> tag_name tag name ->
  exists f, new_field ofs (mkGF [n] ty (Some tag)) = SOk f /\ fd_name f = n /\ fd_pbname f = name.
Proof.
  intros ofs n ty tag name Hk Ht. unfold new_field. cbn [gf_names gf_tag gf_type]. rewrite (pb_field_name_ok tag name Ht). cbn [sbind]. destruct (follow_ok ofs ty empty_ft Hk) as [t ->]. eexists. split; [reflexivity|]. split; reflexivity.
Qed.
(** The tag panics only with a protobuf entry of exactly four parts of which the last has no equals sign. *)
Theorem field_name_panic : forall t, pb_field_name (Some t) = SPanic <->
  exists a b c d, split1 44 (struct_tag_get t (T "protobuf")) = [a; b; c; d] /\ ~ In 61%N d.
Proof.
  assert (A : forall s, after_eq s = None <-> ~ In 61%N s).
  { induction s as [|c s IH]; cbn; [tauto|]. destruct (N.eqb_spec c 61) as [->|K]; [split; [discriminate|tauto]|]. rewrite IH. split; [intros H [E|E]; [congruence|tauto]|tauto]. }
  intro t. unfold pb_field_name. destruct (split1 44 _) as [|a [|b [|c [|d more]]]]; try (split; [discriminate|intros (a' & b' & c' & d' & K & _); discriminate K]).
  destruct (after_eq d) as [n|] eqn:E.
  - split; [discriminate|]. intros (a' & b' & c' & d' & [= <- <- <- <- _] & K). apply A in K. congruence.
  - destruct more as [|s4 more].
    + split; [|reflexivity]. intros _. exists a, b, c, d. split; [reflexivity|]. apply A. exact E.
    + split; [destruct (after_eq s4); discriminate|]. intros (a' & b' & c' & d' & K & _). discriminate K.
Qed.
(** Without a protobuf entry (the interface field of a oneof) there is no name. *)
Theorem field_no_name : forall ps, good_tag ps -> first_literal ps (T "protobuf") = None -> pb_field_name (Some (tag_text ps)) = SOk [].
Proof. intros ps Hg Hf. unfold pb_field_name. rewrite (struct_tag_get_spec ps _ Hg), Hf. reflexivity. Qed.

Section S.
  Variable upper : N -> bool.

  Lemma service_is_view : forall s a b, service_is upper s a -> service_is upper s b -> service_view a = service_view b.
  Proof.
    intros [s|] [a|] [b|] Ha Hb; try contradiction; try reflexivity. destruct Ha as [A1 A2], Hb as [B1 B2]. cbn. f_equal. f_equal.
    - rewrite A1 in B1. apply app_inv_tail in B1. exact B1.
    - clear A1 B1. revert B2. generalize (sv_methods b). induction A2 as [|m x l l' M _ IH]; intros l2 B2; inversion B2 as [|m2 x2 l3 l4 M2 B3]; subst; [reflexivity|]. cbn. f_equal; [|exact (IH _ B3)].
      destruct M as (n & r & c & rq & ps & rs & qs & E1 & E2 & E3 & (n1 & P1 & Q1 & _) & (n2 & P2 & Q2 & _) & _), M2 as (n' & r' & c' & rq' & ps' & rs' & qs' & E1' & E2' & E3' & (n1' & P1' & Q1' & _) & (n2' & P2' & Q2' & _) & _).
      rewrite E1 in E1'. injection E1' as <- <-. rewrite E2 in E2'. injection E2' as <- <- <- <- <-. unfold method_view. rewrite E3, E3', Q1, Q2, Q1', Q2'.
      assert (U : forall e n n', (e = GStar (GIdent n) \/ exists x, e = GStar (GSel x n)) -> (e = GStar (GIdent n') \/ exists x, e = GStar (GSel x n')) -> n = n').
      { clear. intros e n n' [->|[x ->]] [K|[y K]]; congruence. }
      rewrite (U _ _ _ P1 P1'), (U _ _ _ P2 P2'). reflexivity.
  Qed.

  (** ** C59: what is in a definition *)
  Theorem definition_contents : forall fs sd o, new_go upper [] (map Some fs) = SOk (sd, o) -> one_with_options upper fs ->
    Forall2 (message_of upper) (flat_map (non_options upper) fs) (sd_messages sd) /\
    sd_enums sd = flat_map enum_names fs /\
    service_is upper (last_of (flat_map server_specs fs) None) (sd_service sd) /\
    (fs <> [] -> last_of (map go_pkg fs) None = Some (sd_pkg sd)).
  Proof.
    intros fs sd o H Ho. unfold new_go in H. sb H. destruct a as [sd0 o0]. injection H as <- <-.
    destruct (new_files_spec upper fs fs _ _ _ _ E (fun _ => Ho) (fun K => match K eq_refl with end) (incl_refl _)) as (ms & M1 & M2); [reflexivity|].
    destruct (new_files_rest upper fs _ _ _ _ E) as (R1 & R2 & _ & _ & R5). cbn [empty_svcdef sd_messages sd_enums app] in *. split; [|split; [|split]].
    - cbn [resolve_types sd_messages]. apply Forall2_map_r'. rewrite M1. apply (Forall2_impl' _ _ _ (fun x m => message_of upper (snd x) m)) in M2; [|intros x m [K _]; exact K]. clear - M2. revert ms M2. induction fs as [|f fs IH]; intros ms H; cbn [flat_map] in *; [inversion H; constructor|].
      apply Forall2_app_inv_l in H. destruct H as (m1 & m2 & H1 & H2 & ->). apply Forall2_app; [|exact (IH _ H2)]. apply (proj1 (Forall2_map_l _ _ _ (fun x m => message_of upper (snd x) m) (pair f) _ _)) in H1. eapply Forall2_impl'; [|exact H1]. intros s m K. apply set_message_of. exact K.
    - exact R1.
    - cbn [resolve_types sd_service]. apply set_service_is. apply R2. exact I.
    - intro Hne. cbn [resolve_types sd_pkg]. rewrite R5. destruct fs as [|f fs]; [contradiction|]. reflexivity.
  Qed.
  Theorem definition_oneofs : forall fs sd o, new_go upper [] (map Some fs) = SOk (sd, o) -> one_with_options upper fs -> Forall one_oneof_each fs ->
    Forall2 (fun x m => message_of upper (snd x) m /\ oneofs_of upper fs (fst x) (snd x) m) (flat_map (fun f => map (pair f) (non_options upper f)) fs) (sd_messages sd).
  Proof.
    intros fs sd o H Ho Hone. unfold new_go in H. sb H. destruct a as [sd0 o0]. injection H as <- <-.
    destruct (new_files_spec upper fs fs _ _ _ _ E (fun _ => Ho) (fun K => match K eq_refl with end) (incl_refl _)) as (ms & M1 & M2); [reflexivity|].
    cbn [empty_svcdef sd_messages app] in M1. cbn [resolve_types sd_messages]. rewrite M1. apply Forall2_map_r'.
    assert (K : Forall (fun x : gofile * (str * list gfield) => one_oneof_each (fst x)) (flat_map (fun f => map (pair f) (non_options upper f)) fs)).
    { apply Forall_forall. intros x Hx. apply in_flat_map in Hx. destruct Hx as (f & Hf & Hx). apply in_map_iff in Hx. destruct Hx as (s & <- & _). rewrite Forall_forall in Hone. apply Hone. exact Hf. }
    clear - M2 K. induction M2 as [|x m l ms [H1 H2] _ IH]; [constructor|]. inversion K as [|y z K1 K2]; subst. constructor; [|exact (IH K2)]. split; [apply set_message_of; exact H1|apply set_message_oneofs; exact (H2 K1)].
  Qed.

  (** ** C47: types are linked to the enum or the message of their name *)
  Theorem definition_links : forall ofs fs sd o, new_go upper ofs (map Some fs) = SOk (sd, o) ->
    (forall m f, In m (sd_messages sd) -> In f (ms_fields m) -> links (map ms_name (sd_messages sd)) (sd_enums sd) (fd_type f)) /\
    (forall v m, sd_service sd = Some v -> In m (sv_methods v) ->
       linked (map ms_name (sd_messages sd)) (sd_enums sd) (sm_req m) /\ linked (map ms_name (sd_messages sd)) (sd_enums sd) (sm_resp m)).
  Proof.
    intros ofs fs sd o H. unfold new_go in H. sb H. destruct a as [sd0 o0]. injection H as <- <-. rewrite resolve_names.
    destruct (new_files_rest upper fs _ _ _ _ E) as (_ & R2 & R3 & R4 & _). specialize (R3 ltac:(constructor)). specialize (R4 I). specialize (R2 None I). split.
    - intros m f Hm Hf. cbn [resolve_types sd_messages sd_enums] in *. apply in_map_iff in Hm. destruct Hm as (m0 & <- & Hm). cbn [set_message ms_fields] in Hf. apply in_map_iff in Hf. destruct Hf as (f0 & <- & Hf).
      rewrite Forall_forall in R3. specialize (R3 m0 Hm). unfold fresh_message in R3. rewrite Forall_forall in R3. destruct (R3 f0 Hf) as [K1 K2]. apply links_set; assumption.
    - intros v m Hv Hm. cbn [resolve_types sd_service sd_enums] in *. destruct (sd_service sd0) as [v0|]; [|discriminate]. injection Hv as <-. cbn [sv_methods] in Hm. apply in_map_iff in Hm. destruct Hm as (m0 & <- & Hm).
      cbn [fresh_opt] in R4. unfold fresh_service in R4. rewrite Forall_forall in R4. destruct (R4 m0 Hm) as [K1 K2]. cbn [set_method sm_req sm_resp].
      assert (KM : ft_map (sm_req m0) = None /\ ft_map (sm_resp m0) = None).
      { destruct (last_of (flat_map server_specs fs) None) as [s|]; [|contradiction]. destruct R2 as [_ R2]. clear - R2 Hm. induction R2 as [|a x l l' (n & rest & c & rq & ps & rs & qs & _ & _ & _ & P1 & P2 & _) _ IH]; [destruct Hm|].
        destruct Hm as [<-|Hm]; [|exact (IH Hm)]. destruct P1 as (? & _ & _ & _ & _ & P1 & _), P2 as (? & _ & _ & _ & _ & P2 & _). split; assumption. }
      destruct KM as [KM1 KM2]. unfold set_type. rewrite KM1, KM2. split; apply linked_box; assumption.
  Qed.

  (** ** C48: a second call in the same process *)
  Theorem second_call_same : forall fs sd o, new_go upper [] (map Some fs) = SOk (sd, o) -> (forall f, In f fs -> has_options upper f = false) -> new_go upper o (map Some fs) = SOk (sd, o).
  Proof.
    intros fs sd o H Hn. enough (o = []) as -> by exact H. unfold new_go in H. sb H. destruct a as [sd0 o0]. injection H as _ <-.
    clear sd. revert E Hn. generalize empty_svcdef. induction fs as [|f fs IH]; intros sd E Hn; cbn [map new_files] in E; [injection E as _ <-; reflexivity|].
    sb E. destruct a as [sd1 o1]. destruct (new_file_spec upper _ _ _ _ _ E0) as (ms & _ & _ & _ & _ & _ & _ & M & _). destruct (M []) as (_ & _ & M'). rewrite (M' (Hn f (or_introl eq_refl))) in E. apply (IH sd1 E). intros k Hk. apply Hn. right. exact Hk.
  Qed.
  (** With oneofs the second call succeeds too, and has all exported structs as messages, the options of oneofs as well. *)
  Theorem second_call_contents : forall fs sd o, new_go upper [] (map Some fs) = SOk (sd, o) -> o <> [] ->
    exists sd', new_go upper o (map Some fs) = SOk (sd', o) /\
      Forall2 (message_of upper) (flat_map (struct_specs upper) fs) (sd_messages sd') /\
      sd_enums sd' = sd_enums sd /\ service_view (sd_service sd') = service_view (sd_service sd).
  Proof.
    intros fs sd o H Hne. unfold new_go in *. sb H. destruct a as [sd0 o0]. injection H as <- <-.
    destruct (new_files_again upper fs _ _ _ _ o0 empty_svcdef E Hne) as (sd1 & ms & N1 & N2 & N3). rewrite N1. cbn [sbind]. eexists. split; [reflexivity|].
    destruct (new_files_rest upper fs _ _ _ _ E) as (R1 & R2 & _). destruct (new_files_rest upper fs _ _ _ _ N1) as (R1' & R2' & _). split; [|split].
    - cbn [resolve_types sd_messages]. rewrite N2. cbn [empty_svcdef sd_messages app]. apply Forall2_map_r'. eapply Forall2_impl'; [|exact N3]. intros s m. apply set_message_of.
    - cbn [resolve_types sd_enums]. rewrite R1, R1'. reflexivity.
    - apply (service_is_view (last_of (flat_map server_specs fs) None)); cbn [resolve_types sd_service]; apply set_service_is; [apply R2'|apply R2]; exact I.
  Qed.

  (** ** C60: every exported method of every Server interface is unary, or New fails *)
  Theorem only_unary : forall ofs fs sd o, new_go upper ofs (map Some fs) = SOk (sd, o) ->
    forall f s m, In f fs -> In s (server_specs f) -> In m (snd s) -> exported_method upper m = true -> unary m.
  Proof.
    intros ofs fs sd o H f s m Hf Hs Hm Hx. unfold new_go in H. sb H. destruct (new_files_all upper fs _ _ _ E f s Hf Hs) as [v [_ Hv]].
    assert (K : In m (filter (exported_method upper) (snd s))) by (apply filter_In; split; assumption). clear - Hv K. induction Hv as [|a x l l' (n & rest & c & rq & ps & rs & qs & _ & Et & _ & P1 & P2 & _) _ IH]; [destruct K|].
    destruct K as [->|K]; [|exact (IH K)]. exists c, rq, ps, rs, qs. split; [exact Et|]. destruct P1 as (n1 & P1 & _), P2 as (n2 & P2 & _). split; [destruct P1 as [->|[y ->]]|destruct P2 as [->|[y ->]]]; unfold pointer; eauto.
  Qed.
  (** The two streaming shapes protoc-gen-go-grpc writes: one parameter (client streams), and a stream as the second one. *)
  Corollary streams_fail : forall ofs fs f s m results p, In f fs -> In s (server_specs f) -> In m (snd s) -> exported_method upper m = true ->
    (gm_type m = MFunc [p] results \/ exists n, gm_type m = MFunc [p; GIdent n] results) -> forall sd o, new_go upper ofs (map Some fs) <> SOk (sd, o).
  Proof.
    intros ofs fs f s m results p Hf Hs Hm Hx Ht sd o H. destruct (only_unary _ _ _ _ H f s m Hf Hs Hm Hx) as (c & rq & ps & rs & qs & Et & Hq & _).
    destruct Ht as [Ht|[n Ht]]; rewrite Ht in Et; [discriminate|]. injection Et as <- <- _ _. destruct Hq as [[k K]|(x & k & K)]; discriminate K.
  Qed.

  (** ** C61: the order in which the map of files is walked *)
  Lemma message_of_view : forall s m, message_of upper s m -> message_view m = (fst s, map (fun g => hd [] (gf_names g)) (filter (visible upper) (snd s))).
  Proof.
    intros s m [H1 H2]. unfold message_view. rewrite H1. f_equal. induction H2 as [|g f gs l [[rest K] _] _ IH]; [reflexivity|]. cbn [map]. rewrite K, IH. reflexivity.
  Qed.
  Lemma view_map : forall l ms, Forall2 (message_of upper) l ms -> map message_view ms = map (fun s => (fst s, map (fun g => hd [] (gf_names g)) (filter (visible upper) (snd s)))) l.
  Proof. intros l ms H. induction H as [|s m l ms H _ IH]; [reflexivity|]. cbn [map]. rewrite (message_of_view _ _ H), IH. reflexivity. Qed.
  Lemma Permutation_filter' : forall A (p : A -> bool) l l', Permutation l l' -> Permutation (filter p l) (filter p l').
  Proof. intros A p l l' H. induction H; cbn [filter]; repeat match goal with |- context [if p ?x then _ else _] => destruct (p x) end; try constructor; auto. eapply perm_trans; eassumption. Qed.
  Theorem walk_order : forall fs fs' sd o sd' o', Permutation fs fs' -> new_go upper [] (map Some fs) = SOk (sd, o) -> new_go upper [] (map Some fs') = SOk (sd', o') ->
    one_with_options upper fs -> length (flat_map server_specs fs) <= 1 -> (forall f g, In f fs -> In g fs -> go_pkg f = go_pkg g) ->
    Permutation (map message_view (sd_messages sd)) (map message_view (sd_messages sd')) /\ Permutation (sd_enums sd) (sd_enums sd') /\
    service_view (sd_service sd) = service_view (sd_service sd') /\ sd_pkg sd = sd_pkg sd'.
  Proof.
    intros fs fs' sd o sd' o' HP H H' Ho Hs Hp.
    assert (Ho' : one_with_options upper fs') by (unfold one_with_options in *; rewrite <- (Permutation_length (Permutation_filter' _ (has_options upper) _ _ HP)); exact Ho).
    destruct (definition_contents _ _ _ H Ho) as (C1 & C2 & C3 & C4). destruct (definition_contents _ _ _ H' Ho') as (D1 & D2 & D3 & D4).
    split; [|split; [|split]].
    - rewrite (view_map _ _ C1), (view_map _ _ D1). apply Permutation_map. apply Permutation_flat_map. exact HP.
    - rewrite C2, D2. apply Permutation_flat_map. exact HP.
    - assert (E : flat_map server_specs fs = flat_map server_specs fs').
      { pose proof (Permutation_flat_map server_specs HP) as K. destruct (flat_map server_specs fs) as [|x [|y l]]; [symmetry; apply Permutation_nil; exact K|symmetry; apply Permutation_length_1_inv; exact K|cbn [length] in Hs; lia]. }
      rewrite E in C3. exact (service_is_view _ _ _ C3 D3).
    - destruct fs as [|f fs].
      + apply Permutation_nil in HP. subst fs'. cbn in H, H'. unfold new_go in *. cbn in *. injection H as <- _. injection H' as <- _. reflexivity.
      + assert (Hne : fs' <> []) by (intros ->; apply Permutation_sym, Permutation_nil in HP; discriminate).
        assert (Q : forall l g x, (forall k, In k l -> go_pkg k = g) -> last_of (map go_pkg l) (Some g) = Some x -> x = g).
        { clear. induction l as [|k l IH]; intros g x H K; [injection K as <-; reflexivity|]. cbn [map last_of fold_left] in K. rewrite (H k (or_introl eq_refl)) in K. apply (IH g x); [intros j Hj; apply H; right; exact Hj|exact K]. }
        assert (Q' : forall l g x, l <> [] -> (forall k, In k l -> go_pkg k = g) -> last_of (map go_pkg l) None = Some x -> x = g).
        { intros [|k l] g x Hl K1 K2; [contradiction|]. cbn [map last_of fold_left] in K2. rewrite (K1 k (or_introl eq_refl)) in K2. apply (Q l g x); [intros j Hj; apply K1; right; exact Hj|exact K2]. }
        rewrite (Q' (f :: fs) (go_pkg f) (sd_pkg sd) ltac:(discriminate) (fun k Hk => Hp k f Hk (or_introl eq_refl)) (C4 ltac:(discriminate))).
        symmetry. apply (Q' fs' (go_pkg f) (sd_pkg sd') Hne); [|exact (D4 Hne)]. intros k Hk. apply Hp; [|left; reflexivity]. apply (Permutation_in k (Permutation_sym HP)). exact Hk.
  Qed.

  (** ** C62: generated files are accepted *)
  Theorem generated_accepted : forall ofs fs, Forall (protoc_file upper) fs -> exists sd o, new_go upper ofs (map Some fs) = SOk (sd, o).
  Proof. intros ofs fs H. unfold new_go. destruct (new_files_ok upper fs ofs empty_svcdef H) as [[sd o] ->]. cbn [sbind]. eexists _, _. reflexivity. Qed.
End S.

(** ** A service with a oneof, an enum and maps, as two files *)
Definition up (c : N) : bool := (65 <=? c)%N && (c <=? 90)%N.
Definition pbtag (entry name : string) : option str := Some (tag_text [(T "protobuf", T entry ++ T ",name=" ++ T name ++ T ",proto3"); (T "json", T name ++ T ",omitempty")]).
Definition fld (n : string) (t : gexpr) (tag : option str) : gfield := mkGF [T n] t tag.
Definition sub_struct := mkTS (T "Sub") (TStruct [fld "state" (GSel (GIdent (T "protoimpl")) (T "MessageState")) None; fld "Id" (GIdent (T "int64")) (pbtag "varint,1,opt" "id"); fld "Nums" (GArr (GIdent (T "int32"))) (pbtag "varint,2,rep,packed" "nums")]).
Definition req_struct := mkTS (T "Req") (TStruct [
  fld "Name" (GIdent (T "string")) (pbtag "bytes,1,opt" "name");
  fld "Kinds" (GArr (GIdent (T "Kind"))) (pbtag "varint,2,rep,packed" "kinds");
  fld "Pick" (GIdent (T "isReq_Pick")) (Some (tag_text [(T "protobuf_oneof", T "pick")]));
  fld "Subs" (GMap (GIdent (T "string")) (GStar (GIdent (T "Sub")))) (pbtag "bytes,5,rep" "subs");
  fld "Kmap" (GMap (GIdent (T "string")) (GIdent (T "Kind"))) (pbtag "bytes,6,rep" "kmap");
  fld "XXX_sizecache" (GIdent (T "int32")) None]).
Definition pb_go : gofile := mkGo (T "pb") [
  GDGen [mkTS (T "Kind") (TIdent (T "int32"))];
  GDGen [sub_struct]; GDGen [req_struct];
  GDGen [mkTS (T "isReq_Pick") (TIface [mkGM [T "isReq_Pick"] (MFunc [] [])])];
  GDGen [mkTS (T "Req_One") (TStruct [fld "One" (GStar (GIdent (T "Sub"))) (pbtag "bytes,3,opt" "one")])];
  GDGen [mkTS (T "Req_Two") (TStruct [fld "Two" (GIdent (T "int64")) (pbtag "varint,4,opt" "two")])];
  GDFunc (T "isReq_Pick") (Some [GStar (GIdent (T "Req_One"))]);
  GDFunc (T "isReq_Pick") (Some [GStar (GIdent (T "Req_Two"))]);
  GDFunc (T "init") None].
Definition ctx : gexpr := GSel (GIdent (T "context")) (T "Context").
Definition unary_method (n a b : string) : gmethod := mkGM [T n] (MFunc [ctx; GStar (GIdent (T a))] [GStar (GIdent (T b)); GIdent (T "error")]).
Definition grpc_go : gofile := mkGo (T "pb") [
  GDGen [mkTS (T "FooClient") (TIface [mkGM [T "Get"] (MFunc [ctx; GStar (GIdent (T "Req")); GOther] [GStar (GIdent (T "Sub")); GIdent (T "error")])])];
  GDGen [mkTS (T "fooClient") (TStruct [fld "cc" GOther None])];
  GDGen [mkTS (T "FooServer") (TIface [unary_method "Get" "Req" "Sub"; mkGM [T "mustEmbedUnimplementedFooServer"] (MFunc [] [])])];
  GDGen [mkTS (T "UnimplementedFooServer") (TStruct [])];
  GDGen [mkTS (T "UnsafeFooServer") (TIface [mkGM [T "mustEmbedUnimplementedFooServer"] (MFunc [] [])])]].
Definition foo_files : list gofile := [pb_go; grpc_go].

(** The hypotheses of C46 hold of a packed and of an unpacked field. *)
Ltac lit := repeat first [apply LBNil | apply LBPlain; [discriminate|discriminate|]].
Example tag_example : tag_name (tag_text [(T "protobuf", T "varint,2,rep,packed,name=nums,proto3"); (T "json", T "nums,omitempty")]) (T "nums").
Proof.
  exists [(T "protobuf", T "varint,2,rep,packed,name=nums,proto3"); (T "json", T "nums,omitempty")], (T "varint,2,rep,packed,name=nums,proto3"), (T "varint"), (T "2"), (T "rep"), true, [T "proto3"].
  assert (NC : forall s, existsb (N.eqb 44) s = false -> no_comma s). { intros s H K. assert (existsb (N.eqb 44) s = true) by (apply existsb_exists; exists 44%N; split; [exact K|reflexivity]). congruence. }
  split; [reflexivity|]. split; [|split; [reflexivity|split; [vm_compute; reflexivity|]]].
  - constructor; [split|constructor; [split|constructor]]; try (vm_compute; lit; fail); (split; [discriminate|]; apply Forall_forall; intros c K; vm_compute in K; repeat destruct K as [<-|K]; try contradiction; repeat split; discriminate).
  - repeat split; try (apply NC; reflexivity). constructor; [apply NC; reflexivity|constructor].
Qed.
(** The definition of the example, seen without links. *)
Definition outcome {A} (x : sres A) : option A := match x with SOk a => Some a | _ => None end.
Definition view_of (x : sres (svcdef * gomap (list field))) :=
  option_map (fun p => (map message_view (sd_messages (fst p)), sd_enums (fst p), service_view (sd_service (fst p)))) (outcome x).
Example foo_definition : view_of (new_go up [] (map Some foo_files)) =
  Some ([(T "Sub", [T "Id"; T "Nums"]); (T "Req", [T "Name"; T "Kinds"; T "Pick"; T "Subs"; T "Kmap"]); (T "UnimplementedFooServer", [])],
        [T "Kind"], Some (T "Foo", [(T "Get", T "Req", T "Sub")])).
Proof. vm_compute. reflexivity. Qed.
Example foo_one_with_options : one_with_options up foo_files /\ has_options up pb_go = true /\ length (flat_map server_specs foo_files) = 1.
Proof. split; [|split; vm_compute; reflexivity]. unfold one_with_options. vm_compute. lia. Qed.
Example foo_one_oneof_each : Forall one_oneof_each foo_files.
Proof.
  assert (A : forall f, (forall n recv, In (GDFunc n recv) (go_decls f) -> has_iface f n = true -> n = T "isReq_Pick") -> one_oneof_each f).
  { intros f H s i j [I1 (d & I2 & I3)] [J1 (e & J2 & J3)]. assert (K : forall k d, In d (go_decls f) -> is_marker s k d = true -> has_iface f k = true -> k = T "isReq_Pick").
    { intros k d0 K1 K2 K3. destruct d0 as [l|n recv]; [discriminate|]. cbn in K2. destruct recv as [[|[|[x| | | | |]| | | |] more]|]; try discriminate. apply andb_prop in K2. destruct K2 as [K2 _]. apply str_eqb_eq in K2. subst n. exact (H k _ K1 K3). }
    rewrite (K i d I2 I3 I1), (K j e J2 J3 J1). reflexivity. }
  constructor; [|constructor; [|constructor]]; apply A; intros n recv K HI; cbn [go_decls pb_go grpc_go In] in K; repeat destruct K as [K|K]; try discriminate; try contradiction; injection K as <- <-; try reflexivity. vm_compute in HI. discriminate HI.
Qed.
(** The fields: the protobuf names, the options of the oneof, the links. *)
Definition req_fields := match outcome (new_go up [] (map Some foo_files)) with Some (sd, _) => match nth_error (sd_messages sd) 1 with Some m => ms_fields m | None => [] end | None => [] end.
Example foo_names : map fd_pbname req_fields = [T "name"; T "kinds"; []; T "subs"; T "kmap"].
Proof. vm_compute. reflexivity. Qed.
Example foo_oneof : option_map (map (fun f => (fd_name f, ft_msg (fd_type f)))) (match nth_error req_fields 2 with Some f => ft_oneof (fd_type f) | None => None end) =
  Some [(T "One", Some (MSynth (T "Req_One"))); (T "Two", Some (MSynth (T "Req_Two")))].
Proof. vm_compute. reflexivity. Qed.
Example foo_links : map (fun f => (ft_enum (fd_type f), option_map (fun p => ft_msg (snd p)) (ft_map (fd_type f)))) req_fields =
  [(None, None); (Some 0, None); (None, None); (None, Some (Some (MDef 0))); (None, Some None)].
Proof. vm_compute. reflexivity. Qed.
(** C47, refuted: the value type of map<string, Kind> is not linked to the enum Kind of the same definition. *)
Theorem enum_map_not_linked : exists sd o m f kt vt, new_go up [] (map Some foo_files) = SOk (sd, o) /\ In m (sd_messages sd) /\ In f (ms_fields m) /\
  ft_map (fd_type f) = Some (kt, vt) /\ In (ft_name vt) (sd_enums sd) /\ ft_enum vt = None.
Proof.
  destruct (new_go up [] (map Some foo_files)) as [[sd o]| |] eqn:E; [|vm_compute in E; discriminate E|vm_compute in E; discriminate E].
  vm_compute in E. injection E as <- <-. do 6 eexists. split; [reflexivity|]. split; [right; left; reflexivity|]. split; [do 4 right; left; reflexivity|]. split; [reflexivity|]. split; [left; reflexivity|reflexivity].
Qed.
(** Refuted: the value type of map<string, bytes>, or of messages of another package, loses its name. *)
Theorem foreign_map_value_lost : forall ofs k p s, exists t, follow ofs (GMap (GIdent k) (GStar (GSel (GIdent p) s))) empty_ft = Some t /\ option_map (fun m => ft_name (snd m)) (ft_map t) = Some [].
Proof. intros ofs k p s. eexists. split; reflexivity. Qed.
Theorem bytes_map_value_lost : forall ofs k, exists t, follow ofs (GMap (GIdent k) (GArr (GIdent (T "byte")))) empty_ft = Some t /\ option_map (fun m => ft_name (snd m)) (ft_map t) = Some [].
Proof. intros ofs k. eexists. split; reflexivity. Qed.
(** Refuted: a request type of another package is linked to the message of this package with that name. *)
Definition foreign_grpc : gofile := mkGo (T "pb") [GDGen [mkTS (T "FooServer") (TIface [mkGM [T "Get"] (MFunc [ctx; GStar (GSel (GIdent (T "other")) (T "Sub"))] [GStar (GIdent (T "Sub")); GIdent (T "error")])])]].
Theorem foreign_request_misread : exists sd o v m, new_go up [] (map Some [pb_go; foreign_grpc]) = SOk (sd, o) /\ sd_service sd = Some v /\ In m (sv_methods v) /\ sm_req m = sm_resp m /\ ft_msg (sm_req m) = Some (MDef 0).
Proof.
  destruct (new_go up [] (map Some [pb_go; foreign_grpc])) as [[sd o]| |] eqn:E; [|vm_compute in E; discriminate E|vm_compute in E; discriminate E].
  vm_compute in E. injection E as <- <-. do 4 eexists. split; [reflexivity|]. split; [reflexivity|]. split; [left; reflexivity|]. split; reflexivity.
Qed.
(** C48, refuted with oneofs: the second call has two messages more. *)
Theorem second_call_differs : exists sd o sd', new_go up [] (map Some foo_files) = SOk (sd, o) /\ new_go up o (map Some foo_files) = SOk (sd', o) /\ length (sd_messages sd) = 3 /\ length (sd_messages sd') = 5.
Proof.
  destruct (new_go up [] (map Some foo_files)) as [[sd o]| |] eqn:E; [|vm_compute in E; discriminate E|vm_compute in E; discriminate E].
  assert (L : length (sd_messages sd) = 3 /\ o <> []) by (vm_compute in E; injection E as <- <-; split; [reflexivity|discriminate]). destruct L as [L Ho].
  destruct (second_call_contents up _ _ _ E Ho) as (sd' & E2 & F & _). exists sd, o, sd'. split; [reflexivity|]. split; [exact E2|]. split; [exact L|]. assert (F2 : length (flat_map (struct_specs up) foo_files) = length (sd_messages sd')) by (clear - F; induction F; [reflexivity|cbn [length]; congruence]). clear F. rename F2 into F. rewrite <- F. vm_compute. reflexivity.
Qed.
(** C61, refuted with oneofs in two files: the messages depend on the order. *)
Definition pb2_go : gofile := mkGo (T "pb") [
  GDGen [mkTS (T "Other") (TStruct [fld "Alt" (GIdent (T "isOther_Alt")) (Some (tag_text [(T "protobuf_oneof", T "alt")]))])];
  GDGen [mkTS (T "isOther_Alt") (TIface [mkGM [T "isOther_Alt"] (MFunc [] [])])];
  GDGen [mkTS (T "Other_A") (TStruct [fld "A" (GIdent (T "int64")) (pbtag "varint,1,opt" "a")])];
  GDFunc (T "isOther_Alt") (Some [GStar (GIdent (T "Other_A"))])].
Theorem two_oneof_files : exists sd o sd' o', new_go up [] (map Some [pb_go; pb2_go]) = SOk (sd, o) /\ new_go up [] (map Some [pb2_go; pb_go]) = SOk (sd', o') /\
  ~ Permutation (map message_view (sd_messages sd)) (map message_view (sd_messages sd')).
Proof.
  destruct (new_go up [] (map Some [pb_go; pb2_go])) as [[sd o]| |] eqn:E; [|vm_compute in E; discriminate E|vm_compute in E; discriminate E].
  destruct (new_go up [] (map Some [pb2_go; pb_go])) as [[sd' o']| |] eqn:E'; [|vm_compute in E'; discriminate E'|vm_compute in E'; discriminate E'].
  exists sd, o, sd', o'. split; [reflexivity|]. split; [reflexivity|]. intro K. apply Permutation_length in K. vm_compute in E, E'. injection E as <- _. injection E' as <- _. discriminate K.
Qed.
(** C60: a service with a stream; and a service whose name begins with Unsafe, which is not found. *)
Definition stream_grpc : gofile := mkGo (T "pb") [GDGen [mkTS (T "FooServer") (TIface [unary_method "Get" "Req" "Sub"; mkGM [T "List"] (MFunc [GStar (GIdent (T "Req")); GIdent (T "Foo_ListServer")] [GIdent (T "error")])])]].
Example stream_fails : forall ofs sd o, new_go up ofs (map Some [pb_go; stream_grpc]) <> SOk (sd, o).
Proof.
  intro ofs. eapply (streams_fail up ofs _ stream_grpc); [right; left; reflexivity|left; reflexivity|right; left; reflexivity|reflexivity|]. right. eexists. reflexivity.
Qed.
(** Refuted: unsupported methods are skipped (svcdef.go:435). *)
Theorem streams_not_skipped : new_service up (T "FooServer") [mkGM [T "Up"] (MFunc [GIdent (T "Foo_UpServer")] [GIdent (T "error")])] = SErr.
Proof. reflexivity. Qed.
Theorem unsafe_service_missed : exists sd o, new_go up [] (map Some [mkGo (T "pb") [GDGen [mkTS (T "UnsafeOpsServer") (TIface [unary_method "Get" "Req" "Sub"])]]]) = SOk (sd, o) /\ sd_service sd = None.
Proof. eexists _, _. split; reflexivity. Qed.
(** C62: the files of the example. *)
Example foo_protoc_second : protoc_file up grpc_go.
Proof.
  split.
  - intros s [<-|[]]. constructor.
  - intros s [<-|[]]. cbn [snd]. constructor; [|constructor; [|constructor]].
    + split; [discriminate|]. intros _. do 5 eexists. split; [reflexivity|]. split; left; eexists; reflexivity.
    + split; [discriminate|]. intro K. vm_compute in K. discriminate K.
  - intros n recv K _. cbn [go_decls grpc_go In] in K. repeat destruct K as [K|K]; try discriminate; contradiction.
  - intros s [<-|[]] K. vm_compute in K. discriminate K.
Qed.
Definition tiny_pb : gofile := mkGo (T "pb") [
  GDGen [mkTS (T "Other") (TStruct [fld "Alt" (GIdent (T "isOther_Alt")) (Some (tag_text [(T "protobuf_oneof", T "alt")]))])];
  GDGen [mkTS (T "isOther_Alt") (TIface [mkGM [T "isOther_Alt"] (MFunc [] [])])];
  GDGen [mkTS (T "Other_A") (TStruct [fld "Nums" (GArr (GIdent (T "int32"))) (Some (tag_text [(T "protobuf", T "varint,2,rep,packed,name=nums,proto3"); (T "json", T "nums,omitempty")]))])];
  GDFunc (T "isOther_Alt") (Some [GStar (GIdent (T "Other_A"))])].
Example tiny_protoc : protoc_file up tiny_pb.
Proof.
  split.
  - intros s [<-|[<-|[]]]; cbn [snd]; (constructor; [|constructor]); (split; [discriminate|]); intros _; (split; [|exact I]).
    + right. exists [(T "protobuf_oneof", T "alt")]. split; [reflexivity|]. split; [|reflexivity]. constructor; [|constructor]. split; [|vm_compute; lit]. split; [discriminate|]. apply Forall_forall; intros c K; vm_compute in K; repeat destruct K as [<-|K]; try contradiction; repeat split; discriminate.
    + left. exists (T "nums"). exact tag_example.
  - intros s [].
  - intros n recv K _. cbn [go_decls tiny_pb In] in K. repeat destruct K as [K|K]; try discriminate; try contradiction. injection K as <- <-. eexists _, _. reflexivity.
  - intros s [<-|[<-|[]]] K; [vm_compute in K; discriminate K|]. vm_compute. discriminate.
Qed.

Print Assumptions field_name_of_tag.
Print Assumptions definition_contents.
Print Assumptions definition_oneofs.
Print Assumptions definition_links.
Print Assumptions second_call_contents.
Print Assumptions only_unary.
Print Assumptions walk_order.
Print Assumptions generated_accepted.
