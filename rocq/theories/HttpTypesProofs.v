(** Proofs about the typing of generated assignments. *)
From Verif Require Import GoStr GoStrProofs GoMap SvcTypes HttpTransport HttpTypes.

Lemma base_name : forall n, is_go_base_type n = true <-> scalar_name n.
Proof.
  intro n. unfold is_go_base_type, scalar_name. rewrite existsb_exists. split.
  - intros (x & H & E). apply str_eqb_eq in E. subst. exact H.
  - intro H. exists n. split; [exact H|apply str_eqb_refl].
Qed.
Lemma narrow_scalar : forall n, existsb (str_eqb n) [T "uint32"; T "int32"; T "float32"] = true -> scalar_name n.
Proof.
  intros n H. apply existsb_exists in H. destruct H as (x & H & E). apply str_eqb_eq in E. subst x.
  destruct H as [<-|[<-|[<-|[]]]]; unfold scalar_name, go_base_types; cbn [In]; auto 10.
Qed.
Lemma not_base : forall n, ~ scalar_name n -> is_go_base_type n = false.
Proof. intros n H. destruct (is_go_base_type n) eqn:E; [|reflexivity]. apply base_name in E. contradiction. Qed.
Lemma not_narrow : forall n, ~ scalar_name n -> existsb (str_eqb n) [T "uint32"; T "int32"; T "float32"] = false.
Proof. intros n H. destruct (existsb _ _) eqn:E; [|reflexivity]. apply narrow_scalar in E. contradiction. Qed.
Lemma no_byte : forall n, In n go_base_types -> contains n (T "[]byte") = false.
Proof. intros n H. repeat (destruct H as [<-|H]; [reflexivity|]). destruct H. Qed.

Ltac num := unfold numeric; cbn [In]; auto 10.
Lemma assignment_iff : forall enums meth p, protoc_type enums (fd_type (pm_field p)) ->
  (assignment_ok enums (new_hfield meth p) (field_gty (fd_type (pm_field p))) <-> ~ narrow_optional (fd_type (pm_field p))).
Proof.
  intros enums meth [[nm pb t] loc] H. cbn [pm_field fd_type] in *. unfold assignment_ok, new_hfield.
  cbn [hf_gotype hf_star hf_conv hf_tconv pm_field fd_type].
  inversion H as [n o Hs|n Hs|n i o Hi Hs|n i Hi Hs|n r Hs|n r Hs|n a Hs|n Hs]; subst t; unfold field_shape, field_gty, narrow_optional; cbn [ft_name ft_star ft_msg ft_enum ft_map ft_array].
  - (* scalar, perhaps optional *)
    assert (Hb : is_go_base_type n = true) by (apply base_name; exact Hs). rewrite Hb. clear Hb H.
    unfold create_decode_convert, create_decode_tconv. cbn [sh_gotype sh_star sh_base sh_enum sh_rep negb orb andb].
    unfold scalar_name, go_base_types in Hs. cbn [In] in Hs.
    destruct o; repeat (destruct Hs as [<-|Hs]); try destruct Hs; cbn -[T numeric];
    (split;
     [ intros (x & Hd & He) (_ & Hst & Hk); try discriminate Hst;
       (destruct Hk as [Hk|Hk]; [apply Hk; reflexivity|]);
       repeat (destruct Hk as [Hk|Hk]; [try discriminate Hk; inversion He|]); try destruct Hk
     | intro Hn; first [ exfalso; apply Hn; split; [reflexivity|]; split; [reflexivity|]; right; cbn [In]; auto; fail
                       | eexists; split; [apply DcScalar|]; cbn -[T numeric];
                         first [apply EtVar | apply EtAddr | eapply EtCast; [reflexivity| num | left; num] ] ] ]).
  - (* repeated scalar *)
    assert (Hb : is_go_base_type n = true) by (apply base_name; exact Hs). rewrite Hb. clear H.
    unfold create_decode_convert, create_decode_tconv. cbn [sh_gotype sh_star sh_base sh_enum sh_rep negb orb andb fst maybe_ptr].
    rewrite no_byte by exact Hs. cbn [negb]. split; [intros _ [E _]; discriminate|intros _].
    eexists. split; [apply DcRepeated|apply EtVar]. intros q Hq. cbn [maybe_ptr].
    unfold scalar_name, go_base_types in Hs. cbn [In] in Hs.
    repeat (destruct Hs as [<-|Hs]); try destruct Hs; injection Hq as <-; cbn -[T numeric];
      first [apply EtVar | eapply EtCast; [reflexivity| num | left; num]].
  - (* enum *)
    unfold create_decode_convert, create_decode_tconv. cbn [sh_gotype sh_star sh_base sh_enum sh_rep negb orb andb fst].
    rewrite orb_true_r. destruct o; cbn [maybe_ptr].
    + split; [|intro Hn; exfalso; apply Hn; split; [reflexivity|]; split; [reflexivity|]; left; discriminate].
      intros (x & _ & He). inversion He.
    + split; [intros _ (_ & E & _); discriminate|intros _]. eexists. split; [apply DcScalar|].
      eapply EtCast; [reflexivity|num|]. right. eapply nth_error_In. exact Hi.
  - (* repeated enum *)
    unfold create_decode_convert, create_decode_tconv. cbn [sh_gotype sh_star sh_base sh_enum sh_rep negb orb andb fst maybe_ptr].
    split; [intros _ [E _]; discriminate|intros _]. eexists. split; [apply DcRepeated; discriminate|apply EtVar].
  - (* message *)
    unfold create_decode_convert, create_decode_tconv. cbn [sh_gotype sh_star sh_base sh_enum sh_rep negb orb andb fst].
    rewrite not_narrow by exact Hs. cbn [orb]. split.
    + intros _ (_ & _ & [E|E]); [apply E; reflexivity|]. apply Hs. unfold scalar_name, go_base_types.
      destruct E as [<-|[<-|[<-|[]]]]; cbn [In]; auto 10.
    + intros _. eexists. split; [apply DcSingle|apply EtVar].
  - (* repeated message *)
    unfold create_decode_convert, create_decode_tconv. cbn [sh_gotype sh_star sh_base sh_enum sh_rep negb orb andb fst].
    split; [intros _ [E _]; discriminate|intros _]. eexists. split; [apply DcRepeated; discriminate|apply EtVar].
  - (* a type of another package *)
    rewrite not_base by exact Hs. unfold create_decode_convert, create_decode_tconv.
    cbn [sh_gotype sh_star sh_base sh_enum sh_rep negb orb andb fst]. destruct a; cbn [negb].
    + split; [intros _ [E _]; discriminate|intros _]. eexists. split; [apply DcRepeated; discriminate|apply EtVar].
    + rewrite not_narrow by exact Hs. cbn [orb]. split.
      * intros _ (_ & _ & [E|E]); [apply E; reflexivity|]. apply Hs. unfold scalar_name, go_base_types.
        destruct E as [<-|[<-|[<-|[]]]]; cbn [In]; auto 10.
      * intros _. eexists. split; [apply DcSingle|apply EtVar].
  - (* bytes *)
    split; [intros _ [E _]; discriminate|intros _].
    destruct Hs as [<-|[<-|[]]]; (eexists; split; [apply DcRepeated; discriminate|apply EtVar]).
Qed.
