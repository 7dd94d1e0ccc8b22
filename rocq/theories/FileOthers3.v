(** The declarations of service/service.go and of the main package of the client: proofs (the statements are in PropProject.v). *)
From Coq Require Import String Lia.
From Verif Require Import GoStr GoStrProofs GoMap Strs StrsSpec SvcTypes HttpTransport Handler Generator Template Render TextSpec TextFile GoLex GoLexProofs GoDecls GoDeclsProofs WiringSpec DecoderText FileText GoUse GoUseProofs HandlerText TextOthers FileService FileOthers FileOthers2.
From Verif Require Main WiringProofs DecoderTexts.

Section Service.
  Variable d : tdata.
  Notation svc := (sv_name (td_service d)).
  Notation methods := (sv_methods (td_service d)).
  Hypothesis Hmeth : forall i, In i methods -> Forall ident (hnames svc i).
  Hypothesis Hsvc : Forall ident [service_type svc; svc].
  Hypothesis Hdata : Forall inner [td_pb_import d].
  Lemma service_reads : exists ds, declarations (concat (service_pieces d)) = Some ds /\ file_says (T "service") [(None, T "context"); (Some (T "pb"), td_pb_import d)] [T "NewService"; service_type svc]
    [(T "pb", (T "Unimplemented" ++ svc ++ T "Server") :: flat_map (fun i => [go_camel_case (ft_name (sm_req i)); go_camel_case (ft_name (sm_resp i)); go_camel_case (ft_name (sm_resp i))]) methods);
     (T "context", flat_map (fun i => [T "Context"]) methods)] [] ds.
  Proof.
    destruct (first_reads d Hmeth Hsvc Hdata) as (ks & D & S & I0 & I2). eexists. split; [exact D|]. unfold first_file in S.
    inversion S as [|k0 ? k0s ? _ S1]; subst ks. inversion S1 as [|k1 ? k1s ? Hk1 S2]; subst k0s. inversion S2 as [|k2 ? k2s ? _ S3]; subst k1s. cbn [nth] in I0, I2. subst k0 k2. clear D S S1 S2.
    unfold shows in Hk1.
    assert (B : lex (T "return &" ++ to_lower svc ++ T "Service{}") = [Word (T "return"); Op (T "&"); Word (service_type svc); Op (T "{"); Op (T "}"); Semi]).
    { change (T "Service{}") with (T "Service" ++ T "{}"). rewrite (app_assoc (to_lower svc)). fold (service_type svc). pose proof Hnone. erewrite (lex_reads [service_type svc; svc] none); [|assumption|assumption|reads|vm_compute; reflexivity|vm_compute; reflexivity]. reflexivity. }
    assert (K : k1 = plain [Word (T "func"); Word (T "NewService"); Op (T "("); Op (T ")"); Op (T "*"); Word (service_type svc); Op (T "{"); Word (T "return"); Op (T "&"); Word (service_type svc); Op (T "{"); Op (T "}"); Semi; Op (T "}")]).
    { rewrite Hk1. transitivity (plain ([Word (T "func"); Word (T "NewService"); Op (T "("); Op (T ")"); Op (T "*"); Word (service_type svc); Op (T "{")] ++ lex (T "return &" ++ to_lower svc ++ T "Service{}") ++ [Op (T "}")])); [reflexivity|rewrite B; reflexivity]. }
    clear Hk1 B. subst k1.
    assert (M : forall l k, incl l methods -> Forall2 shows k (map (template_handler svc) (map Main.rpc_of l)) ->
      flat_map import_specs k = [] /\ flat_map declares k = [] /\ flat_map calls_of k = [] /\ flat_map (uses_of (T "context")) k = flat_map (fun i => [T "Context"]) l /\
      flat_map (uses_of (T "pb")) k = flat_map (fun i => [go_camel_case (ft_name (sm_req i)); go_camel_case (ft_name (sm_resp i)); go_camel_case (ft_name (sm_resp i))]) l).
    { clear -Hmeth. induction l as [|m l IH]; intros k I S; cbn [map] in S; inversion S as [|x ? y ? Hx Hy]; subst k; [repeat split; reflexivity|].
      destruct (IH y (fun a Ha => I a (or_intror Ha)) Hy) as (E1 & E2 & E3 & E4 & E5). unfold shows in Hx. cbn [template_handler] in Hx. subst x. cbn [flat_map]. rewrite E1, E2, E3, E4, E5. clear E1 E2 E3 E4 E5 IH Hy S.
      unfold uses_of, calls_of. rewrite !uses_plain, !calls_plain. unfold fun_toks. cbn [fd_fname fd_recv fd_params fd_results fd_body Main.rpc_of rpc_name rpc_req rpc_resp]. rewrite (body_lex svc methods Hmeth m (I m (or_introl eq_refl))).
      split; [reflexivity|]. split; [reflexivity|]. split; [reflexivity|]. split; reflexivity. }
    destruct (M methods k2s (fun a Ha => Ha) S3) as (E1 & E2 & E3 & E4 & E5). clear M S3. split; [eexists; reflexivity|].
    split; [cbn [flat_map]; rewrite E1; reflexivity|]. split; [cbn [flat_map]; rewrite E2; reflexivity|].
    split.
    - apply Forall_cons; [cbn [fst snd flat_map]; rewrite E5; reflexivity|]. apply Forall_cons; [cbn [fst snd flat_map]; rewrite E4; reflexivity|apply Forall_nil].
    - cbn [flat_map]. rewrite E3. reflexivity.
  Qed.
End Service.
