(** The declarations of the text of baron/NAME.pb.baron.go: the part for NATS. *)
From Coq Require Import String Lia.
From Verif Require Import GoStr GoStrProofs GoMap Strs StrsSpec SvcTypes HttpTransport Handler Generator Template Render TextSpec TextFile GoLex GoLexProofs GoDecls GoDeclsProofs WiringSpec DecoderText FileText GoGlue GlueProg WireProg.
From Verif Require Import FileGrpc.
From Verif Require PropStrs WiringProofs DecoderTexts DecoderTexts2 FileNest.

Section File.
  Variable format_source : str -> option str.
  Variable package_name : str -> str.
  Variable d : tdata.
  Notation methods := (sv_methods (td_service d)).
  Notation svc := (sv_name (td_service d)).
  Notation sec := (sec package_name).
  Definition nats_names (x : smethod) : list str := [sm_name x; go_camel_case (ft_name (sm_req x)); go_camel_case (ft_name (sm_resp x)); svc; to_lower (sm_name x); go_camel_case (sm_name x); td_package d].
  Hypothesis Hmeth : forall i, In i methods -> Forall ident (nats_names i).
  Hypothesis Hfile : Forall ident [svc; td_package d].
  Hypothesis Hdata : Forall inner [to_lower svc; go_camel_case svc].
  Ltac loop x Hx k :=
    lazymatch type of x with
    | smethod => let H := fresh in pose proof (Hmeth x Hx) as H; unfold nats_names in H; let H' := fresh in pose proof Hnone as H';
        k constr:([sm_name x; go_camel_case (ft_name (sm_req x)); go_camel_case (ft_name (sm_resp x)); svc; to_lower (sm_name x); go_camel_case (sm_name x); td_package d]) constr:(none); clear H H'
    end.
  Ltac elem v := eapply sec_say; [apply (sec_each package_name _ v (fun _ => [])); let x := fresh "x" in let Hx := fresh "Hx" in intros x Hx; loop x Hx ltac:(fun N Tx => piece loop N Tx)
                                 |let q := fresh in intro q; destruct q; cbv beta; first [apply map_flat|apply flat_none|apply each_names|reflexivity]|let y := fresh in intros y []].
  Ltac having v R := eapply sec_say; [apply (sec_each package_name _ v R); let x := fresh "x" in let Hx := fresh "Hx" in intros x Hx; loop x Hx ltac:(fun N Tx => eexists; eexists; split; [adds_with loop N Tx|]; split; [walk|]; split; [says|found])
                                 |let q := fresh in intro q; destruct q; cbv beta; first [apply map_flat|apply flat_none|apply each_names|reflexivity]|apply incl_refl].
  Definition serve_head : list token := [kw "func"; kw "ServeNATS"; op "("] ++ params_toks (f_params (serve_nats_fun svc [])) ++ [op ")"; kw "error"; op "{"].
  Lemma serve_toks ms : func_toks (serve_nats_fun svc ms) = serve_head ++ stms_row (flat_map (nats_subscribe svc) ms) ++ [kw "return"; kw "nil"; Semi; op "}"].
  Proof. unfold func_toks, serve_nats_fun. cbn [f_recv f_name f_params f_results f_body]. unfold block_toks. rewrite flat_map_app. cbn [flat_map stm_toks exp_toks map commas]. unfold serve_head, stms_row. repeat (first [rewrite <- app_assoc|progress cbn [app]]). reflexivity. Qed.
  Definition make_nats_head : list token := [kw "func"; kw "MakeNATSServer"; op "("] ++ params_toks (f_params (make_nats_fun [])) ++ [op ")"; op "*"; kw "natsServer"; op "{"]
    ++ stms_row (firstn 2 (f_body (make_nats_fun []))) ++ [kw "return"; op "&"; kw "natsServer"; op "{"].
  Lemma make_nats_toks ms : func_toks (make_nats_fun ms) = make_nats_head ++ flat_map field_row (map nats_handler ms) ++ [op "}"; Semi; op "}"].
  Proof. unfold func_toks, make_nats_fun, with_options. cbn [f_recv f_name f_params f_results f_body app block_toks flat_map map commas stm_toks exp_toks]. unfold make_nats_head. repeat (first [rewrite <- app_assoc|progress cbn [app]]). reflexivity. Qed.
  Definition new_nats_head : list token := [kw "func"; kw "NewNATSClient"; op "("] ++ params_toks (f_params (new_nats_fun svc [])) ++ [op ")"] ++ pair_ty [Word (svc ++ T "Server")] [kw "error"] ++ [op "{"].
  Lemma new_nats_toks ms : func_toks (new_nats_fun svc ms) = new_nats_head ++ stms_row (flat_map (nats_endpoint svc) ms) ++ [kw "return"; kw "Endpoints"; op "{"] ++ flat_map field_row (map endpoint_field ms) ++ [op "}"; op ","; kw "nil"; Semi; op "}"].
  Proof. unfold func_toks, new_nats_fun. cbn [f_recv f_name f_params f_results f_body]. unfold block_toks. rewrite flat_map_app. cbn [flat_map stm_toks exp_toks map commas]. unfold new_nats_head, stms_row. repeat (first [rewrite <- app_assoc|progress cbn [app]]). reflexivity. Qed.
  (** the pieces of the part *)
  Definition ps : list str := ltac:(let t := eval red in (p50 format_source d) in lazymatch t with (if _ then concat ?l else []) => exact l end).
  Lemma p50_ps : p50 format_source d = if with_nats d then concat ps else []. Proof. reflexivity. Qed.
  Lemma n12 : sec (concat (firstn 13 ps)) (fun q => match q with Names => [T "ServeNATS"; T "MakeNATSServer"; T "natsServer"] | NField => map sm_name methods | _ => [] end) [plain (func_toks (serve_nats_fun svc methods)); plain (func_toks (make_nats_fun methods))].
  Proof.
    unfold ps. cbn [firstn]. eexists; eexists; split; [adds_with loop [svc; td_package d] [to_lower svc; go_camel_case svc]|].
    split; [walk|]. split; [says|].
    - refine (fields_eq (T "natsServer") [] (fun i => [Word (sm_name i); Op (T "*"); Word (T "natstransport"); Op (T "."); Word (T "Subscriber")]) methods (map sm_name methods) _ _ _ _ _); [| | |reflexivity].
      + constructor.
      + intros y _; repeat split; [eexists; eexists; reflexivity|exists [Word (sm_name y); Op (T "*"); Word (T "natstransport"); Op (T ".")], (Word (T "Subscriber")); split; reflexivity].
      + apply map_flat.
    - intros y [<-|[<-|[]]]; [left|right; left]; refine (f_equal plain _).
      + rewrite serve_toks. repeat rewrite <- app_assoc. rewrite ?app_nil_l. apply f_equal2; [reflexivity|]. apply f_equal2; [eapply same_rows; [|apply rows_blocks]; intro x; reflexivity|reflexivity].
      + rewrite make_nats_toks. repeat rewrite <- app_assoc. rewrite ?app_nil_l. apply f_equal2; [reflexivity|]. apply f_equal2; [eapply same_rows; [|apply rows_fields]; intro x; reflexivity|reflexivity].
  Qed.
  Lemma n13 : sec (concat (firstn 1 (skipn 13 ps))) (just (Wiring.each (T "DecodeNATS") (map sm_name methods) (T "Request"))) (flat_map (fun x => [plain (func_toks (nats_dec_req_fun x))]) methods).
  Proof. unfold ps. cbn [firstn skipn]. apply sec_one. having (fun x => just [T "DecodeNATS" ++ sm_name x ++ T "Request"]) (fun x => [plain (func_toks (nats_dec_req_fun x))]). Qed.
  Lemma n20 : sec (concat (firstn 7 (skipn 14 ps))) (just [T "EncodeNATSGenericResponse"; T "NewNATSClient"]) [plain (func_toks nats_encode_fun); plain (func_toks (new_nats_fun svc methods))].
  Proof.
    pose proof Hnone. unfold ps. cbn [firstn skipn]. eexists; eexists; split.
    - eapply (adds_split 4); cbn [firstn skipn].
      + adds_with loop [svc; td_package d] none.
      + refine (adds_rows_cons (T "

	return Endpoints{") 1 _ _ (fun x => map (ftok (nth_name [sm_name x; go_camel_case (ft_name (sm_req x)); go_camel_case (ft_name (sm_resp x)); svc; to_lower (sm_name x); go_camel_case (sm_name x); td_package d]) (nth_text none))
          [Word (W 0 :: lit "Endpoint"); Op (T ":"); Word (W 4 :: lit "Endpoint"); Op (T ",")]) _ _ _ _ _ _).
        * lazymatch goal with |- adds _ ?l => change (adds (concat [T "

	return Endpoints{
	"]) l) end. adds_with loop [svc; td_package d] none.
        * intros x Hx. split.
          -- loop x Hx ltac:(fun N Tx => lexes N Tx).
          -- intro b. exact (ends_row [sm_name x; T "Endpoint:    "; to_lower (sm_name x)] (T "Endpoint,") 1 b).
        * adds_with loop [svc; td_package d] none.
    - split; [walk|]. split; [says|]. intros y [<-|[<-|[]]]; [left; reflexivity|right; left]. refine (f_equal plain _). rewrite new_nats_toks. repeat rewrite <- app_assoc. rewrite ?app_nil_l.
      apply f_equal2; [reflexivity|]. apply f_equal2; [eapply same_rows; [|apply rows_blocks]; intro x; reflexivity|].
      apply f_equal2; [reflexivity|]. apply f_equal2; [eapply same_rows; [|apply rows_fields]; intro x; reflexivity|reflexivity].
  Qed.
  Lemma n21 : sec (concat (firstn 1 (skipn 21 ps))) (just (Wiring.each (T "DecodeNATS") (map sm_name methods) (T "Response"))) (flat_map (fun x => [plain (func_toks (nats_dec_resp_fun x))]) methods).
  Proof. unfold ps. cbn [firstn skipn]. apply sec_one. having (fun x => just [T "DecodeNATS" ++ sm_name x ++ T "Response"]) (fun x => [plain (func_toks (nats_dec_resp_fun x))]). Qed.
  Lemma n22 : sec (concat (skipn 22 ps)) (just [T "EncodeNATSGenericRequest"]) [plain (func_toks nats_encode_request_fun)].
  Proof. pose proof Hnone. unfold ps. cbn [firstn skipn]. eexists; eexists; split; [adds_with loop [svc; td_package d] none|]; split; [walk|]; split; [says|found]. Qed.
  Definition nats_funs : list (list token) := [plain (func_toks (serve_nats_fun svc methods)); plain (func_toks (make_nats_fun methods)); plain (func_toks nats_encode_fun); plain (func_toks (new_nats_fun svc methods)); plain (func_toks nats_encode_request_fun)]
    ++ flat_map (fun x => [plain (func_toks (nats_dec_req_fun x))]) methods ++ flat_map (fun x => [plain (func_toks (nats_dec_resp_fun x))]) methods.
  Lemma s50 : sec (concat ps) (fun q => match q with
      | Names => [T "ServeNATS"; T "MakeNATSServer"; T "natsServer"] ++ Wiring.each (T "DecodeNATS") (map sm_name methods) (T "Request") ++ [T "EncodeNATSGenericResponse"; T "NewNATSClient"]
                 ++ Wiring.each (T "DecodeNATS") (map sm_name methods) (T "Response") ++ [T "EncodeNATSGenericRequest"]
      | NField => map sm_name methods
      | _ => [] end) nats_funs.
  Proof.
    eapply sec_say.
    - eapply (sec_split package_name 13 ps); [exact n12|].
      eapply (sec_split package_name 1 (skipn 13 ps)); [exact n13|]. change (skipn 1 (skipn 13 ps)) with (skipn 14 ps).
      eapply (sec_split package_name 7 (skipn 14 ps)); [exact n20|]. change (skipn 7 (skipn 14 ps)) with (skipn 21 ps).
      eapply (sec_split package_name 1 (skipn 21 ps)); [exact n21|]. change (skipn 1 (skipn 21 ps)) with (skipn 22 ps). exact n22.
    - intro q. destruct q; unfold and, just, no; cbn [app]; rewrite ?app_nil_r; reflexivity.
    - intros x Hx. unfold nats_funs in Hx. rewrite !in_app_iff in *. cbn [In] in *. tauto.
  Qed.
End File.
