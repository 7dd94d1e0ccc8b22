(** The declarations of the text of baron/NAME.pb.baron.go: the part for gRPC. *)
From Coq Require Import String Lia.
From Verif Require Import GoStr GoStrProofs GoMap Strs StrsSpec SvcTypes HttpTransport Handler Generator Template Render TextSpec TextFile GoLex GoLexProofs GoDecls GoDeclsProofs WiringSpec DecoderText FileText GoGlue GlueProg WireProg.
From Verif Require PropStrs WiringProofs DecoderTexts DecoderTexts2 FileNest.

(** Rows of literals and statements, one or more for each method *)
Definition field_row (p : str * gexp) : list token := [Word (fst p); op ":"] ++ exp_toks (snd p) ++ [op ","].
Definition stms_row (l : list gstm) : list token := flat_map (fun s => stm_toks s ++ [Semi]) l.
Lemma rows_fields {X} (g : X -> str * gexp) (l : list X) : concat (map (fun x => field_row (g x)) l) = flat_map field_row (map g l).
Proof. induction l as [|x l IH]; [reflexivity|]. cbn [map flat_map concat]. rewrite IH. reflexivity. Qed.
Lemma rows_blocks {X} (g : X -> list gstm) (l : list X) : concat (map (fun x => stms_row (g x)) l) = stms_row (flat_map g l).
Proof. unfold stms_row. induction l as [|x l IH]; [reflexivity|]. cbn [map flat_map concat]. rewrite IH, flat_map_app. reflexivity. Qed.
Lemma same_rows {X} (l : list X) (f g : X -> list token) y : (forall x, f x = g x) -> concat (map g l) = y -> concat (map f l) = y.
Proof. intros E <-. f_equal. apply map_ext. exact E. Qed.

Section File.
  Variable format_source : str -> option str.
  Variable package_name : str -> str.
  Variable d : tdata.
  Notation methods := (sv_methods (td_service d)).
  Notation svc := (sv_name (td_service d)).
  Notation sec := (sec package_name).
  Definition grpc_names (x : smethod) : list str := [sm_name x; go_camel_case (ft_name (sm_req x)); go_camel_case (ft_name (sm_resp x)); svc; to_lower (sm_name x); go_camel_case (sm_name x); td_package d].
  Hypothesis Hmeth : forall i, In i methods -> Forall ident (grpc_names i).
  Hypothesis Hfile : Forall ident [svc; td_package d].
  Hypothesis Hdata : Forall inner [to_lower svc; go_camel_case svc].
  Ltac loop x Hx k :=
    lazymatch type of x with
    | smethod => let H := fresh in pose proof (Hmeth x Hx) as H; unfold grpc_names in H; let H' := fresh in pose proof Hnone as H';
        k constr:([sm_name x; go_camel_case (ft_name (sm_req x)); go_camel_case (ft_name (sm_resp x)); svc; to_lower (sm_name x); go_camel_case (sm_name x); td_package d]) constr:(none); clear H H'
    end.
  Ltac elem v := eapply sec_say; [apply (sec_each package_name _ v (fun _ => [])); let x := fresh "x" in let Hx := fresh "Hx" in intros x Hx; loop x Hx ltac:(fun N Tx => piece loop N Tx)
                                 |let q := fresh in intro q; destruct q; cbv beta; first [apply map_flat|apply flat_none|apply each_names|reflexivity]|let y := fresh in intros y []].
  Ltac having v R := eapply sec_say; [apply (sec_each package_name _ v R); let x := fresh "x" in let Hx := fresh "Hx" in intros x Hx; loop x Hx ltac:(fun N Tx => eexists; eexists; split; [adds_with loop N Tx|]; split; [walk|]; split; [says|found])
                                 |let q := fresh in intro q; destruct q; cbv beta; first [apply map_flat|apply flat_none|apply each_names|reflexivity]|apply incl_refl].
  Definition make_grpc_head : list token := [kw "func"; kw "MakeGRPCServer"; op "("] ++ params_toks (f_params (make_grpc_fun svc [])) ++ [op ")"; Word (svc ++ T "Server"); op "{"]
    ++ stms_row (firstn 2 (f_body (make_grpc_fun svc []))) ++ [kw "return"; op "&"; kw "grpcServer"; op "{"].
  Lemma make_grpc_toks ms : func_toks (make_grpc_fun svc ms) = make_grpc_head ++ flat_map field_row (map grpc_handler ms) ++ [op "}"; Semi; op "}"].
  Proof. unfold func_toks, make_grpc_fun, with_options. cbn [f_recv f_name f_params f_results f_body app block_toks flat_map map commas stm_toks exp_toks]. unfold make_grpc_head. cbn [app]. repeat (first [rewrite <- app_assoc|progress cbn [app]]). repeat rewrite <- app_assoc. reflexivity. Qed.
  Definition new_grpc_head : list token := [kw "func"; kw "NewGRPCClient"; op "("] ++ params_toks (f_params (new_grpc_fun svc [] [])) ++ [op ")"] ++ pair_ty [Word (svc ++ T "Server")] [kw "error"] ++ [op "{"].
  Lemma new_grpc_toks p ms : func_toks (new_grpc_fun svc p ms) = new_grpc_head ++ stms_row (flat_map (grpc_endpoint svc p) ms) ++ [kw "return"; kw "Endpoints"; op "{"] ++ flat_map field_row (map endpoint_field ms) ++ [op "}"; op ","; kw "nil"; Semi; op "}"].
  Proof. unfold func_toks, new_grpc_fun. cbn [f_recv f_name f_params f_results f_body]. unfold block_toks. rewrite flat_map_app. cbn [flat_map stm_toks exp_toks map commas]. unfold new_grpc_head, stms_row. repeat (first [rewrite <- app_assoc|progress cbn [app]]). reflexivity. Qed.
  Definition embed : str := T "Unimplemented" ++ svc ++ T "Server".
  (** the pieces of the part *)
  Definition ps : list str := ltac:(let t := eval red in (p30 format_source d) in lazymatch t with (if _ then concat ?l else []) => exact l end).
  Lemma p30_ps : p30 format_source d = if with_grpc d then concat ps else []. Proof. reflexivity. Qed.
  Lemma g16 : sec (concat (firstn 17 ps)) (fun q => match q with Names => [T "MakeGRPCServer"; T "grpcServer"] | GField => embed :: map to_lower (map sm_name methods) | _ => [] end) [plain (func_toks (make_grpc_fun svc methods))].
  Proof.
    unfold ps. cbn [firstn]. eexists; eexists; split; [adds_with loop [svc; td_package d] [to_lower svc; go_camel_case svc]|].
    split; [walk|]. split; [says|].
    - refine (fields_eq (T "grpcServer") [[Word embed]] (fun i => [Word (to_lower (sm_name i)); Word (T "grpctransport"); Op (T "."); Word (T "Handler")]) methods (map to_lower (map sm_name methods)) _ _ _ _ _); [| | |reflexivity].
      + repeat constructor; [eexists; eexists; reflexivity|exists [], (Word embed); split; reflexivity].
      + intros y _; repeat split; [eexists; eexists; reflexivity|exists [Word (to_lower (sm_name y)); Word (T "grpctransport"); Op (T ".")], (Word (T "Handler")); split; reflexivity].
      + rewrite map_map. apply (map_flat (fun i => to_lower (sm_name i))).
    - intros y [<-|[]]; left. refine (f_equal plain _). rewrite make_grpc_toks. repeat rewrite <- app_assoc. rewrite ?app_nil_l. apply f_equal2; [reflexivity|]. apply f_equal2; [|reflexivity].
      eapply same_rows; [|apply rows_fields]. intro x. reflexivity.
  Qed.
  Lemma g17 : sec (concat (firstn 1 (skipn 17 ps))) (fun q => match q with GMethod => map (fun x => go_camel_case (sm_name x)) methods | _ => [] end) (flat_map (fun x => [plain (func_toks (grpc_method_fun x))]) methods).
  Proof. unfold ps. cbn [firstn skipn]. apply sec_one. having (fun x q => match q with GMethod => [go_camel_case (sm_name x)] | _ => [] end) (fun x => [plain (func_toks (grpc_method_fun x))]). Qed.
  Lemma note18 : sec (concat (firstn 1 (skipn 18 ps))) no []. Proof. pose proof Hnone. unfold ps. cbn [firstn skipn]. piece loop [svc; td_package d] none. Qed.
  Lemma g19 : sec (concat (firstn 1 (skipn 19 ps))) (just (Wiring.each (T "DecodeGRPC") (map sm_name methods) (T "Request"))) (flat_map (fun x => [plain (func_toks (grpc_dec_req_fun x))]) methods).
  Proof. unfold ps. cbn [firstn skipn]. apply sec_one. having (fun x => just [T "DecodeGRPC" ++ sm_name x ++ T "Request"]) (fun x => [plain (func_toks (grpc_dec_req_fun x))]). Qed.
  Lemma note20 : sec (concat (firstn 1 (skipn 20 ps))) no []. Proof. pose proof Hnone. unfold ps. cbn [firstn skipn]. piece loop [svc; td_package d] none. Qed.
  Lemma g21 : sec (concat (firstn 1 (skipn 21 ps))) (just (Wiring.each (T "EncodeGRPC") (map sm_name methods) (T "Response"))) (flat_map (fun x => [plain (func_toks (grpc_enc_resp_fun x))]) methods).
  Proof. unfold ps. cbn [firstn skipn]. apply sec_one. having (fun x => just [T "EncodeGRPC" ++ sm_name x ++ T "Response"]) (fun x => [plain (func_toks (grpc_enc_resp_fun x))]). Qed.
  Lemma package_there : nonempty (td_package d) = true.
  Proof. inversion Hfile as [|? ? _ H2]; subst. inversion H2 as [|? ? H3 _]; subst. destruct (td_package d); [destruct H3 as [[] _]|reflexivity]. Qed.
  Lemma g28 : sec (concat (firstn 7 (skipn 22 ps))) (just [T "GRPCMetadataToContext"; T "NewGRPCClient"]) [plain (func_toks metadata_fun); plain (func_toks (new_grpc_fun svc (td_package d) methods))].
  Proof.
    pose proof Hnone. unfold ps. cbn [firstn skipn]. eexists; eexists; split.
    - eapply (adds_split 4); cbn [firstn skipn].
      + adds_with loop [svc; td_package d] none.
      + refine (adds_rows_cons (T "

	return Endpoints{") 1 _ _ (fun x => map (ftok (nth_name [sm_name x; go_camel_case (ft_name (sm_req x)); go_camel_case (ft_name (sm_resp x)); svc; to_lower (sm_name x); go_camel_case (sm_name x); td_package d]) (nth_text none))
          [Word (W 0 :: lit "Endpoint"); Op (T ":"); Word (W 4 :: lit "Endpoint"); Op (T ",")]) _ _ _ _ _ _).
        * lazymatch goal with |- adds _ ?l => change (adds (concat [T "

	return Endpoints{
	"]) l) end. adds_with loop [svc; td_package d] none.
        * intros x Hx. split.
          -- loop x Hx ltac:(fun N Tx => lexes N Tx).
          -- intro b. exact (ends_row [sm_name x; T "Endpoint:    "; to_lower (sm_name x)] (T "Endpoint,") 1 b).
        * adds_with loop [svc; td_package d] none.
    - split; [walk|]. split; [says|]. intros y [<-|[<-|[]]]; [left; reflexivity|right; left]. refine (f_equal plain _). rewrite new_grpc_toks. repeat rewrite <- app_assoc. rewrite ?app_nil_l.
      apply f_equal2; [reflexivity|]. apply f_equal2; [rewrite package_there, app_nil_r; eapply same_rows; [|apply rows_blocks]; intro x; reflexivity|].
      apply f_equal2; [reflexivity|]. apply f_equal2; [eapply same_rows; [|apply rows_fields]; intro x; reflexivity|reflexivity].
  Qed.
  Lemma g29 : sec (concat (firstn 1 (skipn 29 ps))) (just (Wiring.each (T "DecodeGRPC") (map sm_name methods) (T "Response"))) (flat_map (fun x => [plain (func_toks (grpc_dec_resp_fun x))]) methods).
  Proof. unfold ps. cbn [firstn skipn]. apply sec_one. having (fun x => just [T "DecodeGRPC" ++ sm_name x ++ T "Response"]) (fun x => [plain (func_toks (grpc_dec_resp_fun x))]). Qed.
  Lemma note30 : sec (concat (firstn 1 (skipn 30 ps))) no []. Proof. pose proof Hnone. unfold ps. cbn [firstn skipn]. piece loop [svc; td_package d] none. Qed.
  Lemma g31 : sec (concat (firstn 1 (skipn 31 ps))) (just (Wiring.each (T "EncodeGRPC") (map sm_name methods) (T "Request"))) (flat_map (fun x => [plain (func_toks (grpc_enc_req_fun x))]) methods).
  Proof. unfold ps. cbn [firstn skipn]. apply sec_one. having (fun x => just [T "EncodeGRPC" ++ sm_name x ++ T "Request"]) (fun x => [plain (func_toks (grpc_enc_req_fun x))]). Qed.
  Lemma g32 : sec (concat (skipn 32 ps)) (just [T "ContextValuesToGRPCMetadata"]) [plain (func_toks to_metadata_fun)].
  Proof. pose proof Hnone. unfold ps. cbn [firstn skipn]. eexists; eexists; split; [adds_with loop [svc; td_package d] none|]; split; [walk|]; split; [says|found]. Qed.
  Definition per_method (f : smethod -> gfunc) : list (list token) := flat_map (fun x => [plain (func_toks (f x))]) methods.
  Definition grpc_funs : list (list token) := [plain (func_toks metadata_fun); plain (func_toks to_metadata_fun)] ++ [plain (func_toks (make_grpc_fun svc methods)); plain (func_toks (new_grpc_fun svc (td_package d) methods))]
    ++ per_method grpc_method_fun ++ per_method grpc_dec_req_fun ++ per_method grpc_enc_resp_fun ++ per_method grpc_dec_resp_fun ++ per_method grpc_enc_req_fun.
  Lemma s30 : sec (concat ps) (fun q => match q with
      | Names => [T "MakeGRPCServer"; T "grpcServer"] ++ Wiring.each (T "DecodeGRPC") (map sm_name methods) (T "Request") ++ Wiring.each (T "EncodeGRPC") (map sm_name methods) (T "Response")
                 ++ [T "GRPCMetadataToContext"; T "NewGRPCClient"] ++ Wiring.each (T "DecodeGRPC") (map sm_name methods) (T "Response") ++ Wiring.each (T "EncodeGRPC") (map sm_name methods) (T "Request") ++ [T "ContextValuesToGRPCMetadata"]
      | GField => embed :: map to_lower (map sm_name methods)
      | GMethod => map (fun x => go_camel_case (sm_name x)) methods
      | _ => [] end) grpc_funs.
  Proof.
    eapply sec_say.
    - eapply (sec_split package_name 17 ps); [exact g16|].
      eapply (sec_split package_name 1 (skipn 17 ps)); [exact g17|]. change (skipn 1 (skipn 17 ps)) with (skipn 18 ps).
      eapply (sec_split package_name 1 (skipn 18 ps)); [exact note18|]. change (skipn 1 (skipn 18 ps)) with (skipn 19 ps).
      eapply (sec_split package_name 1 (skipn 19 ps)); [exact g19|]. change (skipn 1 (skipn 19 ps)) with (skipn 20 ps).
      eapply (sec_split package_name 1 (skipn 20 ps)); [exact note20|]. change (skipn 1 (skipn 20 ps)) with (skipn 21 ps).
      eapply (sec_split package_name 1 (skipn 21 ps)); [exact g21|]. change (skipn 1 (skipn 21 ps)) with (skipn 22 ps).
      eapply (sec_split package_name 7 (skipn 22 ps)); [exact g28|]. change (skipn 7 (skipn 22 ps)) with (skipn 29 ps).
      eapply (sec_split package_name 1 (skipn 29 ps)); [exact g29|]. change (skipn 1 (skipn 29 ps)) with (skipn 30 ps).
      eapply (sec_split package_name 1 (skipn 30 ps)); [exact note30|]. change (skipn 1 (skipn 30 ps)) with (skipn 31 ps).
      eapply (sec_split package_name 1 (skipn 31 ps)); [exact g31|]. change (skipn 1 (skipn 31 ps)) with (skipn 32 ps). exact g32.
    - intro q. destruct q; unfold and, just, no; cbn [app]; rewrite ?app_nil_r; reflexivity.
    - intros x Hx. unfold grpc_funs, per_method in Hx. rewrite !in_app_iff in *. cbn [In] in *. tauto.
  Qed.
End File.
