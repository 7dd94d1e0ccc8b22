(** The declarations of the text of baron/NAME.pb.baron.go: its head, and the part that does not depend on the transport. *)
From Coq Require Import String Lia.
From Verif Require Import GoStr GoStrProofs GoMap Strs StrsSpec SvcTypes HttpTransport Handler Generator Template Render TextSpec TextFile GoLex GoLexProofs GoDecls GoDeclsProofs WiringSpec DecoderText FileText GoGlue GlueProg.
From Verif Require PropStrs WiringProofs DecoderTexts DecoderTexts2 FileNest.

Section File.
  Variable format_source : str -> option str.
  Variable package_name : str -> str.
  Variable d : tdata.
  Notation methods := (sv_methods (td_service d)).
  Notation svc := (sv_name (td_service d)).
  Notation sec := (sec package_name).
  Hypothesis Hmeth : forall i, In i methods -> Forall ident [sm_name i; go_camel_case (ft_name (sm_req i)); go_camel_case (ft_name (sm_resp i)); svc].
  Hypothesis Hfile : Forall ident [svc; td_package d].
  Hypothesis Hdata : Forall inner [td_version d; td_date d].
  Ltac loop x Hx k :=
    lazymatch type of x with
    | smethod => let H := fresh in pose proof (Hmeth x Hx) as H; let H' := fresh in pose proof Hnone as H'; k constr:([sm_name x; go_camel_case (ft_name (sm_req x)); go_camel_case (ft_name (sm_resp x)); svc]) constr:(none); clear H H'
    end.
  Ltac elem v := eapply sec_say; [apply (sec_each package_name _ v (fun _ => [])); let x := fresh "x" in let Hx := fresh "Hx" in intros x Hx; loop x Hx ltac:(fun N Tx => piece loop N Tx)
                                 |let q := fresh in intro q; destruct q; cbv beta; first [apply map_flat|apply flat_none|apply each_names|reflexivity]|let y := fresh in intros y []].

  Definition embed : str := T "Unimplemented" ++ svc ++ T "Server".
  Definition v17 : query -> list str := fun q => match q with
    | Names => [T "Endpoints"] | EField => embed :: Wiring.each [] (map sm_name methods) (T "Endpoint")
    | Imports => map package_name [T "bytes"; T "context"; T "encoding/json"; T "fmt"; T "io"; T "io/ioutil"; T "net/http"; T "net/url"; T "strconv"; T "strings"; T "github.com/go-kit/kit/endpoint"]
      ++ [T "anypb"; T "durationpb"; T "emptypb"; T "fieldmaskpb"; T "structpb"; T "timestamppb"; T "wrapperspb"]
      ++ map package_name [T "github.com/gorilla/mux"; T "github.com/pkg/errors"; T "google.golang.org/protobuf/encoding/protojson"; T "google.golang.org/protobuf/proto"]
      ++ (if with_nats d then [package_name (T "github.com/nats-io/nats.go")] else [])
      ++ (if with_grpc d then [package_name (T "google.golang.org/grpc"); package_name (T "google.golang.org/grpc/metadata"); T "grpctransport"] else [])
      ++ [T "httptransport"] ++ (if with_nats d then [T "natstransport"] else [])
    | _ => [] end.
  Lemma s17 : sec (concat ((10%N :: p0 format_source d) :: firstn 17 (skipn 1 (baron_pieces format_source d)))) v17 [].
  Proof.
    unfold v17, baron_pieces. cbn [firstn skipn]. unfold p7, p8, p10, p12, p16. destruct (with_nats d), (with_grpc d).
    all: eexists; eexists; split; [adds_with loop [svc; td_package d] [td_version d; td_date d]|].
    all: split; [walk|]. all: split; [says|none].
    all: refine (fields_eq (T "Endpoints") [[Word embed]] (fun i => [Word (sm_name i ++ T "Endpoint"); Word (T "endpoint"); Op (T "."); Word (T "Endpoint")]) methods (Wiring.each [] (map sm_name methods) (T "Endpoint")) _ _ _ _ _); [| |exact (each_names sm_name [] (T "Endpoint") methods)|reflexivity].
    all: try (repeat constructor; [eexists; eexists; reflexivity|exists [], (Word embed); split; reflexivity]).
    all: intros y _; repeat split; [eexists; eexists; reflexivity|exists [Word (sm_name y ++ T "Endpoint"); Word (T "endpoint"); Op (T ".")], (Word (T "Endpoint")); split; reflexivity].
  Qed.
  Definition v18 : query -> list str := fun q => match q with EMethod => map sm_name methods | _ => [] end.
  Ltac having v R := eapply sec_say; [apply (sec_each package_name _ v R); let x := fresh "x" in let Hx := fresh "Hx" in intros x Hx; loop x Hx ltac:(fun N Tx => eexists; eexists; split; [adds_with loop N Tx|]; split; [walk|]; split; [says|found])
                                 |let q := fresh in intro q; destruct q; cbv beta; first [apply map_flat|apply flat_none|apply each_names|reflexivity]|apply incl_refl].
  Definition calls : list (list token) := flat_map (fun x => [plain (func_toks (call_fun x))]) methods.
  Definition makes : list (list token) := flat_map (fun x => [plain (func_toks (make_fun svc x))]) methods.
  Lemma s18 : sec (p18 format_source d) v18 calls.
  Proof. unfold p18, v18, calls. having (fun x q => match q with EMethod => [sm_name x] | _ => [] end) (fun x => [plain (func_toks (call_fun x))]). Qed.
  Lemma s19 : sec (p19 format_source d) no [].
  Proof. pose proof Hnone. unfold p19. piece loop [svc; td_package d] none. Qed.
  Lemma s20 : sec (p20 format_source d) (just (Wiring.each (T "Make") (map sm_name methods) (T "Endpoint"))) makes.
  Proof.
    pose proof Hnone. unfold p20, makes. eapply sec_say; [eapply sec_concat_cons with (v := just (Wiring.each (T "Make") (map sm_name methods) (T "Endpoint"))) (R := flat_map (fun x => [plain (func_toks (make_fun svc x))]) methods) (w := no) (Q := [])|..].
    - having (fun x => just [T "Make" ++ sm_name x ++ T "Endpoint"]) (fun x => [plain (func_toks (make_fun svc x))]).
    - piece loop [svc; td_package d] none.
    - intro q. destruct q; try reflexivity. apply app_nil_r.
    - rewrite app_nil_r. apply incl_refl.
  Qed.
  Definition wraps : list (list token) := [plain (func_toks (wrap_fun false (map sm_name methods))); plain (func_toks (wrap_fun true (map sm_name methods)))].
  Definition key_row (s : str) : list token := [Str s; op ":"; op "{"; op "}"; op ","].
  Definition stm_row (s : gstm) : list token := stm_toks s ++ [Semi].
  Lemma rows_keys {X} (f : X -> str) (l : list X) : concat (map (fun x => key_row (f x)) l) = flat_map key_row (map f l).
  Proof. induction l as [|x l IH]; [reflexivity|]. cbn [map flat_map concat]. rewrite IH. reflexivity. Qed.
  Lemma rows_stms {X} (g : str -> gstm) (f : X -> str) (l : list X) : concat (map (fun x => stm_row (g (f x))) l) = flat_map stm_row (map g (map f l)).
  Proof. induction l as [|x l IH]; [reflexivity|]. cbn [map flat_map concat]. rewrite IH. reflexivity. Qed.
  Definition wrap_head (b : bool) : list token := [kw "func"; op "("; kw "e"; op "*"; kw "Endpoints"; op ")"; Word (f_name (wrap_fun b [])); op "("] ++ params_toks (f_params (wrap_fun b [])) ++
    [op ")"; op "{"; kw "included"; op ":="; kw "map"; op "["; kw "string"; op "]"; kw "struct"; op "{"; op "}"; op "{"].
  Definition wrap_middle : list token := [op "}"; Semi] ++ stm_row (nth 1 (f_body (wrap_fun true [])) (SRet [])) ++ [kw "for"; kw "inc"; op ":="; kw "range"; kw "included"; op "{"].
  Lemma wrap_toks b names : func_toks (wrap_fun b names) = wrap_head b ++ flat_map key_row names ++ wrap_middle ++ flat_map stm_row (map (wrap_one b) names) ++ [op "}"; Semi; op "}"].
  Proof.
    unfold func_toks, wrap_fun. cbn [f_recv f_name f_params f_results f_body block_toks flat_map stm_toks exp_toks]. rewrite !app_nil_r. unfold wrap_head, wrap_middle, stm_row at 1. unfold block_toks. cbn [flat_map]. cbn [stm_toks exp_toks]. repeat rewrite <- app_assoc. destruct b; reflexivity.
  Qed.
  Lemma s29 : sec (concat (firstn 9 (skipn 21 (baron_pieces format_source d)))) (fun q => match q with Names => [T "LabeledMiddleware"] | EMethod => [T "WrapAllExcept"; T "WrapAllLabeledExcept"] | _ => [] end) wraps.
  Proof. pose proof Hnone. unfold baron_pieces. cbn [firstn skipn]. unfold p22, p24, p26, p28. eexists; eexists; split; [adds_with loop [svc; td_package d] none|]; split; [walk|]; split; [says|].
    assert (K : forall (f : smethod -> list token) (g : smethod -> list token) y, (forall x, f x = g x) -> concat (map g methods) = y -> concat (map f methods) = y) by (intros f g y E <-; f_equal; apply map_ext; exact E).
    intros y [<-|[<-|[]]]; [left|right; right; left].
    all: refine (f_equal plain _); rewrite wrap_toks; repeat rewrite <- app_assoc; rewrite ?app_nil_l; apply f_equal2; [reflexivity|]; apply f_equal2; [eapply K; [|apply rows_keys]; intro x; reflexivity|].
    all: apply f_equal2; [reflexivity|]; apply f_equal2; [eapply K; [|apply rows_stms]; intro x; reflexivity|reflexivity].
  Qed.
End File.
