(** The declarations of service/service.go, first version and new handlers: proofs (the statements are in PropService.v). *)
From Coq Require Import String Lia.
From Verif Require Import GoStr GoStrProofs GoMap Strs StrsSpec SvcTypes HttpTransport Handler Generator Template Render TextSpec TextFile GoLex GoLexProofs GoDecls GoDeclsProofs WiringSpec DecoderText FileText GoUse GoUseProofs HandlerText TextOthers.
From Verif Require Main WiringProofs DecoderTexts.

(** Texts with their declarations *)
Definition filed (s : str) (Q : list (list token) -> Prop) : Prop := exists L ds, adds (10%N :: s) L /\ parts L = Some ds /\ Q (map plain ds).
Lemma filed_reads s Q : filed s Q -> exists ds, declarations s = Some ds /\ Q ds.
Proof.
  intros (L & ds & A & P & V). exists (map plain ds). split; [|exact V]. unfold declarations, tokens. specialize (A []). cbn [app] in A.
  assert (E : lex s = L) by (rewrite <- DecoderTexts.lex_newline; exact A). rewrite E. apply parts_iff in P. destruct P as [-> F].
  destruct (plain_ended ds F) as [-> _]. apply parts_iff. split; [reflexivity|]. apply Forall_map. eapply Forall_impl; [|exact F]. intros x Hx. apply decl_plain. exact Hx.
Qed.
Lemma filed_text s t Q : filed s Q -> s = t -> filed t Q. Proof. intros H <-. exact H. Qed.

(** The name of the type of the service: one word *)
Definition service_type (svc : str) : str := to_lower svc ++ T "Service".
Lemma no_keyword suf x : (forall k, In k go_keywords -> str_eqb (firstn (length suf) (rev k)) (rev suf) = false) -> ~ In (x ++ suf) go_keywords.
Proof.
  intros H K. specialize (H _ K). rewrite rev_app_distr, firstn_app, <- rev_length, firstn_all, Nat.sub_diag, firstn_O, app_nil_r in H. rewrite (proj2 (str_eqb_eq (rev suf) (rev suf)) eq_refl) in H. discriminate.
Qed.
Lemma lower_runes n : exported_ident n -> match to_lower n with [] => False | c :: r => (is_letter c = true \/ c = c_underscore) /\ Forall ident_rune r end.
Proof.
  destruct n as [|c n]; [intros []|]. intros [H1 H2]. cbn [to_lower map].
  assert (L : forall c, is_upper c = true -> is_lower (lower1 c) = true).
  { intros x Hx. unfold lower1. rewrite Hx. unfold is_upper, in_range in Hx. apply andb_prop in Hx. rewrite !N.leb_le in Hx. unfold is_lower, in_range. apply andb_true_intro. rewrite !N.leb_le. lia. }
  split; [left; unfold is_letter; rewrite (L c H1); reflexivity|]. apply Forall_map. eapply Forall_impl; [|exact H2]. intros x Hx. unfold ident_rune in *. unfold lower1. destruct (is_upper x) eqn:E; [|exact Hx].
  left. pose proof (L x E) as Q. unfold lower1 in Q. rewrite E in Q. unfold is_alnum, is_letter. rewrite Q. reflexivity.
Qed.
Lemma suffixed n suf : exported_ident n -> Forall ident_rune suf -> (forall k, In k go_keywords -> str_eqb (firstn (length suf) (rev k)) (rev suf) = false) -> ident (to_lower n ++ suf).
Proof.
  intros H F K. split; [|apply no_keyword; exact K]. pose proof (lower_runes n H) as R. destruct (to_lower n) as [|c r]; [destruct R|]. destruct R as [R1 R2]. cbn [app]. split; [exact R1|]. apply Forall_app. split; assumption.
Qed.
Lemma service_type_ident svc : exported_ident svc -> ident (service_type svc).
Proof.
  intro H. apply suffixed; [exact H|repeat constructor|]. apply Forall_forall. vm_compute. repeat constructor.
Qed.

Section Handlers.
  Variable svc : str.
  Variable ms : list smethod.
  Definition hnames (i : smethod) : list str := [service_type svc; sm_name i; go_camel_case (ft_name (sm_req i)); go_camel_case (ft_name (sm_resp i))].
  Hypothesis Hmeth : forall i, In i ms -> Forall ident (hnames i).
  Ltac loop x Hx k :=
    lazymatch type of x with
    | smethod => let H := fresh in pose proof (Hmeth x Hx) as H; unfold hnames in H; let H' := fresh in pose proof Hnone as H';
        k constr:([service_type svc; sm_name x; go_camel_case (ft_name (sm_req x)); go_camel_case (ft_name (sm_resp x))]) constr:(none); clear H H'
    end.
  Definition handler_text (i : smethod) : str := concat [T "
		func (s *"; service_type svc; T ") "; sm_name i; T "(ctx context.Context, in *pb."; go_camel_case (ft_name (sm_req i)); T ") (*pb."; go_camel_case (ft_name (sm_resp i)); T ", error){
			var resp pb."; go_camel_case (ft_name (sm_resp i)); T "
			return &resp, nil
		}
	"].
  Lemma handlers_texts : concat (service_methods_pieces svc ms) = concat [T "
	"; each handler_text ms; T "
"].
  Proof.
    unfold service_methods_pieces. cbn [concat]. rewrite !app_nil_r, <- app_assoc. f_equal. f_equal. unfold each. f_equal. apply map_ext. intro i. unfold handler_text, service_type. cbn [concat]. rewrite <- !app_assoc. reflexivity.
  Qed.
  Lemma body_lex i : In i ms -> lex (T "var resp pb." ++ go_camel_case (ft_name (sm_resp i)) ++ T "; return &resp, nil") =
    [Word (T "var"); Word (T "resp"); Word (T "pb"); Op (T "."); Word (go_camel_case (ft_name (sm_resp i))); Semi; Word (T "return"); Op (T "&"); Word (T "resp"); Op (T ","); Word (T "nil"); Semi].
  Proof. intro Hi. loop i Hi ltac:(fun N Tx => erewrite (lex_reads N Tx); [|assumption|assumption|reads|vm_compute; reflexivity|vm_compute; reflexivity]). reflexivity. Qed.
  Lemma one_handler i : In i ms -> exists G hs, adds (handler_text i) G /\ parts G = Some hs /\ Forall2 shows (map plain hs) [template_handler svc (Main.rpc_of i)].
  Proof.
    intro Hi. eexists. eexists. split; [unfold handler_text; loop i Hi ltac:(fun N Tx => adds_with loop N Tx)|]. split; [walk|]. cbn [map app]. constructor; [|constructor].
    unfold shows, template_handler, fun_toks. cbn [fd_fname fd_recv fd_params fd_results fd_body Main.rpc_of rpc_name rpc_req rpc_resp]. rewrite (body_lex i Hi). reflexivity.
  Qed.
  Lemma all_handlers : exists G hs, adds (each handler_text ms) G /\ parts G = Some hs /\ Forall2 shows (map plain hs) (map (template_handler svc) (map Main.rpc_of ms)).
  Proof.
    assert (H : forall l, incl l ms -> exists G hs, adds (each handler_text l) G /\ parts G = Some hs /\ Forall2 shows (map plain hs) (map (template_handler svc) (map Main.rpc_of l))).
    { induction l as [|i l IH]; intro I; [exists [], []; split; [exact adds_nil|]; split; [reflexivity|constructor]|].
      destruct (one_handler i (I i (or_introl eq_refl))) as (G1 & h1 & A1 & P1 & S1). destruct (IH (fun x Hx => I x (or_intror Hx))) as (G2 & h2 & A2 & P2 & S2).
      exists (G1 ++ G2), (h1 ++ h2). split; [unfold each; cbn [map concat]; apply adds_app; assumption|]. split; [apply parts_app; assumption|]. rewrite map_app. exact (Forall2_app S1 S2). }
    apply H. intros x Hx. exact Hx.
  Qed.
  Lemma methods_text : exists G hs, adds (concat (service_methods_pieces svc ms)) G /\ parts G = Some hs /\ Forall2 shows (map plain hs) (map (template_handler svc) (map Main.rpc_of ms)).
  Proof.
    destruct all_handlers as (G & hs & A & P & S). exists G, hs. split; [|split; assumption]. rewrite handlers_texts. cbn [concat]. rewrite app_nil_r.
    assert (B : adds (T "
") []) by (intro a; change (lex (a ++ 10%N :: []) = lex a ++ []); rewrite lex_lines; reflexivity).
    assert (B2 : adds (T "
	") []) by (intro a; change (lex (a ++ 10%N :: [9%N]) = lex a ++ []); rewrite lex_lines; reflexivity).
    pose proof (adds_app _ _ _ _ B2 (adds_app _ _ _ _ A B)) as C. rewrite app_nil_r in C. exact C.
  Qed.
End Handlers.

(** A text and new handlers after it *)
Lemma appended code L new G hs kept : declarations code = Some kept -> adds new G -> parts G = Some hs -> L = map plain hs -> declarations (code ++ new) = Some (kept ++ L).
Proof.
  intros D A P ->. unfold declarations, tokens in *. rewrite (A code). apply parts_iff in P. destruct P as [-> F]. destruct (plain_ended hs F) as [E C]. rewrite plain_app_open by exact C. apply parts_app; [exact D|]. rewrite E.
  apply parts_iff. split; [reflexivity|]. apply Forall_map. eapply Forall_impl; [|exact F]. intros x Hx. apply decl_plain. exact Hx.
Qed.

Section First.
  Variable d : tdata.
  Notation svc := (sv_name (td_service d)).
  Notation methods := (sv_methods (td_service d)).
  Hypothesis Hmeth : forall i, In i methods -> Forall ident (hnames svc i).
  Hypothesis Hsvc : Forall ident [service_type svc; svc].
  Hypothesis Hpb : Forall inner [td_pb_import d].
  Definition first_head : str := concat [T "package service

import (
	""context""

	pb """; td_pb_import d; T """
)

func NewService() *"; service_type svc; T " {
	return &"; service_type svc; T "{}
}

type "; service_type svc; T " struct {
	pb.Unimplemented"; svc; T "Server
}

"].
  Lemma first_texts : concat (service_pieces d) = concat [first_head; T "
	"; each (handler_text svc) methods; T "
"].
  Proof.
    assert (E : each (handler_text svc) methods = each (fun i => concat [T "
		func (s *"; to_lower svc; T "Service) "; sm_name i; T "(ctx context.Context, in *pb."; go_camel_case (ft_name (sm_req i)); T ") (*pb."; go_camel_case (ft_name (sm_resp i)); T ", error){
			var resp pb."; go_camel_case (ft_name (sm_resp i)); T "
			return &resp, nil
		}
	"]) methods).
    { unfold each. f_equal. apply map_ext. intro i. unfold handler_text, service_type. cbn [concat]. rewrite <- !app_assoc. reflexivity. }
    rewrite E. unfold service_pieces, first_head, service_type. generalize (each (fun i => concat [T "
		func (s *"; to_lower svc; T "Service) "; sm_name i; T "(ctx context.Context, in *pb."; go_camel_case (ft_name (sm_req i)); T ") (*pb."; go_camel_case (ft_name (sm_resp i)); T ", error){
			var resp pb."; go_camel_case (ft_name (sm_resp i)); T "
			return &resp, nil
		}
	"]) methods). intro t. cbn [concat]. rewrite !app_nil_r, <- !app_assoc. reflexivity.
  Qed.
  Ltac loop x Hx k := fail.
  Definition struct_toks : list token := [Word (T "type"); Word (service_type svc); Word (T "struct"); Op (T "{"); Word (T "pb"); Op (T "."); Word (T "Unimplemented" ++ svc ++ T "Server"); Op (T "}")].
  Definition import_toks : list token := [Word (T "import"); Op (T "("); Str (T "context"); Semi; Word (T "pb"); Str (td_pb_import d); Op (T ")")].
  Lemma head_text : exists G hs, adds (10%N :: first_head) G /\ parts G = Some hs /\ map plain hs = [[Word (T "package"); Word (T "service")]; import_toks; plain (fun_toks (mkFun ignored_func None [] [mkAF [] (EStar (EIdent (service_type svc)))] (T "return &" ++ service_type svc ++ T "{}") [])); struct_toks].
  Proof.
    assert (B : lex (T "return &" ++ service_type svc ++ T "{}") = [Word (T "return"); Op (T "&"); Word (service_type svc); Op (T "{"); Op (T "}"); Semi]).
    { pose proof Hnone. erewrite (lex_reads [service_type svc; svc] none); [|assumption|assumption|reads|vm_compute; reflexivity|vm_compute; reflexivity]. reflexivity. }
    eexists. eexists. split; [|split].
    - change (10%N :: first_head) with (concat [10%N :: T "package service

import (
	""context""

	pb """; td_pb_import d; T """
)

func NewService() *"; service_type svc; T " {
	return &"; service_type svc; T "{}
}

type "; service_type svc; T " struct {
	pb.Unimplemented"; svc; T "Server
}

"]). adds_with loop [service_type svc; svc] [td_pb_import d].
    - walk.
    - unfold fun_toks. cbn [fd_fname fd_recv fd_params fd_results fd_body]. rewrite B. reflexivity.
  Qed.
  Lemma first_reads : exists ks, declarations (concat (service_pieces d)) = Some ([Word (T "package"); Word (T "service")] :: ks) /\ Forall2 shows ks (first_file svc (map Main.rpc_of methods)) /\
    nth 0 ks [] = import_toks /\ nth 2 ks [] = struct_toks.
  Proof.
    destruct head_text as (G1 & h1 & A1 & P1 & E1). destruct (all_handlers svc methods Hmeth) as (G2 & h2 & A2 & P2 & S2).
    assert (F : filed (concat (service_pieces d)) (fun ds => ds = map plain h1 ++ map plain h2)).
    { exists (G1 ++ G2), (h1 ++ h2). split; [|split; [apply parts_app; assumption|apply map_app]]. rewrite first_texts.
      change (10%N :: concat [first_head; T "
	"; each (handler_text svc) methods; T "
"]) with ((10%N :: first_head) ++ concat [T "
	"; each (handler_text svc) methods; T "
"]). apply adds_app; [exact A1|]. cbn [concat]. rewrite app_nil_r.
      assert (B : adds (T "
") []) by (intro a; change (lex (a ++ 10%N :: []) = lex a ++ []); rewrite lex_lines; reflexivity).
      assert (B2 : adds (T "
	") []) by (intro a; change (lex (a ++ 10%N :: [9%N]) = lex a ++ []); rewrite lex_lines; reflexivity).
      pose proof (adds_app _ _ _ _ B2 (adds_app _ _ _ _ A2 B)) as C. rewrite app_nil_r in C. exact C. }
    destruct (filed_reads _ _ F) as (ds & D & ->). rewrite E1 in D. cbn [app] in D. eexists. split; [exact D|]. split; [|split; reflexivity].
    constructor; [|constructor; [|constructor]].
    - split; [|discriminate]. exists (skipn 1 import_toks). reflexivity.
    - assert (Eb : T "return &" ++ service_type svc ++ T "{}" = T "return &" ++ to_lower svc ++ T "Service{}") by (unfold service_type; rewrite <- app_assoc; reflexivity).
      unfold shows. rewrite Eb. reflexivity.
    - split; [|discriminate]. exists (skipn 3 struct_toks). pose proof Hnone.
      change (T "type " ++ to_lower svc ++ T "Service struct") with (T "type " ++ to_lower svc ++ (T "Service" ++ T " struct")). rewrite (app_assoc (to_lower svc)). fold (service_type svc).
      erewrite (lex_reads [service_type svc; svc] none); [|assumption|assumption|reads|vm_compute; reflexivity|vm_compute; reflexivity]. reflexivity.
    - exact S2.
  Qed.
End First.
