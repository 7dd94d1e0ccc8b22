(** C83: the text of service/service.go, read as Go (GoLex.v, GoDecls.v), is what Handler.v says about it: the file that is made when there is none, and the handlers that are added to an
    existing one. *)
From Coq Require Import String Permutation.
From Verif Require Import GoStr GoStrProofs GoMap Strs StrsSpec SvcTypes Generator HttpTransport Handler Main Render GoLex GoDecls HandlerText WiringSpec.
From Verif Require GoLexProofs GoDeclsProofs WiringProofs TextOthers TextOthersProofs FileService.

(** What the names are asked for. *)
Definition handlers_ok (svc : str) (ms : list smethod) : Prop :=
  exported_ident svc /\ forall m, In m ms -> exported_ident (sm_name m) /\ exported_ident (go_camel_case (ft_name (sm_req m))) /\ exported_ident (go_camel_case (ft_name (sm_resp m))).

Lemma hnames_ok svc ms : handlers_ok svc ms -> forall m, In m ms -> Forall ident (FileService.hnames svc m).
Proof.
  intros [H1 H2] m Hm. destruct (H2 m Hm) as (A & B & C). apply Forall_cons; [apply FileService.service_type_ident; exact H1|]. repeat (apply Forall_cons; [apply WiringProofs.exported_is_ident; assumption|]). apply Forall_nil.
Qed.

Section C83.
  Variable format_source : str -> option str.
  (** The first version: package service; then exactly the declarations that Handler.first_file lists, in its order.  It imports context, and the package of the messages as pb; the type of the service
      embeds pb.Unimplemented<Service>Server. *)
  Theorem c83_first : forall d s, render_asset format_source ServicePath d = Some s -> handlers_ok (sv_name (td_service d)) (sv_methods (td_service d)) -> GoLexProofs.safe (td_pb_import d) ->
    exists ks, declarations s = Some ([Word (T "package"); Word (T "service")] :: ks) /\
      Forall2 shows ks (first_file (sv_name (td_service d)) (map rpc_of (sv_methods (td_service d)))) /\
      nth 0 ks [] = [Word (T "import"); Op (T "("); Str (T "context"); Semi; Word (T "pb"); Str (td_pb_import d); Op (T ")")] /\
      nth 2 ks [] = [Word (T "type"); Word (to_lower (sv_name (td_service d)) ++ T "Service"); Word (T "struct"); Op (T "{"); Word (T "pb"); Op (T "."); Word (T "Unimplemented" ++ sv_name (td_service d) ++ T "Server"); Op (T "}")].
  Proof.
    intros d s R H Hp. rewrite TextOthersProofs.service_is in R. injection R as <-. apply FileService.first_reads.
    - apply hnames_ok. exact H.
    - apply Forall_cons; [apply FileService.service_type_ident, H|]. apply Forall_cons; [apply WiringProofs.exported_is_ident, H|apply Forall_nil].
    - apply Forall_cons; [apply GoLexProofs.safe_inner; exact Hp|apply Forall_nil].
  Qed.
  (** The text of the new handlers, behind any file: the declarations of that file, then one handler for each of the methods. *)
  Theorem c83_added : forall svc ms code ks new, handlers_ok svc ms -> declarations code = Some ks -> render_methods format_source svc ms = Some new ->
    exists hs, declarations (code ++ new) = Some (ks ++ hs) /\ Forall2 shows hs (map (template_handler svc) (map rpc_of ms)).
  Proof.
    intros svc ms code ks new H D R. rewrite TextOthersProofs.service_methods_is in R. assert (E : concat (TextOthers.service_methods_pieces svc ms) = new) by congruence. clear R. subst new.
    destruct (FileService.methods_text svc ms (hnames_ok svc ms H)) as (G & hs & A & P & S). exists (map GoLex.plain hs). split; [|exact S].
    exact (FileService.appended code _ _ G hs ks D A P eq_refl).
  Qed.
  (** So a run with an existing file gives a file whose declarations are those of Handler.render: if the printer shows the kept declarations, the whole text shows the result. *)
  Theorem c83_again : forall upper svc rpcs prev kept m ms code p ks new, handlers_ok svc ms ->
    prune_decls upper prev (new_method_map rpcs) (to_lower svc) = Ret (kept, m) -> Permutation (map rpc_of ms) (map snd m) ->
    declarations code = Some (p :: ks) -> Forall2 shows ks kept -> render_methods format_source svc ms = Some new ->
    exists ks' out, declarations (code ++ new) = Some (p :: ks') /\ Forall2 shows ks' out /\ render upper svc rpcs (Some prev) (Ret out).
  Proof.
    intros upper svc rpcs prev kept m ms code p ks new H Hp Hm D S R. destruct (c83_added svc ms code (p :: ks) new H D R) as (hs & E & F).
    exists (ks ++ hs), (kept ++ map (template_handler svc) (map rpc_of ms)). split; [exact E|]. split; [apply Forall2_app; assumption|]. eapply RenderAgain; eassumption.
  Qed.
  (** The service has the handler of every rpc, and no other method, with the parameters and results of the interface pb.<Service>Server. *)
  Theorem c83_handlers : forall d s ds, render_asset format_source ServicePath d = Some s -> handlers_ok (sv_name (td_service d)) (sv_methods (td_service d)) -> GoLexProofs.safe (td_pb_import d) ->
    declarations s = Some ds ->
    flat_map (methods_of (to_lower (sv_name (td_service d)) ++ T "Service")) ds = map sm_name (sv_methods (td_service d)) /\
    flat_map declares ds = [T "NewService"; to_lower (sv_name (td_service d)) ++ T "Service"] /\
    forall m, In m (sv_methods (td_service d)) -> exists body, In
      (plain ([Word (T "func"); Op (T "("); Word (T "s"); Op (T "*"); Word (to_lower (sv_name (td_service d)) ++ T "Service"); Op (T ")"); Word (sm_name m);
       Op (T "("); Word (T "ctx"); Word (T "context"); Op (T "."); Word (T "Context"); Op (T ","); Word (T "in"); Op (T "*"); Word (T "pb"); Op (T "."); Word (go_camel_case (ft_name (sm_req m))); Op (T ")");
       Op (T "("); Op (T "*"); Word (T "pb"); Op (T "."); Word (go_camel_case (ft_name (sm_resp m))); Op (T ","); Word (T "error"); Op (T ")"); Op (T "{")] ++ body ++ [Op (T "}")])) ds.
  Proof.
    intros d s ds R H Hp D. destruct (c83_first d s R H Hp) as (ks & D' & S & I0 & I2). rewrite D in D'. injection D' as ->.
    set (svc := sv_name (td_service d)) in *. set (ms := sv_methods (td_service d)) in *. unfold first_file in S.
    inversion S as [|k0 ? k0s ? _ S1]; subst ks. inversion S1 as [|k1 ? k1s ? Hk1 S2]; subst k0s. inversion S2 as [|k2 ? k2s ? _ S3]; subst k1s. cbn [nth] in I0, I2. subst k0 k2. clear S S1 S2.
    assert (T1 : forall m, exists r, plain (fun_toks (match template_handler svc (rpc_of m) with DFunc f => f | DOther _ => mkFun [] None [] [] [] [] end)) =
      Word (T "func") :: Op (T "(") :: Word (T "s") :: Op (T "*") :: Word (to_lower svc ++ T "Service") :: Op (T ")") :: Word (sm_name m) :: r).
    { intro m. eexists. reflexivity. }
    assert (M : flat_map (methods_of (to_lower svc ++ T "Service")) k2s = map sm_name ms /\ flat_map declares k2s = []).
    { clear -S3 T1. revert k2s S3. induction ms as [|m l IH]; intros k2s S3; cbn [map] in S3; inversion S3 as [|x ? y ? Hx Hy]; subst k2s; [split; reflexivity|]. destruct (IH y Hy) as [E1 E2].
      destruct (T1 m) as (r & E). unfold shows in Hx. cbn [template_handler] in Hx, E. rewrite E in Hx. subst x. cbn [flat_map map]. rewrite E1, E2. split; [|reflexivity].
      match goal with |- methods_of ?t ?x ++ _ = _ => change (methods_of t x) with (if str_eqb t t then [sm_name m] else []); rewrite (proj2 (str_eqb_eq t t) eq_refl) end. reflexivity. }
    destruct M as [M1 M2]. unfold shows in Hk1. subst k1. split; [|split].
    - cbn [flat_map]. rewrite M1. reflexivity.
    - cbn [flat_map]. rewrite M2. reflexivity.
    - intros m Hm. exists (lex (T "var resp pb." ++ go_camel_case (ft_name (sm_resp m)) ++ T "; return &resp, nil")). right. right. right. right.
      clear -S3 Hm. revert k2s S3. induction ms as [|x l IH]; intros k2s S3; [destruct Hm|]. cbn [map] in S3. inversion S3 as [|k ? ks2 ? Hx Hy]; subst k2s. destruct Hm as [->|Hm]; [|right; exact (IH Hm ks2 Hy)].
      left. exact Hx.
  Qed.
End C83.
Definition c83_all := (@c83_first, @c83_added, @c83_again, @c83_handlers).
Print Assumptions c83_all.

(** ** A case: two rpcs; the first file, and a file with a function of the user's to which the handler of the second rpc is added *)
Definition svc_ft (n : string) : ftype := mkFT (T n) None None None None true false.
Definition ping_m : smethod := mkSMeth (T "Ping") (svc_ft "PingReq") (svc_ft "PingResp") [].
Definition list_m : smethod := mkSMeth (T "List") (svc_ft "list_req") (svc_ft "ListResp") [].
Definition svc_data : tdata := mkTData (T "x/y") (T "x/pb") (T "shoppb") (mkSvc (T "Select") [ping_m; list_m]) [] (T "http") (T "v1") (T "today").
Definition svc_old : str := T "package service

func helper(x int) int { return x + 1 }

func (s *selectService) Ping(ctx context.Context, in *pb.PingReq) (*pb.PingResp, error) {
	return nil, nil // mine
}
".
Lemma svc_case_ok : handlers_ok (T "Select") [ping_m; list_m].
Proof.
  assert (E : forall s, match s with [] => false | c :: r => is_upper c && forallb (fun c => is_alnum c || N.eqb c c_underscore) r end = true -> exported_ident s).
  { intros [|c r] H; [discriminate|]. apply andb_prop in H. destruct H as [H1 H2]. split; [exact H1|]. apply Forall_forall. intros x Hx. rewrite forallb_forall in H2. specialize (H2 x Hx). apply Bool.orb_true_iff in H2. destruct H2 as [H2|H2]; [left; exact H2|right; apply N.eqb_eq; exact H2]. }
  split; [apply E; reflexivity|]. intros m [<-|[<-|[]]]; (split; [apply E; reflexivity|]; split; apply E; vm_compute; reflexivity).
Qed.
Example c83_case : exists s ds new ds2, render_asset (fun _ => None) ServicePath svc_data = Some s /\ declarations s = Some ds /\ flat_map (methods_of (T "selectService")) ds = [T "Ping"; T "List"] /\
  render_methods (fun _ => None) (T "Select") [list_m] = Some new /\ declarations (svc_old ++ new) = Some ds2 /\ length ds2 = 4 /\ flat_map declares ds2 = [T "helper"] /\ flat_map (methods_of (T "selectService")) ds2 = [T "Ping"; T "List"].
Proof.
  assert (H2 : handlers_ok (T "Select") [list_m]) by (split; [exact (proj1 svc_case_ok)|intros m [<-|[]]; apply (proj2 svc_case_ok); right; left; reflexivity]).
  pose proof (TextOthersProofs.service_is (fun _ => None) svc_data) as R. remember (concat (TextOthers.service_pieces svc_data)) as s eqn:Es. clear Es.
  assert (Sf : GoLexProofs.safe (td_pb_import svc_data)) by (intros c Hc; cbn in Hc; repeat destruct Hc as [<-|Hc]; try (repeat split; discriminate); destruct Hc).
  destruct (c83_first _ svc_data s R svc_case_ok Sf) as (ks & D & _). destruct (c83_handlers _ svc_data s _ R svc_case_ok Sf D) as (M & _).
  pose proof (TextOthersProofs.service_methods_is (fun _ => None) (T "Select") [list_m]) as R2.
  exists s, ([Word (T "package"); Word (T "service")] :: ks), (concat (TextOthers.service_methods_pieces (T "Select") [list_m])). eexists. split; [exact R|]. split; [exact D|]. split; [exact M|]. split; [exact R2|].
  split; [vm_compute; reflexivity|]. split; [reflexivity|]. split; reflexivity.
Qed.
