(** C78: what the generated transport file says. *)
From Coq Require Import Lia String.
From Verif Require Import GoStr GoStrProofs GoMap Strs SvcTypes HttpTransport Handler Generator Template Assets Render RenderProofs Wiring PropRender TextSpec TextFile TextProofs.

Section C78.
  Variable format_source : str -> option str.
  Variables (d : tdata) (s : str).
  (** The file as it is rendered for the data of a definition; C77 says that it is. *)
  Hypothesis rendered : render_asset format_source BaronPath d = Some s.
  Let hs := td_helper d.
  Let methods := sv_methods (td_service d).
  Let service := sv_name (td_service d).

  Lemma s_is : s = concat (baron_pieces format_source d).
  Proof. assert (J : forall a b : str, Some a = Some b -> a = b) by (intros a b E; congruence). exact (J _ _ (eq_trans (eq_sym rendered) (baron_is format_source d))). Qed.

  (** Every route is in MakeHTTPHandler, once, in the order of the methods and of their bindings, and there are no others. *)
  Theorem c78_server :
    holds s (handler_func (map (fun m => map (fun b => route_stmt (hm_name m) (to_upper (hb_verb b)) (hb_path b) (hb_label b)) (hm_binds m)) hs)).
  Proof.
    rewrite s_is. unfold handler_func. rewrite nonempty_map, each_map.
    match goal with |- holds _ (concat [?h; ?a; ?b; ?c; ?t]) =>
      replace c with (p34 format_source d) by (apply each_ext; intro m; cbn [concat]; rewrite app_nil_r; reflexivity);
      apply (slice_at 31 3 (baron_pieces format_source d) h t); [vm_compute; reflexivity|vm_compute; reflexivity|reflexivity] end.
  Qed.

  Ltac piece p := apply (holds_trans _ p); [rewrite s_is; apply holds_concat; unfold baron_pieces; repeat (first [left; reflexivity|right])|].
  Ltac cutat i k := match goal with |- holds (concat ?L) (concat (?h :: ?r)) =>
    let t := eval cbv [last] in (last r []) in
let Q := fresh in
    assert (Q : holds (concat L) (concat (h :: firstn k (skipn (S i) L) ++ [t]))) by (apply (slice_at i k L h t); [cbn [nth]; vm_compute; reflexivity|cbn [nth Nat.add]; vm_compute; reflexivity|reflexivity]);
    let E := fresh in assert (E : r = firstn k (skipn (S i) L) ++ [t]) by reflexivity; rewrite E; exact Q end.
  (** The decoder of a binding, with the code of its fields that are not in the body, and of its oneofs in the query. *)
  Theorem c78_decoder : forall m b code ocode, In m hs -> In b (hm_binds m) ->
    (forall f, field_unmarshaler format_source f = Some (code f)) -> (forall o, oneof_unmarshaler format_source o = Some (ocode o)) ->
    holds s (decoder_func (hb_label b) (go_camel_case (hm_req m))
      (each (fun f => decoder_slot (if str_eqb (hf_loc f) (T "body") then None else Some (code f))) (hb_fields b))
      (each (fun o => decoder_slot (if str_eqb (ho_loc o) (T "query") then Some (ocode o) else None)) (hb_oneofs b))).
  Proof.
    intros m b code ocode Hm Hb Hf Ho. piece (p36 format_source d).
    eapply holds_trans; [unfold p36; apply holds_each; exact Hm|]. cbv beta. eapply holds_trans; [apply holds_concat; left; reflexivity|].
    eapply holds_trans; [apply holds_each; exact Hb|]. cbv beta.
    assert (E1 : each (fun f => decoder_slot (if str_eqb (hf_loc f) (T "body") then None else Some (code f))) (hb_fields b) =
      each (fun f => concat [T "
			"; (if negb (str_eqb (hf_loc f) (T "body")) then concat [T "
				"; field_code format_source f; T "
			"] else []); T "
		"]) (hb_fields b)).
    { apply each_ext. intro f. unfold field_code. rewrite (Hf f). unfold decoder_slot. destruct (str_eqb (hf_loc f) (T "body")); reflexivity. }
    assert (E2 : each (fun o => decoder_slot (if str_eqb (ho_loc o) (T "query") then Some (ocode o) else None)) (hb_oneofs b) =
      each (fun o => concat [T "
			"; (if str_eqb (ho_loc o) (T "query") then concat [T "
				"; oneof_code format_source o; T "
			"] else []); T "
		"]) (hb_oneofs b)).
    { apply each_ext. intro o. unfold oneof_code. rewrite (Ho o). unfold decoder_slot. destruct (str_eqb (ho_loc o) (T "query")); reflexivity. }
    rewrite E1, E2. unfold decoder_func. cutat 4 7.
  Qed.
  (** The client calls the first binding of each method. *)
  Theorem c78_client :
    holds s (client_func service
      (each (fun m => match hm_binds m with b :: _ => client_endpoint (hm_name m) (hb_label b) (to_upper (hb_verb b)) (hb_base b) | [] => T "
		" end) hs)
      (each (fun m => match hm_binds m with b :: _ => client_field (hm_name m) (hb_label b) | [] => [] end) hs)
      (negb (nonempty hs))).
  Proof.
    rewrite s_is. unfold client_func. unfold hs, service.
    match goal with |- holds _ (concat [?h; ?a; ?b; ?c; ?e; ?f; ?g; ?i; ?t]) =>
      replace f with (p42 format_source d) by (apply each_ext; intro m; destruct (hm_binds m); [reflexivity|]; unfold client_endpoint; cbn [concat]; rewrite !app_nil_r; reflexivity);
      replace i with (p44 format_source d) by (apply each_ext; intro m; destruct (hm_binds m); [reflexivity|]; unfold client_field; cbn [concat]; rewrite !app_nil_r; reflexivity);
      replace c with (p40 format_source d) by (unfold p40; destruct (td_helper d); reflexivity)
    end.
    cutat 37 7.
  Qed.
  (** The decoder of the answers. *)
  Theorem c78_response : forall m, In m hs -> holds s (response_func (hm_name m) (go_camel_case (hm_resp m))).
  Proof.
    intros m Hm. piece (p46 format_source d). eapply holds_trans; [unfold p46; apply holds_each; exact Hm|]. cbv beta. unfold response_func. cutat 4 3.
  Qed.
  (** The encoder of a binding. *)
  Definition query_of (f : hfield) : str :=
    if hf_rep f && hf_base f then if contains (hf_gotype f) (T "[]string") then query_strings (hf_query f) (hf_camel f) else query_list (hf_query f) (hf_camel f)
    else if negb (hf_base f) || hf_rep f then query_json (hf_query f) (hf_camel f)
    else if hf_star f then query_pointer (hf_query f) (hf_camel f)
    else query_scalar (hf_query f) (hf_camel f).
  Definition option_query_of (f : hfield) : str :=
    if negb (hf_base f) || hf_rep f then oneof_json (hf_name f) (hf_zero f) (hf_query f) else oneof_scalar (hf_name f) (hf_zero f) (hf_query f).
  Theorem c78_encoder : forall m b, In m hs -> In b (hm_binds m) ->
    holds s (encoder_func (hb_label b) (go_camel_case (hm_req m)) (map section_text (path_sections b))
      (each query_of (filter (fun f => str_eqb (hf_loc f) (T "query")) (hb_fields b)) ++
       each (fun o => each option_query_of (ho_options o)) (filter (fun o => str_eqb (ho_loc o) (T "query")) (hb_oneofs b)))
      (if str_eqb (hb_verb b) (T "get") then None else Some (each (fun f => body_field (hf_camel f)) (filter (fun f => str_eqb (hf_loc f) (T "body")) (hb_fields b))))).
  Proof.
    intros m b Hm Hb. piece (p48 format_source d). eapply holds_trans; [unfold p48; apply holds_each; exact Hm|]. cbv beta. eapply holds_trans; [apply holds_concat; right; left; reflexivity|].
    eapply holds_trans; [apply holds_each; exact Hb|]. cbv beta.
    match goal with |- holds (concat ?L) _ => set (pieces := L) end. unfold encoder_func. rewrite each_map.
    match goal with |- holds _ (concat [?h; ?p1; ?p2; ?p3; ?p4; ?p5; ?p6; ?q1 ++ ?q2; ?p7; ?p8; ?t]) =>
      replace q1 with (nth 11 pieces []); [replace q2 with (nth 12 pieces []); [replace p8 with (nth 14 pieces [])|]|]
    end.
    - match goal with |- holds ?A (concat [?h; ?p1; ?p2; ?p3; ?p4; ?p5; ?p6; ?q1 ++ ?q2; ?p7; ?p8; ?t]) =>
        assert (E : concat [h; p1; p2; p3; p4; p5; p6; q1; q2; p7; p8; t] = concat [h; p1; p2; p3; p4; p5; p6; q1 ++ q2; p7; p8; t]) by (cbn [concat]; rewrite <- !app_assoc; reflexivity);
        refine (eq_ind _ (holds A) _ _ E)
      end.
      clear E.
      unfold pieces. cbn [nth]. cutat 4 10.
    - unfold pieces. cbn [nth]. destruct (str_eqb (hb_verb b) (T "get")); [reflexivity|]. cbn [negb].
      match goal with |- concat [?a; ?g; ?c; ?e; ?t] = _ => replace e with (each (fun f => body_field (hf_camel f)) (filter (fun f => str_eqb (hf_loc f) (T "body")) (hb_fields b))) end; [reflexivity|].
      symmetry. apply each_filter. intros f _. reflexivity.
    - unfold pieces. cbn [nth]. apply each_filter. intros o _. cbn [concat]. rewrite app_nil_r. apply each_ext. intro f. unfold option_query_of. destruct (negb (hf_base f) || hf_rep f); cbn [concat]; rewrite !app_nil_r; reflexivity.
    - unfold pieces. cbn [nth]. apply each_filter. intros f _. unfold query_of. destruct (hf_rep f && hf_base f), (contains (hf_gotype f) (T "[]string")), (negb (hf_base f) || hf_rep f), (hf_star f); cbn [concat]; rewrite ?app_nil_r; rewrite <- ?app_assoc; reflexivity.
  Qed.
  Let names := map sm_name methods.
  (** The endpoints: a field for each method, a client method that calls it, a constructor that calls the method of the service, and the wrappers. *)
  Theorem c78_endpoints : holds s (endpoints_struct service names).
  Proof.
    rewrite s_is. unfold endpoints_struct, names. rewrite each_map.
    match goal with |- holds _ (concat [?h; ?a; ?b; ?c; ?t]) => change c with (p16 format_source d); apply (slice_at 13 3 (baron_pieces format_source d) h t); [vm_compute; reflexivity|vm_compute; reflexivity|reflexivity] end.
  Qed.
  Theorem c78_methods : forall m, In m methods ->
    holds s (endpoint_method (sm_name m) (go_camel_case (ft_name (sm_req m))) (go_camel_case (ft_name (sm_resp m)))) /\
    holds s (make_endpoint service (sm_name m) (go_camel_case (ft_name (sm_req m)))).
  Proof.
    intros m Hm. split.
    - piece (p18 format_source d). exact (holds_each _ _ _ m Hm).
    - piece (p20 format_source d). eapply holds_trans; [unfold p20; apply holds_concat; left; reflexivity|]. exact (holds_each _ _ _ m Hm).
  Qed.
  Theorem c78_wrap : holds s (wrap_func (T "WrapAllExcept(middleware endpoint.Middleware") (fun _ => []) names) /\
    holds s (wrap_func (T "WrapAllLabeledExcept(middleware func(string, endpoint.Endpoint) endpoint.Endpoint") (fun m => T """" ++ m ++ T """, ") names).
  Proof.
    rewrite s_is. unfold wrap_func, names. rewrite !each_map. split.
    - match goal with |- holds _ (concat [?h; ?n; ?k; ?a; ?b; ?c; ?t]) => replace c with (p24 format_source d) by (apply each_ext; intro m; reflexivity);
        change (concat [h; n; k; a; b; p24 format_source d; t]) with (concat [h ++ n ++ k; a; b; p24 format_source d; t]);
        change a with (p22 format_source d);
        apply (slice_at 21 3 (baron_pieces format_source d) (h ++ n ++ k) t); [vm_compute; reflexivity|vm_compute; reflexivity|reflexivity] end.
    - match goal with |- holds _ (concat [?h; ?n; ?k; ?a; ?b; ?c; ?t]) => replace c with (p28 format_source d) by (apply each_ext; intro m; cbn [concat]; rewrite <- !app_assoc; reflexivity);
        change (concat [h; n; k; a; b; p28 format_source d; t]) with (concat [h ++ n ++ k; a; b; p28 format_source d; t]);
        change a with (p26 format_source d);
        apply (slice_at 25 3 (baron_pieces format_source d) (h ++ n ++ k) t); [vm_compute; reflexivity|vm_compute; reflexivity|reflexivity] end.
  Qed.
  (** gRPC, with the transport all or grpc: each method has a handler with its own endpoint, the server calls that handler, and the client calls by the name of
      the Go package and of the service. *)
  Theorem c78_grpc : td_transport d = T "all" \/ td_transport d = T "grpc" ->
    holds s (T "return &grpcServer{
	" ++ each (fun m => grpc_handler (sm_name m) (to_lower (sm_name m))) methods ++ T "
	}
}") /\
    (forall m, In m methods -> holds s (grpc_method (go_camel_case (sm_name m)) (to_lower (sm_name m)) (go_camel_case (ft_name (sm_req m))) (go_camel_case (ft_name (sm_resp m))))) /\
    (td_package d <> [] -> holds s (concat [T "func NewGRPCClient(conn *grpc.ClientConn, options ...grpctransport.ClientOption) ("; service; T "Server, error) {";
      each (fun m => grpc_client (td_package d) service (sm_name m) (to_lower (sm_name m)) (go_camel_case (ft_name (sm_resp m)))) methods; T "
		
	

	return Endpoints{
	"; each (fun m => rpc_field (sm_name m) (to_lower (sm_name m))) methods; T "
	}, nil
}"])).
  Proof.
    intro Ht. assert (G : with_grpc d = true) by (unfold with_grpc; destruct Ht as [-> | ->]; reflexivity).
    assert (P : p30 format_source d = p30 format_source d) by reflexivity. unfold p30 in P at 2. rewrite G in P.
    match type of P with _ = concat ?L => set (pieces := L) in P end.
    assert (A : forall x, holds (concat pieces) x -> holds s x).
    { intros x Hx. piece (p30 format_source d). rewrite P. exact Hx. }
    clear P. split; [|split].
    - apply A. match goal with |- holds _ (?h ++ ?a ++ ?t) => replace (h ++ a ++ t) with (concat [h; a; t]) by (cbn [concat]; rewrite app_nil_r; reflexivity) end. unfold pieces. cutat 6 1.
    - intros m Hm. apply A. apply (holds_trans _ (nth 17 pieces [])); [apply holds_concat; apply nth_In; unfold pieces; cbn [length]; lia|]. exact (holds_each _ _ _ m Hm).
    - intro Hp. apply A. assert (Np : nonempty (td_package d) = true) by (destruct (td_package d); [contradiction|reflexivity]). unfold pieces. rewrite Np. clear pieces A.
      match goal with |- holds (concat ?L) _ => set (pieces := L) end.
      match goal with |- holds ?A (concat [?h; ?a; ?b; ?c; ?e; ?f; ?t]) =>
        assert (E : concat [h; a; b; nth 25 pieces []; nth 26 pieces []; f; t] = concat [h; a; b; c; e; f; t]);
        [unfold pieces; cbn [nth concat]; rewrite ?app_nil_r, <- ?app_assoc; reflexivity|refine (eq_ind _ (holds A) _ _ E)]
      end.
      clear E. unfold pieces. cbn [nth]. cutat 22 5.
  Qed.
  (** NATS, with the transport all or nats: each method is subscribed to the subject of its own name, to which the client publishes. *)
  Theorem c78_nats : td_transport d = T "all" \/ td_transport d = T "nats" ->
    holds s (concat [T "func ServeNATS(conn *nats.Conn, srv *natsServer) error {
"; each (fun m => nats_subscription service (sm_name m) (to_lower (sm_name m))) methods; T "
	return nil

}"]) /\
    holds s (T "return &natsServer{
	" ++ each (fun m => nats_subscriber (sm_name m)) methods ++ T "
	}
}") /\
    holds s (concat [T "func NewNATSClient(conn *nats.Conn, options ...natstransport.PublisherOption) ("; service; T "Server, error) {";
      each (fun m => nats_publisher service (sm_name m) (to_lower (sm_name m))) methods; T "
	

	return Endpoints{
	"; each (fun m => rpc_field (sm_name m) (to_lower (sm_name m))) methods; T "
	}, nil
}"]).
  Proof.
    intro Ht. assert (G : with_nats d = true) by (unfold with_nats; destruct Ht as [-> | ->]; reflexivity).
    assert (P : p50 format_source d = p50 format_source d) by reflexivity. unfold p50 in P at 2. rewrite G in P.
    match type of P with _ = concat ?L => set (pieces := L) in P end.
    assert (A : forall x, holds (concat pieces) x -> holds s x).
    { intros x Hx. piece (p50 format_source d). rewrite P. exact Hx. }
    clear P. split; [|split].
    - apply A. 
      match goal with |- holds ?A (concat [?h; ?c; ?t]) =>
        assert (E : concat [h; nth 1 pieces []; T "
}"] = concat [h; c; t]); [unfold pieces; cbn [nth concat]; rewrite ?app_nil_r, <- ?app_assoc; reflexivity|refine (eq_ind _ (holds A) _ _ E)] end. clear E. unfold pieces. cbn [nth]. cutat 0 1.
    - apply A. match goal with |- holds _ (?h ++ ?a ++ ?t) => replace (h ++ a ++ t) with (concat [h; a; t]) by (cbn [concat]; rewrite app_nil_r; reflexivity) end. unfold pieces. cutat 6 1.
    - apply A. match goal with |- holds ?A (concat [?h; ?a; ?b; ?c; ?e; ?f; ?t]) =>
        assert (E : concat [h; a; b; nth 17 pieces []; nth 18 pieces []; f; t] = concat [h; a; b; c; e; f; t]);
        [unfold pieces; cbn [nth concat]; rewrite ?app_nil_r, <- ?app_assoc; reflexivity|refine (eq_ind _ (holds A) _ _ E)]
      end.
      clear E. unfold pieces. cbn [nth]. cutat 14 5.
  Qed.
  (** What the routes and the client refer to is declared in the file. *)
  Theorem c78_declared : forall m b, In m hs -> In b (hm_binds m) ->
    holds s (T "func DecodeHTTP" ++ hb_label b ++ T "Request(") /\ holds s (T "func EncodeHTTP" ++ hb_label b ++ T "Request(") /\
    holds s (T "func DecodeHTTP" ++ hm_name m ++ T "Response(").
  Proof.
    intros m b Hm Hb. split; [|split].
    - eapply holds_trans; [apply (c78_decoder m b (field_code format_source) (oneof_code format_source) Hm Hb)|].
      + intro f. unfold field_code. destruct (field_unmarshaler_made format_source f) as [x E]. rewrite E. reflexivity.
      + intro o. unfold oneof_code. destruct (oneof_unmarshaler_made format_source o) as [x E]. rewrite E. reflexivity.
      + exists (T "	"). eexists. rewrite <- !app_assoc. reflexivity.
    - eapply holds_trans; [apply (c78_encoder m b Hm Hb)|]. exists (T "	"). eexists. rewrite <- !app_assoc. reflexivity.
    - eapply holds_trans; [apply (c78_response m Hm)|]. exists (T "	"). eexists. rewrite <- !app_assoc. reflexivity.
  Qed.
  Theorem c78_endpoint_declared : forall m, In m methods -> holds s (T "
	" ++ sm_name m ++ T "Endpoint    endpoint.Endpoint
").
  Proof. intros m Hm. piece (p16 format_source d). exact (holds_each _ _ _ m Hm). Qed.
End C78.

(** The code of a transport is in the file exactly if that transport, or all, is chosen; the rest is the same for every transport. *)
Definition for_transport (d : tdata) (t : str) : tdata :=
  mkTData (td_import d) (td_pb_import d) (td_package d) (td_service d) (td_helper d) t (td_version d) (td_date d).
Definition if_chosen (t this x : str) : str := if str_eqb t (T "all") || str_eqb t this then x else [].
Theorem c78_transports : forall format_source d, exists head endpoints grpc http nats, nonempty grpc = true /\ nonempty nats = true /\ forall t,
  render_asset format_source BaronPath (for_transport d t) = Some (concat [
    head;
    if_chosen t (T "nats") (T "
	""github.com/nats-io/nats.go""");
    if_chosen t (T "grpc") (T "
	""google.golang.org/grpc""
	""google.golang.org/grpc/metadata""");
    T "
	";
    if_chosen t (T "grpc") (T "
	grpctransport ""github.com/go-kit/kit/transport/grpc""");
    T "
	httptransport ""github.com/go-kit/kit/transport/http""";
    if_chosen t (T "nats") (T "
	natstransport ""github.com/go-kit/kit/transport/nats""");
    endpoints; if_chosen t (T "grpc") grpc; http; if_chosen t (T "nats") nats; T "
"]).
Proof.
  intros fmt d. set (da := for_transport d (T "all")).
  exists (concat [p0 fmt d; p1 fmt d; p2 fmt d; p3 fmt d; p4 fmt d; p5 fmt d; p6 fmt d]), (concat (map (fun p => p fmt d) [p13; p14; p15; p16; p17; p18; p19; p20; p21; p22; p23; p24; p25; p26; p27; p28; p29])),
    (p30 fmt da), (concat (map (fun p => p fmt d) [p31; p32; p33; p34; p35; p36; p37; p38; p39; p40; p41; p42; p43; p44; p45; p46; p47; p48; p49])), (p50 fmt da).
  split; [reflexivity|]. split; [reflexivity|]. intro t. rewrite baron_is. f_equal.
  change (baron_pieces fmt (for_transport d t)) with
    ([p0 fmt d; p1 fmt d; p2 fmt d; p3 fmt d; p4 fmt d; p5 fmt d; p6 fmt d] ++ [p7 fmt (for_transport d t); p8 fmt (for_transport d t); p9 fmt d; p10 fmt (for_transport d t); p11 fmt d; p12 fmt (for_transport d t)]
     ++ map (fun p => p fmt d) [p13; p14; p15; p16; p17; p18; p19; p20; p21; p22; p23; p24; p25; p26; p27; p28; p29] ++ [p30 fmt (for_transport d t)] ++
     map (fun p => p fmt d) [p31; p32; p33; p34; p35; p36; p37; p38; p39; p40; p41; p42; p43; p44; p45; p46; p47; p48; p49] ++ [p50 fmt (for_transport d t); p51 fmt d]).
  assert (Ga : with_grpc da = true) by reflexivity. assert (Na : with_nats da = true) by reflexivity.
  assert (E30 : p30 fmt (for_transport d t) = if_chosen t (T "grpc") (p30 fmt da)).
  { unfold if_chosen. change (str_eqb t (T "all") || str_eqb t (T "grpc")) with (with_grpc (for_transport d t)). unfold p30. rewrite Ga. reflexivity. }
  assert (E50 : p50 fmt (for_transport d t) = if_chosen t (T "nats") (p50 fmt da)).
  { unfold if_chosen. change (str_eqb t (T "all") || str_eqb t (T "nats")) with (with_nats (for_transport d t)). unfold p50. rewrite Na. reflexivity. }
  rewrite E30, E50. rewrite !concat_app. cbn [concat]. rewrite !app_nil_r, <- !app_assoc. reflexivity.
Qed.

(** The file imports these packages under these names, and no others; the names are those that C65 and C68 keep apart from the rest. *)
Theorem c78_imports : forall format_source d s, render_asset format_source BaronPath d = Some s ->
  holds s (T "import (" ++ each import_text (import_lines (with_grpc d) (with_nats d)) ++ T "
)") /\
  (forall i, Wiring.in_transport i = td_transport d -> (* the same names *)
     forall n, In n (Wiring.imports i) <-> In n (flat_map import_name (import_lines (with_grpc d) (with_nats d)))).
Proof.
  intros fmt d s R. split.
  - rewrite (s_is fmt d s R).
    match goal with |- holds ?A ?B => assert (E : concat [T "import (
" ++ skipn (length (T "

// This file contains methods to make individual endpoints from services,
// request and response types to serve those endpoints, as well as encoders and
// decoders for those types, for all of our supported transport serialization
// formats.

import (
")) (p6 fmt d); p7 fmt d; p8 fmt d; p9 fmt d; p10 fmt d; p11 fmt d; p12 fmt d; T "
)"] = B) end.
    { unfold p7, p8, p10, p12. destruct (with_grpc d), (with_nats d); vm_compute; reflexivity. }
    refine (eq_ind _ (holds _) _ _ E). clear E. apply (slice_at 6 6 (baron_pieces fmt d)); [vm_compute; reflexivity|vm_compute; reflexivity|reflexivity].
  - intros i Hi n. unfold Wiring.imports, Wiring.with_grpc, Wiring.with_nats, with_grpc, with_nats. rewrite Hi.
    destruct (str_eqb (td_transport d) (T "all")), (str_eqb (td_transport d) (T "grpc")), (str_eqb (td_transport d) (T "nats")); cbn [orb];
      unfold Wiring.when; split; intro K; cbn [app flat_map import_name import_lines In] in *; tauto.
Qed.
(** A case: a service with one HTTP method and one that has none. *)
Example c78_case : exists s, render_asset (fun _ => None) BaronPath (ex_td (match new_helper (sd_messages ex_sd) (match sd_service ex_sd with Some sv => sv_methods sv | None => [] end) with Ret hs => hs | _ => [] end)) = Some s /\
  match new_helper (sd_messages ex_sd) (match sd_service ex_sd with Some sv => sv_methods sv | None => [] end) with
  | Ret [m] => map (fun b => (hb_label b, hb_verb b, hb_path b)) (hm_binds m) = [(T "GetZero", T "get", T "/v1/{id}")]
  | _ => False end.
Proof. eexists. split; [apply baron_is|]. vm_compute. reflexivity. Qed.
Definition c78_all := (@c78_imports, @c78_server, @c78_decoder, @c78_client, @c78_response, @c78_encoder, @c78_endpoints, @c78_methods, @c78_wrap, @c78_grpc, @c78_nats, @c78_declared, @c78_endpoint_declared, @c78_transports).
Print Assumptions c78_all.
