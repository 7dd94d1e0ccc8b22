(** The declarations of the text of baron/NAME.pb.baron.go: the part for HTTP. *)
From Coq Require Import String Lia.
From Verif Require Import GoStr GoStrProofs GoMap Strs StrsSpec SvcTypes HttpTransport Handler Generator Template Render TextSpec PropText TextFile GoLex GoLexProofs GoDecls GoDeclsProofs WiringSpec GoLang GoEncode DecoderProg EncoderProg EncoderProto DecoderText FileText FileNest.
From Verif Require PropStrs WiringProofs DecoderTexts DecoderTexts2 TextProofs GoGlue GlueProg HttpProg FileGrpc.

Lemma safe_dec s : forallb (fun c => negb (N.eqb c 10) && negb (N.eqb c c_dquote) && negb (N.eqb c c_backslash)) s = true -> safe s.
Proof.
  intros H c Hc. rewrite forallb_forall in H. specialize (H c Hc). apply andb_prop in H. destruct H as [H H3]. apply andb_prop in H. destruct H as [H1 H2].
  apply Bool.negb_true_iff, N.eqb_neq in H1. apply Bool.negb_true_iff, N.eqb_neq in H2. apply Bool.negb_true_iff, N.eqb_neq in H3. auto.
Qed.
Lemma ident_safe s : ident s -> safe s.
Proof.
  intros [H _]. assert (F : Forall ident_rune s).
  { destruct s as [|c s]; [destruct H|]. destruct H as [[H|H] F]; constructor; try exact F; [left|right; exact H]. unfold is_alnum. rewrite H. reflexivity. }
  rewrite Forall_forall in F. intros c Hc. destruct (F c Hc) as [E | ->]; [|repeat split; discriminate].
  repeat split; intros ->; discriminate.
Qed.

Section Lines.
  Variable package_name : str -> str.
  Lemma sec_lines {X} (f : X -> str) v R l : lex (each f l) = concat (map (fun x => lex (f x)) l) ->
    (forall x, In x l -> exists ds, parts (lex (f x)) = Some ds /\ (forall q, flat_map (ask package_name q) (map plain ds) = v x q) /\ incl (R x) (map plain ds)) ->
    sec package_name (10%N :: 9%N :: each f l) (fun q => flat_map (fun x => v x q) l) (flat_map R l).
  Proof.
    intros E H. assert (G : exists ds, parts (concat (map (fun x => lex (f x)) l)) = Some ds /\ (forall q, flat_map (ask package_name q) (map plain ds) = flat_map (fun x => v x q) l) /\ incl (flat_map R l) (map plain ds)).
    { clear E. induction l as [|x l IH]; [exists []; repeat split; intros y []|]. destruct (H x (or_introl eq_refl)) as (ds & P & V & I). destruct IH as (es & P2 & V2 & I2); [intros y Hy; apply H; right; exact Hy|].
      exists (ds ++ es). cbn [map concat flat_map]. rewrite map_app. split; [apply parts_app; assumption|]. split; [intro q; rewrite flat_map_app, V, V2; reflexivity|]. apply incl_app_app; assumption. }
    destruct G as (ds & P & V & I). exists (concat (map (fun x => lex (f x)) l)), ds. split; [|split; [exact P|split; [exact V|exact I]]]. intro a. rewrite lex_lines, DecoderTexts.lex_tab, E. reflexivity.
  Qed.
  Lemma sec_decl t D v : (exists d, parts (lex t) = Some [d] /\ plain d = D) -> (forall q, ask package_name q D = v q) -> sec package_name (10%N :: t) v [D].
  Proof.
    intros (d & P & E) V. exists (lex t), [d]. split; [apply adds_line|]. split; [exact P|]. cbn [map flat_map]. rewrite E. split; [intro q; rewrite app_nil_r; apply V|apply incl_refl].
  Qed.
  (** Texts that begin with a comment and end with a brace *)
  Definition block_text (s : str) : Prop := (exists c r, inner c /\ s = 47%N :: 47%N :: c ++ 10%N :: r) /\ exists u, s = u ++ [10%N; 9%N; 125%N].
  Lemma comment_line c r : inner c -> lex (47%N :: 47%N :: c ++ 10%N :: r) = lex r.
  Proof.
    intro H. change (47%N :: 47%N :: c ++ 10%N :: r) with ((47%N :: 47%N :: c) ++ 10%N :: r). rewrite lex_lines.
    assert (E : lex (47%N :: 47%N :: c) = map (ftok (nth_name []) (nth_text [c])) []).
    { refine (lex_reads [] [c] (47%N :: 47%N :: c) [C 47; C 47; Q 0] [] _ _ _ _ _); [constructor|constructor; [exact H|constructor]| | |]; [|vm_compute; reflexivity|vm_compute; reflexivity]. reflexivity. }
    rewrite E. reflexivity.
  Qed.
  Lemma brace_comment c : inner c -> lex (9%N :: 125%N :: 47%N :: 47%N :: c) = lex [9%N; 125%N].
  Proof.
    intro H. assert (E : lex (9%N :: 125%N :: 47%N :: 47%N :: c) = map (ftok (nth_name []) (nth_text [c])) [Op (T "}"); Semi]).
    { refine (lex_reads [] [c] (9%N :: 125%N :: 47%N :: 47%N :: c) [C 9; C 125; C 47; C 47; Q 0] _ _ _ _ _ _); [constructor|constructor; [exact H|constructor]| | |]; [|vm_compute; reflexivity|vm_compute; reflexivity]. reflexivity. }
    rewrite E. reflexivity.
  Qed.
  Lemma blocks_lex {X} (f : X -> str) l : (forall x, In x l -> block_text (f x)) -> lex (each f l) = concat (map (fun x => lex (f x)) l).
  Proof.
    unfold each. induction l as [|x l IH]; intro H; [reflexivity|]. cbn [map concat]. rewrite <- IH; [|intros y Hy; apply H; right; exact Hy]. destruct l as [|y l]; [cbn [map concat]; rewrite !app_nil_r; reflexivity|].
    destruct (H x (or_introl eq_refl)) as [_ (u & E)]. destruct (H y (or_intror (or_introl eq_refl))) as [(c & r & Hc & E2) _]. cbn [map concat]. rewrite E, E2.
    assert (A : (u ++ [10%N; 9%N; 125%N]) ++ (47%N :: 47%N :: c ++ 10%N :: r) ++ concat (map f l) = u ++ 10%N :: (9%N :: 125%N :: 47%N :: 47%N :: c) ++ 10%N :: (r ++ concat (map f l))).
    { rewrite <- app_assoc. cbn [app]. rewrite <- !app_assoc. reflexivity. }
    rewrite A. clear A. rewrite !lex_lines, brace_comment by exact Hc. rewrite <- app_assoc. f_equal. f_equal.
    cbn [app]. rewrite <- app_assoc. cbn [app]. symmetry. apply comment_line. exact Hc.
  Qed.
End Lines.

Section File.
  Variable format_source : str -> option str.
  Variable package_name : str -> str.
  Variable d : tdata.
  Notation helper := (td_helper d).
  Notation svc := (sv_name (td_service d)).
  Notation sec := (sec package_name).
  Definition bind0 : hbind := mkHBind [] [] [] [] [] [].
  Definition first (m : hmeth) : hbind := hd bind0 (hm_binds m).
  Hypothesis Hsvc : Forall ident [svc].
  Hypothesis Hhelp : forall m, In m helper -> Forall ident [hm_name m; go_camel_case (hm_req m); go_camel_case (hm_resp m); svc] /\ hm_binds m <> [] /\ inner (to_lower (hm_name m)).
  Hypothesis Hbind : forall m b, In m helper -> In b (hm_binds m) -> ident (hb_label b) /\ inner (to_upper (hb_verb b)) /\ inner (hb_path b) /\ inner (hb_base b).
  Lemma bind_names m b : In m helper -> In b (hm_binds m) -> Forall ident [hm_name m; go_camel_case (hm_req m); go_camel_case (hm_resp m); svc; hb_label b] /\ Forall inner [to_upper (hb_verb b); hb_path b; hb_base b; to_lower (hm_name m)].
  Proof.
    intros H1 H2. destruct (Hhelp m H1) as (A & _ & A'). destruct (Hbind m b H1 H2) as (B & C & D & E). split; [|repeat (apply Forall_cons; [assumption|]); apply Forall_nil].
    apply (proj2 (Forall_app ident [hm_name m; go_camel_case (hm_req m); go_camel_case (hm_resp m); svc] [hb_label b])). split; [exact A|constructor; [exact B|constructor]].
  Qed.
  Lemma first_in m : In m helper -> In (first m) (hm_binds m).
  Proof. intro H. destruct (Hhelp m H) as (_ & N & _). unfold first. destruct (hm_binds m); [contradiction|left; reflexivity]. Qed.
  Ltac loop x Hx k :=
    lazymatch type of x with
    | hmeth => let H := fresh in pose proof (bind_names x (first x) Hx (first_in x Hx)) as H; let H' := fresh in destruct H as [H H'];
        k constr:([hm_name x; go_camel_case (hm_req x); go_camel_case (hm_resp x); svc; hb_label (first x)]) constr:([to_upper (hb_verb (first x)); hb_path (first x); hb_base (first x); to_lower (hm_name x)]); clear H H'
    | hbind => lazymatch type of Hx with In _ (hm_binds ?m) => lazymatch goal with Hm : In m helper |- _ =>
        let H := fresh in pose proof (bind_names m x Hm Hx) as H; let H' := fresh in destruct H as [H H'];
        k constr:([hm_name m; go_camel_case (hm_req m); go_camel_case (hm_resp m); svc; hb_label x]) constr:([to_upper (hb_verb x); hb_path x; hb_base x; to_lower (hm_name m)]); clear H H' end end
    end.
  Ltac elem v := eapply sec_say; [apply (sec_each package_name _ v (fun _ => [])); let x := fresh "x" in let Hx := fresh "Hx" in intros x Hx; loop x Hx ltac:(fun N Tx => piece loop N Tx)
                                 |let q := fresh in intro q; destruct q; cbv beta; first [apply map_flat|apply flat_none|apply each_names|reflexivity]|let y := fresh in intros y []].

  Ltac having v R := eapply sec_say; [apply (sec_each package_name _ v R); let x := fresh "x" in let Hx := fresh "Hx" in intros x Hx; loop x Hx ltac:(fun N Tx => eexists; eexists; split; [adds_with loop N Tx|]; split; [walk|]; split; [says|found])
                                 |let q := fresh in intro q; destruct q; cbv beta; first [apply map_flat|apply flat_none|apply each_names|reflexivity]|apply incl_refl].
  Definition error_funs : list (list token) := [Word (T "const"); Word (T "contentType"); Op (T "="); Str (T "application/json; charset=utf-8")] :: map (fun f => plain (GoGlue.func_toks f)) [GlueProg.error_encoder_fun; GlueProg.error_decoder_fun; GlueProg.status_fun; GlueProg.error_headers_fun].
  (** *** MakeHTTPHandler *)
  Notation kw := GoGlue.kw. Notation op := GoGlue.op.
  Definition make_http_head : list token := [kw "func"; kw "MakeHTTPHandler"; op "("] ++ GoGlue.params_toks (GoGlue.f_params (HttpProg.make_http_fun [])) ++ [op ")"; kw "http"; op "."; kw "Handler"; op "{"].
  Definition router_row : list token := [kw "m"; op ":="; kw "mux"; op "."; kw "NewRouter"; op "("; op ")"; Semi].
  Definition options_row (ms : list hmeth) : list token := if nonempty ms then FileGrpc.stms_row HttpProg.http_options else [].
  Definition route_rows (m : hmeth) : list token := concat (map (fun b => GoGlue.stm_toks (HttpProg.http_route m b) ++ [Semi]) (hm_binds m)).
  Lemma rows_one {X} (g : X -> GoGlue.gstm) l : FileGrpc.stms_row (flat_map (fun x => [g x]) l) = concat (map (fun x => GoGlue.stm_toks (g x) ++ [Semi]) l).
  Proof. induction l as [|x l IH]; [reflexivity|]. cbn [flat_map map concat app]. rewrite <- IH. reflexivity. Qed.
  Lemma make_http_toks ms : GoGlue.func_toks (HttpProg.make_http_fun ms) = make_http_head ++ options_row ms ++ router_row ++ concat (map route_rows ms) ++ [kw "return"; kw "m"; Semi; op "}"].
  Proof.
    assert (E : concat (map route_rows ms) = FileGrpc.stms_row (HttpProg.http_routes ms)).
    { unfold HttpProg.http_routes. rewrite <- FileGrpc.rows_blocks. f_equal. apply map_ext. intro m. symmetry. apply rows_one. }
    rewrite E. unfold GoGlue.func_toks, HttpProg.make_http_fun. cbn [GoGlue.f_recv GoGlue.f_name GoGlue.f_params GoGlue.f_results GoGlue.f_body]. unfold GoGlue.block_toks. rewrite !flat_map_app. fold (FileGrpc.stms_row (HttpProg.http_routes ms)).
    assert (O : flat_map (fun s => GoGlue.stm_toks s ++ [Semi]) (match ms with [] => [] | _ :: _ => HttpProg.http_options end) = options_row ms) by (destruct ms; reflexivity). rewrite O. clear O E.
    unfold make_http_head, router_row. cbn [flat_map GoGlue.stm_toks GoGlue.exp_toks map GoGlue.commas]. repeat (first [rewrite <- app_assoc|progress cbn [app]]). reflexivity.
  Qed.
  Definition handler_funs : list (list token) := [plain (GoGlue.func_toks (HttpProg.make_http_fun helper))].
  Lemma h35 : sec (concat (firstn 5 (skipn 31 (baron_pieces format_source d)))) (just [T "contentType"; T "MakeHTTPHandler"; T "errorEncoder"; T "errorDecoder"; T "errorWrapper"; T "httpError"]) (error_funs ++ handler_funs).
  Proof.
    pose proof Hnone. unfold baron_pieces. cbn [firstn skipn]. unfold p32, p34. eexists; eexists; split; [adds_with loop [svc] none|]; split; [walk|]; split; [says|].
    intros y Hy. apply in_app_or in Hy. destruct Hy as [Hy|[<-|[]]]; [revert y Hy; found|]. right. left. refine (f_equal plain _). rewrite make_http_toks. repeat rewrite <- app_assoc. rewrite ?app_nil_l. apply f_equal2; [reflexivity|].
    apply f_equal2; [unfold options_row; destruct (nonempty helper); reflexivity|]. apply f_equal2; [reflexivity|]. apply f_equal2; [|reflexivity].
    apply (f_equal (@concat token)). apply map_ext. intro m. rewrite ?app_nil_l, ?app_nil_r. apply (f_equal (@concat token)). apply map_ext. intro b. reflexivity.
  Qed.
  (** ** Decoders *)
  Definition slots (b : hbind) : str := each (fun f => decoder_slot (if str_eqb (hf_loc f) (T "body") then None else Some (TextFile.field_code format_source f))) (hb_fields b).
  Definition oneof_slots (b : hbind) : str := each (fun o => decoder_slot (if str_eqb (ho_loc o) (T "query") then Some (TextFile.oneof_code format_source o) else None)) (hb_oneofs b).
  Definition decoder_name (b : hbind) : str := T "DecodeHTTP" ++ hb_label b ++ T "Request".
  Definition encoder_name (b : hbind) : str := T "EncodeHTTP" ++ hb_label b ++ T "Request".
  Hypothesis Hdec : forall m b, In m helper -> In b (hm_binds m) ->
    tokens (decoder_func (hb_label b) (go_camel_case (hm_req m)) (slots b) (oneof_slots b)) = plain (decoder_toks (decoder_name b) (decoder_prog (go_camel_case (hm_req m)) b)).
  Hypothesis Henc : forall m b, In m helper -> In b (hm_binds m) ->
    tokens (text_of b (go_camel_case (hm_req m))) = plain (encoder_toks (encoder_name b) (encoder_prog (go_camel_case (hm_req m)) b)).
  Definition dec (m : hmeth) (b : hbind) : list token := decoder_decl (decoder_name b) (decoder_prog (go_camel_case (hm_req m)) b).
  Definition enc (m : hmeth) (b : hbind) : list token := encoder_decl (encoder_name b) (encoder_prog (go_camel_case (hm_req m)) b).
  Lemma dec_says m b q : ask package_name q (dec m b) = just [decoder_name b] q. Proof. destruct q; reflexivity. Qed.
  Lemma enc_says m b q : ask package_name q (enc m b) = just [encoder_name b] q. Proof. destruct q; reflexivity. Qed.
  Lemma flat_each {X Y} (f : X -> list Y) (g : Y -> str) pre suf l : flat_map (fun x => flat_map (fun y => [pre ++ g y ++ suf]) (f x)) l = Wiring.each pre (flat_map (fun x => map g (f x)) l) suf.
  Proof. induction l as [|x l IH]; [reflexivity|]. cbn [flat_map]. rewrite IH, (each_names g pre suf (f x)). unfold Wiring.each. rewrite map_app. reflexivity. Qed.
  Lemma flat_flat_none {X Y Z} (f : X -> list Y) l : flat_map (fun x => flat_map (fun _ => []) (f x)) l = ([] : list Z). Proof. induction l as [|x l IH]; [reflexivity|]. cbn [flat_map]. rewrite IH, flat_none. reflexivity. Qed.
  Definition labels : list str := flat_map (fun m => map hb_label (hm_binds m)) helper.
  Lemma h36 : sec (p36 format_source d) (just (Wiring.each (T "DecodeHTTP") labels (T "Request"))) (flat_map (fun m => flat_map (fun b => [dec m b]) (hm_binds m)) helper).
  Proof.
    unfold p36. eapply sec_say; [|..|apply incl_refl].
    - apply (sec_each package_name _ (fun m q => flat_map (fun b => just [decoder_name b] q) (hm_binds m))). intros m Hm. apply sec_one. apply sec_each. intros b Hb.
      set (note := concat [T "
	// DecodeHTTP"; hb_label b; T "Request is a transport/http.DecodeRequestFunc that
	// decodes a JSON-encoded "; to_lower (hm_name m); T " request from the HTTP request
	// body. Primarily useful in a server."]).
      assert (S : sec (note ++ 10%N :: decoder_func (hb_label b) (go_camel_case (hm_req m)) (slots b) (oneof_slots b)) (and no (just [decoder_name b])) ([] ++ [dec m b])).
      { apply sec_app; [|apply sec_decl; [exact (decoder_is_decl _ _ _ (tame_decoder _ _) (Hdec m b Hm Hb))|apply dec_says]]. unfold note. loop b Hb ltac:(fun N Tx => piece loop N Tx). }
      eapply sec_text; [exact S|]. unfold note, decoder_func, slots, oneof_slots.
      match goal with |- _ = concat (_ :: _ :: _ :: _ :: _ :: _ :: _ :: _ :: _ :: each ?f _ :: _ :: each ?g _ :: _) =>
        rewrite (TextProofs.each_ext _ (fun x => decoder_slot (if str_eqb (hf_loc x) (T "body") then None else Some (TextFile.field_code format_source x))) f), (TextProofs.each_ext _ (fun x => decoder_slot (if str_eqb (ho_loc x) (T "query") then Some (TextFile.oneof_code format_source x) else None)) g) end.
      + cbn [concat]. rewrite <- !app_assoc. reflexivity.
      + intro o. unfold decoder_slot. destruct (str_eqb (ho_loc o) (T "query")); reflexivity.
      + intro f. unfold decoder_slot. destruct (str_eqb (hf_loc f) (T "body")); reflexivity.
    - intro q. destruct q; unfold just; try apply flat_flat_none. apply (flat_each hm_binds hb_label).
  Qed.
  (** ** The client *)
  Lemma each_in {X} (f g : X -> str) l : (forall x, In x l -> f x = g x) -> each f l = each g l.
  Proof. unfold each. induction l as [|x l IH]; intro H; [reflexivity|]. cbn [map concat]. rewrite (H x (or_introl eq_refl)), IH; [reflexivity|]. intros y Hy. apply H. right. exact Hy. Qed.
  Definition client_text (m : hmeth) : str := concat [T "
		"; T "var "; hb_label (first m); T "Endpoint endpoint.Endpoint
				{
					"; hb_label (first m); T "Endpoint = httptransport.NewClient(
						"""; to_upper (hb_verb (first m)); T """,
						copyURL(u, """; hb_base (first m); T """),
						EncodeHTTP"; hb_label (first m); T "Request,
						DecodeHTTP"; hm_name m; T "Response,
						options...,
					).Endpoint()
				}"].
  Definition row_text (m : hmeth) : str := concat [hm_name m; T "Endpoint:    "; hb_label (first m); T "Endpoint,
			"].
  Lemma p42_first : p42 format_source d = each client_text helper.
  Proof. unfold p42. apply each_in. intros m Hm. destruct (Hhelp m Hm) as (_ & N & _). unfold client_text, first. destruct (hm_binds m); [contradiction|]. cbn [hd concat]. rewrite ?app_nil_r. reflexivity. Qed.
  Lemma p44_first : p44 format_source d = each row_text helper.
  Proof. unfold p44. apply each_in. intros m Hm. destruct (Hhelp m Hm) as (_ & N & _). unfold row_text, first. destruct (hm_binds m); [contradiction|]. cbn [hd concat]. rewrite ?app_nil_r. reflexivity. Qed.
  Definition client_names : list str := [T "EncodeHTTPGenericResponse"; T "HTTPHeadersToContext"; T "NewHTTPClient"; T "copyURL"; T "CtxValuesToSend"].
  Definition client_funs : list (list token) := map (fun f => plain (GoGlue.func_toks f)) [GlueProg.encode_response_fun; GlueProg.headers_fun; GlueProg.send_fun].
  (** *** NewHTTPClient and copyURL *)
  Definition http_client_funs (ms : list hmeth) : list (list token) := [plain (GoGlue.func_toks (HttpProg.new_http_fun svc ms)); plain (GoGlue.func_toks HttpProg.copy_url_fun)].
  Definition new_http_head : list token := [kw "func"; kw "NewHTTPClient"; op "("] ++ GoGlue.params_toks (GoGlue.f_params (HttpProg.new_http_fun svc [])) ++ [op ")"] ++ GlueProg.pair_ty [Word (svc ++ T "Server")] [kw "error"] ++ [op "{"]
    ++ FileGrpc.stms_row HttpProg.parse_instance.
  Lemma new_http_some ms : nonempty ms = true -> GoGlue.func_toks (HttpProg.new_http_fun svc ms) =
    new_http_head ++ FileGrpc.stms_row (flat_map HttpProg.http_endpoint ms) ++ [kw "return"; kw "Endpoints"; op "{"] ++ flat_map FileGrpc.field_row (map HttpProg.http_endpoint_field ms) ++ [op "}"; op ","; kw "nil"; Semi; op "}"].
  Proof.
    intro N. unfold GoGlue.func_toks, HttpProg.new_http_fun. cbn [GoGlue.f_recv GoGlue.f_name GoGlue.f_params GoGlue.f_results GoGlue.f_body]. unfold GoGlue.block_toks. rewrite !flat_map_app.
    assert (O : flat_map (fun s => GoGlue.stm_toks s ++ [Semi]) (match ms with [] => [HttpProg.no_endpoints] | _ :: _ => [] end) = []) by (destruct ms; [discriminate N|reflexivity]). rewrite O. clear O.
    fold (FileGrpc.stms_row HttpProg.parse_instance). fold (FileGrpc.stms_row (flat_map HttpProg.http_endpoint ms)). unfold new_http_head.
    cbn [flat_map GoGlue.stm_toks GoGlue.exp_toks map GoGlue.commas]. repeat (first [rewrite <- app_assoc|progress cbn [app]]). reflexivity.
  Qed.
  Lemma h45_none : sec (concat [p37 format_source d; svc; p39 format_source d; T "panic(""No HTTP Endpoints, this client will not work, define bindings in your proto definition"")"; p41 format_source d; p43 format_source d; p45 format_source d]) (just client_names) (client_funs ++ http_client_funs []).
  Proof. pose proof Hnone. unfold p37, p39, p41, p43, p45. eexists; eexists; split; [adds_with loop [svc] none|]; split; [walk|]; split; [says|]. 
    intros y Hy. apply in_app_or in Hy. destruct Hy as [Hy|[<-|[<-|[]]]]; [revert y Hy; found|right; right; left; reflexivity|do 3 right; left; reflexivity]. Qed.
  Lemma h45_some : nonempty helper = true -> sec (concat [p37 format_source d; svc; p39 format_source d; p41 format_source d; each client_text helper; p43 format_source d; each row_text helper; p45 format_source d]) (just client_names) (client_funs ++ http_client_funs helper).
  Proof.
    intro Some. pose proof Hnone. unfold p37, p39, p41, p43, p45. eexists; eexists; split.
    - eapply (adds_split 5); cbn [firstn skipn].
      + unfold client_text. adds_with loop [svc] none.
      + refine (adds_rows_cons (T "

	return Endpoints{") 1 _ _ (fun x => map (ftok (nth_name [hm_name x; go_camel_case (hm_req x); go_camel_case (hm_resp x); svc; hb_label (first x)]) (nth_text [to_upper (hb_verb (first x)); hb_path (first x); hb_base (first x); to_lower (hm_name x)]))
          [Word (W 0 :: lit "Endpoint"); Op (T ":"); Word (W 4 :: lit "Endpoint"); Op (T ",")]) _ _ _ _ _ _).
        * lazymatch goal with |- adds _ ?l => change (adds (concat [T "

	return Endpoints{
	"]) l) end. adds_with loop [svc] none.
        * intros x Hx. unfold row_text. split.
          -- loop x Hx ltac:(fun N Tx => lexes N Tx).
          -- intro b. exact (ends_row [hm_name x; T "Endpoint:    "; hb_label (first x)] (T "Endpoint,") 3 b).
        * adds_with loop [svc] none.
    - split; [walk|]. split; [says|]. intros y Hy. apply in_app_or in Hy. destruct Hy as [Hy|[<-|[<-|[]]]]; [revert y Hy; found| |].
      + right. right. left. refine (f_equal plain _). rewrite (new_http_some _ Some). repeat rewrite <- app_assoc. rewrite ?app_nil_l. apply f_equal2; [reflexivity|].
        apply f_equal2; [eapply FileGrpc.same_rows; [|apply FileGrpc.rows_blocks]; intro x; reflexivity|].
        apply f_equal2; [reflexivity|]. apply f_equal2; [eapply FileGrpc.same_rows; [|apply FileGrpc.rows_fields]; intro x; reflexivity|reflexivity].
      + do 3 right. left. reflexivity.
  Qed.
  Lemma some_or_none {X} (l : list X) : l = [] \/ nonempty l = true. Proof. destruct l; [left|right]; reflexivity. Qed.
  Lemma h45 : sec (concat (firstn 9 (skipn 37 (baron_pieces format_source d)))) (just client_names) (client_funs ++ http_client_funs helper).
  Proof.
    unfold baron_pieces. cbn [firstn skipn]. rewrite p42_first, p44_first. unfold p38, p40. destruct (some_or_none helper) as [E|E].
    - rewrite E. eapply sec_text; [exact h45_none|]. cbn [nonempty negb concat each map]. rewrite ?app_nil_r. reflexivity.
    - eapply sec_text; [exact (h45_some E)|]. rewrite E. cbn [negb concat app]. reflexivity.
  Qed.
  Definition answer_funs : list (list token) := flat_map (fun x => [plain (GoGlue.func_toks (GlueProg.decode_response_fun (hm_name x) (go_camel_case (hm_resp x))))]) helper.
  Lemma h46 : sec (p46 format_source d) (just (Wiring.each (T "DecodeHTTP") (map hm_name helper) (T "Response"))) answer_funs.
  Proof. unfold p46, answer_funs. having (fun x => just [T "DecodeHTTP" ++ hm_name x ++ T "Response"]) (fun x => [plain (GoGlue.func_toks (GlueProg.decode_response_fun (hm_name x) (go_camel_case (hm_resp x))))]). Qed.
  Lemma h47 : sec (p47 format_source d) no [].
  Proof. pose proof Hnone. apply (sec_text _ (concat [p47 format_source d])); [|cbn [concat]; apply app_nil_r]. unfold p47. piece loop [svc] none. Qed.
  (** ** Encoders *)
  Definition enc_note (m : hmeth) (b : hbind) : str := concat [T "// EncodeHTTP"; hb_label b; T "Request is a transport/http.EncodeRequestFunc
	// that encodes a "; to_lower (hm_name m); T " request into the various portions of
	// the http request (path, query, and body)."].
  Definition enc_full (m : hmeth) (b : hbind) : str := enc_note m b ++ 10%N :: text_of b (go_camel_case (hm_req m)).
  Lemma p48_full : p48 format_source d = each (fun m => concat [10%N :: 9%N :: each (enc_full m) (hm_binds m); [10%N]]) helper.
  Proof.
    unfold p48. apply TextProofs.each_ext. intro m. match goal with |- concat [_; each ?f _; _] = _ => assert (E : forall b, f b = enc_full m b) end.
    { intro b. unfold enc_full, enc_note, text_of, encoder_func. rewrite TextProofs.each_map.
      match goal with |- concat [?x0; ?x1; ?x2; ?x3; ?x4; ?x5; ?x6; ?x7; ?x8; ?x9; ?x10; ?f; ?o; ?q; ?body; ?e] = _ ++ _ :: concat [_; _; _; _; _; _; _; ?f' ++ ?o'; _; ?body'; _] =>
        assert (F1 : f = f'); [|assert (F2 : o = o'); [|assert (F3 : body = body'); [|rewrite F1, F2, F3; clear F1 F2 F3; cbn [concat app]; rewrite ?app_nil_r; rewrite <- ?app_assoc; reflexivity]]] end.
      - apply TextProofs.each_filter. intros f _. unfold PropText.query_of. destruct (hf_rep f && hf_base f), (contains (hf_gotype f) (T "[]string")), (negb (hf_base f) || hf_rep f), (hf_star f); cbn [concat]; rewrite ?app_nil_r; rewrite <- ?app_assoc; reflexivity.
      - apply TextProofs.each_filter. intros o _. cbn [concat]. rewrite app_nil_r. apply TextProofs.each_ext. intro f. unfold PropText.option_query_of. destruct (negb (hf_base f) || hf_rep f); cbn [concat]; rewrite !app_nil_r; reflexivity.
      - destruct (str_eqb (hb_verb b) (T "get")); [reflexivity|]. cbn [negb].
        match goal with |- concat [?a; ?g; ?c; ?e; ?t] = _ => replace e with (each (fun f => body_field (hf_camel f)) (filter (fun f => str_eqb (hf_loc f) (T "body")) (hb_fields b))) end; [reflexivity|].
        symmetry. apply TextProofs.each_filter. intros f _. reflexivity. }
    rewrite (TextProofs.each_ext _ _ _ (hm_binds m) E). reflexivity.
  Qed.
  Lemma enc_block m b : ident (hb_label b) -> block_text (enc_full m b).
  Proof.
    intro H. unfold enc_full, enc_note. split.
    - exists (T " EncodeHTTP" ++ hb_label b ++ T "Request is a transport/http.EncodeRequestFunc"). exists (T "	// that encodes a " ++ to_lower (hm_name m) ++ T " request into the various portions of
	// the http request (path, query, and body)." ++ 10%N :: text_of b (go_camel_case (hm_req m))). split.
      + apply inner_app; [apply safe_inner, safe_dec; reflexivity|]. apply inner_app; [apply safe_inner, ident_safe; exact H|apply safe_inner, safe_dec; reflexivity].
      + cbn [concat]. rewrite ?app_nil_r. rewrite <- !app_assoc. reflexivity.
    - assert (E : exists u, text_of b (go_camel_case (hm_req m)) = u ++ T "
		return nil
	}").
      { unfold text_of, encoder_func. cbn [concat]. rewrite ?app_nil_r. eexists. rewrite !app_assoc. reflexivity. }
      destruct E as [u ->]. exists (enc_note m b ++ 10%N :: u ++ T "
		return nil"). rewrite <- !app_assoc. cbn [app]. rewrite <- app_assoc. reflexivity.
  Qed.
  Lemma enc_lex m b : In m helper -> In b (hm_binds m) -> lex (enc_full m b) = lex (text_of b (go_camel_case (hm_req m))).
  Proof.
    intros Hm Hb. unfold enc_full. rewrite lex_lines. assert (E : lex (enc_note m b) = []); [|rewrite E; reflexivity].
    unfold enc_note. loop b Hb ltac:(fun N Tx => change (@nil token) with (map (ftok (nth_name N) (nth_text Tx)) []); lexes N Tx).
  Qed.
  Lemma newline_sec : sec [10%N] no [].
  Proof. exists [], []. split; [intro a; exact (lex_lines a [])|]. repeat split. intros x []. Qed.
  Lemma enc_decl m b : In m helper -> In b (hm_binds m) -> exists x, parts (lex (text_of b (go_camel_case (hm_req m)))) = Some [x] /\ plain x = enc m b.
  Proof. intros Hm Hb. exact (encoder_is_decl _ _ _ (tame_encoder _ _) (Henc m b Hm Hb)). Qed.
  Lemma enc_parts m b : In m helper -> In b (hm_binds m) -> exists ds, parts (lex (enc_full m b)) = Some ds /\ (forall q, flat_map (ask package_name q) (map plain ds) = just [encoder_name b] q) /\ incl [enc m b] (map plain ds).
  Proof.
    intros Hm Hb. destruct (enc_decl m b Hm Hb) as (x & P & E). exists [x]. split; [rewrite (enc_lex m b Hm Hb); exact P|]. change (map plain [x]) with [plain x]. rewrite E. split; [|apply incl_refl].
    intro q. cbn [flat_map]. rewrite app_nil_r. apply enc_says.
  Qed.
  Lemma enc_blocks m : In m helper -> lex (each (enc_full m) (hm_binds m)) = concat (map (fun b => lex (enc_full m b)) (hm_binds m)).
  Proof. intro Hm. apply blocks_lex. intros b Hb. apply enc_block. apply (Hbind m b Hm Hb). Qed.
  Lemma h48_one m : In m helper -> sec (concat [10%N :: 9%N :: each (enc_full m) (hm_binds m); [10%N]]) (fun q => flat_map (fun b => just [encoder_name b] q) (hm_binds m)) (flat_map (fun b => [enc m b]) (hm_binds m)).
  Proof.
    intro Hm. pose proof (sec_lines package_name (enc_full m) (fun b => just [encoder_name b]) (fun b => [enc m b]) (hm_binds m) (enc_blocks m Hm) (fun b Hb => enc_parts m b Hm Hb)) as S.
    pose proof (sec_concat_cons package_name _ _ _ _ _ _ S (sec_one package_name _ _ _ newline_sec)) as S2.
    refine (sec_say package_name _ _ _ _ _ S2 _ _).
    - intro q. exact (app_nil_r _).
    - rewrite app_nil_r. apply incl_refl.
  Qed.
  Lemma h48 : sec (p48 format_source d) (just (Wiring.each (T "EncodeHTTP") labels (T "Request"))) (flat_map (fun m => flat_map (fun b => [enc m b]) (hm_binds m)) helper).
  Proof.
    rewrite p48_full. refine (sec_say package_name _ _ _ _ _ (sec_each package_name _ (fun m q => flat_map (fun b => just [encoder_name b] q) (hm_binds m)) _ helper h48_one) _ (incl_refl _)).
    intro q. destruct q; unfold just; try apply flat_flat_none. apply (flat_each hm_binds hb_label).
  Qed.
End File.
