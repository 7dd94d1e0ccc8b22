(** Property theorems C12-C16: the parser (svcdef/svcparse/parser.go). *)
From Verif Require Import GoStr GoStrProofs Scanner ScannerSpec Lexer LexerSpec LexRun PropLexer Unquote Parser
  ParserSpec ParserList ParserSim ParserProofs ParserProofs2 ParserProofs3 UnquoteSpec UnquoteProofs.

(** The call comes back, with a value or an error (no panic, no endless loop). *)
Definition returns {A} (r : pres A) : Prop := match r with POk _ _ | PErr _ => True | _ => False end.

(** C12: parsing always terminates. *)
Theorem c12_parse_service_total : forall ts, returns (parse_service (new_lexer ts)).
Proof. exact parse_total. Qed.
Print Assumptions c12_parse_service_total.

(** The same for every entry point, from every lexer state within its buffer. *)
Theorem c12_parser_total : forall l, lx_pos l <= length (lx_buf l) ->
  returns (parse_service l) /\ returns (parse_method l) /\ returns (parse_http_bindings l)
  /\ returns (parse_binding_fields l).
Proof.
  intros l Hl. assert (Hw : wf (lx_buf l) l) by (split; [reflexivity|exact Hl]).
  assert (K : forall A (m : pres A) (a : ares A), rel (lx_buf l) m a -> a <> AFuel -> returns m).
  { intros A m a Hr Ha. destruct m, a; cbn in *; auto; congruence. }
  assert (G : forall A n (a : ares A), good n a -> a <> AFuel) by (intros A n a H E; subst a; exact H).
  split; [exact (K _ _ _ (service_rel _ _ Hw) (aservice_total _))|].
  split; [apply (K _ _ _ (method_rel _ _ Hw)); intro E; pose proof (amethod_len (sig l)) as H; rewrite E in H; exact H|].
  split; [exact (K _ _ _ (http_rel _ _ Hw) (G _ _ _ (ahttp_good _)))|].
  exact (K _ _ _ (fields_rel _ _ Hw) (G _ _ _ (aparse_fields_good _))).
Qed.
Print Assumptions c12_parser_total.

(** C13: two buffers that differ in white space only (and in line numbers) give the same service, or
    the same error up to line numbers. *)
Theorem c13_whitespace_irrelevant : forall ts1 ts2, without_space ts1 = without_space ts2 ->
  same_result (parse_service (new_lexer ts1)) (parse_service (new_lexer ts2)).
Proof. exact parse_space. Qed.
Print Assumptions c13_whitespace_irrelevant.

(** C14: what is written is what is parsed.  At the level of tokens: *)
Theorem c14_parse_written : forall ts sv rest, service_ok sv -> without_space ts = write_service sv ++ rest ->
  exists l, parse_service (new_lexer ts) = POk (mean_service sv) l.
Proof. exact aservice_parse. Qed.
Print Assumptions c14_parse_written.

(** At the level of file text: any file whose first service definition [block] spells out the source
    form of [sv]. *)
Theorem c14_parse_text : forall U pre block post blocks sv, unicode_ok U ->
  well_separated U (pre ++ block ++ post) -> service_free pre -> service_block block -> proto_file post blocks ->
  spells U block (write_service sv) -> service_ok sv ->
  exists l, parse_text U globals0 (concat (pre ++ block ++ post)) = Ret (POk (mean_service sv) l, globals0).
Proof. intros U pre block post blocks sv HU. exact (parse_file U HU pre block post blocks sv). Qed.
Print Assumptions c14_parse_text.

(** A literal without escapes means its own text. *)
Theorem c14_plain_literal : forall s, plain_text s -> unquote ([c_dquote] ++ s ++ [c_dquote]) = Some s.
Proof. exact unquote_plain. Qed.
Print Assumptions c14_plain_literal.

(** And with escapes: a literal has a value exactly if it is a quoted text that denotes it (UnquoteSpec.v). *)
Theorem c14_literal_value : forall lit v, unquote lit = Some v <-> exists body, lit = [c_dquote] ++ body ++ [c_dquote] /\ denotes body v.
Proof. exact unquote_iff. Qed.
Print Assumptions c14_literal_value.

(** C15: everything in a parsed service comes from the file, and every method has a binding. *)
Theorem c15_methods_from_file : forall ts sv l, parse_service (new_lexer ts) = POk sv l ->
  In (IDENT, hs_name sv) (without_space ts)
  /\ Forall (method_from (without_space ts)) (hs_methods sv).
Proof. intros ts sv l H. destruct (parse_from ts sv l H) as [H1 H2]. split; assumption. Qed.
Print Assumptions c15_methods_from_file.

Theorem c15_every_method_bound : forall ts sv l m, parse_service (new_lexer ts) = POk sv l ->
  In m (hs_methods sv) -> hm_bindings m <> [].
Proof.
  intros ts sv l m H Hm. destruct (parse_from ts sv l H) as [H1 _]. rewrite Forall_forall in H1.
  exact (proj1 (H1 m Hm)).
Qed.
Print Assumptions c15_every_method_bound.

(** C16: additional bindings first, in the order written; the option's own binding last. *)
Theorem c16_binding_order : forall l o rest, lx_pos l <= length (lx_buf l) ->
  without_space (skipn (lx_pos l) (lx_buf l)) = write_option o ++ rest -> option_ok o ->
  exists l', parse_http_bindings l = POk (Some (map (fun a => mean_body [] (a_body a)) (o_more o)
                                                ++ [mean_body (last (o_comments o) []) (o_body o)])) l'
    /\ without_space (skipn (lx_pos l') (lx_buf l')) = rest.
Proof.
  intros l o rest Hl E Hok. assert (Hw : wf (lx_buf l) l) by (split; [reflexivity|exact Hl]).
  pose proof (http_rel _ _ Hw) as H. unfold sig in H. rewrite E in H. rewrite (ahttp_option o rest Hok) in H.
  destruct (parse_http_bindings l) as [a l'| | |]; cbn in H; try contradiction.
  destruct H as (-> & _ & Hs). exists l'. split; [reflexivity|]. unfold sig in Hs. exact Hs.
Qed.
Print Assumptions c16_binding_order.

(** ** Where the claims fail: files protoc accepts *)
Definition dq : str := [c_dquote].
Definition rpc_text (opts : str) : str :=
  T "service S { rpc A (B) returns (C) { " ++ opts ++ T " } }".
Definition http_get (p : str) : str :=
  T "option (google.api.http) = { get: " ++ dq ++ p ++ dq ++ T " };".
Definition parsed (text : str) : option (list (str * list (list (str * str * str)))) :=
  match parse_text latin1 globals0 text with
  | Ret (POk sv _, _) => Some (map (fun m => (hm_name m, map (fun b => map (fun f => (hf_kind f, hf_value f, hf_desc f)) (hb_fields b)) (hm_bindings m))) (hs_methods sv))
  | _ => None
  end.

(** The same file is accepted with one option and rejected when a second option follows. *)
Theorem c14_second_option_refuted :
  parsed (rpc_text (http_get (T "/a"))) = Some [(T "A", [[(T "get", T "/a", [])]])]
  /\ parsed (rpc_text (http_get (T "/a") ++ T " option deprecated = true;")) = None.
Proof. vm_compute. split; reflexivity. Qed.

(** A fully qualified type (leading dot) is rejected. *)
Theorem c14_leading_dot_refuted :
  parsed (T "service S { rpc A (p.B) returns (C) { " ++ http_get (T "/a") ++ T " } }") <> None
  /\ parsed (T "service S { rpc A (.p.B) returns (C) { " ++ http_get (T "/a") ++ T " } }") = None.
Proof. vm_compute. split; [discriminate|reflexivity]. Qed.

(** An rpc whose only option is not an http option is not skipped: the file is rejected, or the next
    rpc's http option is taken for its own and the next rpc disappears. *)
Theorem c14_other_option_refuted :
  parsed (T "service S { rpc A (B) returns (C) { option deprecated = true; } rpc D (E) returns (F) { "
          ++ http_get (T "/d") ++ T " } }") = None.
Proof. vm_compute. reflexivity. Qed.

(** A comment above custom is taken for the comment of the field after it. *)
Theorem c14_comment_leaks_refuted :
  parsed (rpc_text (T "option (google.api.http) = { /* about custom */ custom { kind: " ++ dq ++ T "HEAD" ++ dq ++ T " } body: "
                    ++ dq ++ T "*" ++ dq ++ T " };"))
  = Some [(T "A", [[(T "body", T "*", T "/* about custom */")]])].
Proof. vm_compute. reflexivity. Qed.

(** A message field called service is taken for a service definition. *)
Theorem c14_field_called_service_refuted :
  parsed (T "message M { string name = 1; } " ++ rpc_text (http_get (T "/a"))) <> None
  /\ parsed (T "message M { string service = 1; } " ++ rpc_text (http_get (T "/a"))) = None.
Proof. vm_compute. split; [discriminate|reflexivity]. Qed.

(** Any identifier is accepted in the place of the word service. *)
Theorem c12_service_word_unchecked :
  exists sv l, parse_service (new_lexer [mkTok IDENT (T "message") 1; mkTok IDENT (T "S") 1; mkTok OPEN_BRACE (T "{") 1;
                                    mkTok CLOSE_BRACE (T "}") 1]) = POk sv l.
Proof. eexists _, _. vm_compute. reflexivity. Qed.

(** ** The hypotheses are met: a file with comments, a stream, a qualified type, a custom pattern and
    an additional binding. *)
Definition lit (s : str) : str := dq ++ s ++ dq.
Example escaped_literal : denotes (T "/a\t\x41\101\u4e16\U00010348\\") (T "/a" ++ [9; 65; 65; 19990; 66376; 92]%N).
Proof.
  assert (H : unquote (lit (T "/a\t\x41\101\u4e16\U00010348\\")) = Some (T "/a" ++ [9; 65; 65; 19990; 66376; 92]%N)) by (vm_compute; reflexivity).
  apply unquote_iff in H. destruct H as (body & E & H). unfold lit, dq in E. apply app_inv_head, app_inv_tail in E. rewrite E. exact H.
Qed.
Definition sample_option : option_src :=
  mkOptSrc [] (mkBodySrc [(OPEN_PAREN, T "("); (IDENT, T "h"); (CLOSE_PAREN, T ")"); (SYMBOL, T "=")]
                         [SField (mkFieldSrc [T "// g" ++ [c_nl]] (T "get") (lit (T "/a/{x}")) (T "/a/{x}"));
                          SCustom [] [mkFieldSrc [] (T "kind") (lit (T "HEAD")) (T "HEAD")] []] [])
           [mkAddSrc [] (mkBodySrc [] [SField (mkFieldSrc [] (T "post") (lit (T "/b")) (T "/b"))] [])] [].
Definition sample_service : service_src :=
  mkServiceSrc (T "S")
    [mkMethodSrc [T "// one" ++ [c_nl]] (T "A") (mkTypeSrc true (T "p") [(SYMBOL, T "."); (IDENT, T "B")])
                 (mkTypeSrc false (T "C") []) (OHttp sample_option [] []);
     mkMethodSrc [] (T "N") (mkTypeSrc false (T "B") []) (mkTypeSrc false (T "C") []) ONone] [].

Definition sample_block : list str :=
  [T "service"; T " "; T "S"; T " "; T "{"; [c_nl];
   T "// one" ++ [c_nl]; T " "; T "rpc"; T " "; T "A"; T "("; T "stream"; T " "; T "p"; T "."; T "B"; T ")"; T " ";
   T "returns"; T " "; T "("; T "C"; T ")"; T "{";
   T "option"; T "("; T "h"; T ")"; T "="; T "{"; T "// g" ++ [c_nl]; T "get"; T ":"; lit (T "/a/{x}"); [c_nl];
   T "custom"; T "{"; T "kind"; T ":"; lit (T "HEAD"); T "}";
   T "additional_bindings"; T " "; T "{"; T "post"; T ":"; T " "; lit (T "/b"); T "}";
   T "}"; T ";"; T "}"; [c_nl];
   T "rpc"; T " "; T "N"; T "("; T "B"; T ")"; T "returns"; T "("; T "C"; T ")"; T ";"; T "}"].

Example sample_service_ok : service_ok sample_service.
Proof.
  unfold service_ok, sample_service. cbn [s_methods].
  apply Forall_cons; [|apply Forall_cons; [|apply Forall_nil]].
  - split; [|split].
    + split; [discriminate|]. cbn [t_rest m_req]. apply Forall_cons; [left; reflexivity|]. apply Forall_cons; [right; reflexivity|]. apply Forall_nil.
    + split; [discriminate|apply Forall_nil].
    + cbn [m_options]. unfold option_ok, sample_option. cbn [o_body o_more]. split; [split|].
      * cbn [b_filler]. unfold filler_ok.
        repeat (apply Forall_cons; [split; [discriminate|split; discriminate]|]). apply Forall_nil.
      * cbn [b_items]. apply Forall_cons; [split; [discriminate|split; [discriminate|vm_compute; reflexivity]]|].
        apply Forall_cons; [|apply Forall_nil]. split; [apply Forall_nil|].
        apply Forall_cons; [split; [discriminate|split; [discriminate|vm_compute; reflexivity]]|apply Forall_nil].
      * apply Forall_cons; [|apply Forall_nil]. cbn [a_body]. split; [apply Forall_nil|]. cbn [b_items].
        apply Forall_cons; [split; [discriminate|split; [discriminate|vm_compute; reflexivity]]|apply Forall_nil].
  - split; [split; [discriminate|apply Forall_nil]|split; [split; [discriminate|apply Forall_nil]|exact I]].
Qed.

Ltac no_comment := let d := fresh in let s := fresh in let H := fresh in intros [d [s H]]; discriminate H.
Ltac solve_token :=
  first [apply ut_lparen|apply ut_rparen|apply ut_lbrace|apply ut_rbrace|apply ut_string
        |apply ut_ident; vm_compute; tauto
        |apply ut_symbol; [reflexivity|let K := fresh in intros [K|[K|K]]; vm_compute in K; discriminate|nope]].
Ltac is_cm := eexists _, _; reflexivity.
Ltac solve_spells :=
  first [apply sp_nil
        |apply sp_unit; [no_comment|solve_token|discriminate|solve_spells]
        |apply sp_space; [vm_compute; reflexivity|solve_spells]
        |refine (sp_comment _ _ [] _ _ _ _ _ _); [is_cm|apply ct_nil|split; [no_comment|intros _ _; no_comment]|solve_spells]
        |refine (sp_comment _ _ [] _ _ _ _ _ _); [is_cm|apply ct_nil|split; [no_comment|let K := fresh in intro K; vm_compute in K; discriminate]|solve_spells]].

Example sample_block_spells : spells latin1 sample_block (write_service sample_service).
Proof.
  unfold sample_block, write_service, sample_service, sample_option.
  cbn [s_name s_methods s_trailing map concat write_method write_type write_options write_option write_body write_item write_field write_additional
       m_comments m_name m_req m_resp m_options t_stream t_first t_rest o_comments o_body o_more o_trailing b_filler b_items b_trailing a_comments a_body
       f_comments f_kind f_lit f_value comments app].
  solve_spells.
Qed.

Example sample_parses : exists l, parse_text latin1 globals0 (concat sample_block)
  = Ret (POk (mean_service sample_service) l, globals0).
Proof. eexists. vm_compute. reflexivity. Qed.
Example sample_meaning : map (fun m => (hm_name m, hm_req m, length (hm_bindings m))) (hs_methods (mean_service sample_service))
  = [(T "A", T "B", 2)].
Proof. vm_compute. reflexivity. Qed.
Ltac lit_shape b := refine (us_string _ b _); repeat (apply sb_plain; [discriminate|discriminate|]); constructor.
Ltac shape2 := first [solve_shape | (refine (us_line _ (T " g") _); nope) | lit_shape (T "/a/{x}") | lit_shape (T "HEAD") | lit_shape (T "/b")].
Ltac solve_ws2 := first [apply ws_nil | apply ws_cons; [shape2|solve_sep|solve_ws2]].
Example sample_block_separated : well_separated latin1 ([] ++ sample_block ++ []).
Proof. unfold sample_block. cbn [app]. solve_ws2. Qed.
Ltac nest_other := repeat (apply ne_other; [discriminate|discriminate|]).
Example sample_block_is_block : service_block sample_block.
Proof.
  refine (sb_intro [T " "; T "S"; T " "]
   [[c_nl]; T "// one" ++ [c_nl]; T " "; T "rpc"; T " "; T "A"; T "("; T "stream"; T " "; T "p"; T "."; T "B"; T ")"; T " ";
   T "returns"; T " "; T "("; T "C"; T ")"; T "{";
   T "option"; T "("; T "h"; T ")"; T "="; T "{"; T "// g" ++ [c_nl]; T "get"; T ":"; lit (T "/a/{x}"); [c_nl];
   T "custom"; T "{"; T "kind"; T ":"; lit (T "HEAD"); T "}";
   T "additional_bindings"; T " "; T "{"; T "post"; T ":"; T " "; lit (T "/b"); T "}";
   T "}"; T ";"; T "}"; [c_nl];
   T "rpc"; T " "; T "N"; T "("; T "B"; T ")"; T "returns"; T "("; T "C"; T ")"; T ";"] _ _ _ _ _); try nope.
  nest_other.
  refine (ne_block [T "option"; T "("; T "h"; T ")"; T "="; T "{"; T "// g" ++ [c_nl]; T "get"; T ":"; lit (T "/a/{x}"); [c_nl];
   T "custom"; T "{"; T "kind"; T ":"; lit (T "HEAD"); T "}";
   T "additional_bindings"; T " "; T "{"; T "post"; T ":"; T " "; lit (T "/b"); T "}";
   T "}"; T ";"] _ _ _); [|nest_other; constructor].
  nest_other.
  refine (ne_block [T "// g" ++ [c_nl]; T "get"; T ":"; lit (T "/a/{x}"); [c_nl];
   T "custom"; T "{"; T "kind"; T ":"; lit (T "HEAD"); T "}";
   T "additional_bindings"; T " "; T "{"; T "post"; T ":"; T " "; lit (T "/b"); T "}"] _ _ _); [|nest_other; constructor].
  nest_other.
  refine (ne_block [T "kind"; T ":"; lit (T "HEAD")] _ _ _); [nest_other; constructor|]. nest_other.
  refine (ne_block [T "post"; T ":"; T " "; lit (T "/b")] [] _ _); [nest_other; constructor|constructor].
Qed.
