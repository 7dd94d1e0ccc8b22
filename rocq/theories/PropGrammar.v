(** Property theorems C63: the language accepted by ParseService (svcdef/svcparse/parser.go) is exactly the
    grammar of GrammarSpec.v, and what a service definition means is determined by it. *)
From Verif Require Import GoStr GoStrProofs Scanner Lexer LexerSpec Unquote Parser ParserSpec ParserProofs3 GrammarSpec GrammarProofs PropParser.

(** The tokens the parser has not read yet, white space aside. *)
Definition unread (l : lexer) : list stok := without_space (skipn (lx_pos l) (lx_buf l)).

Theorem c63_accepts_exactly : forall ts sv rest,
  (exists l, parse_service (new_lexer ts) = POk sv l /\ unread l = rest) <-> service_def (without_space ts) sv rest.
Proof. intros ts sv rest. symmetry. apply parse_service_iff. Qed.
Print Assumptions c63_accepts_exactly.

(** Everything else is an error (not a panic, not an endless loop). *)
Theorem c63_rejects_exactly : forall ts,
  (exists e, parse_service (new_lexer ts) = PErr e) <-> ~ exists sv rest, service_def (without_space ts) sv rest.
Proof.
  intro ts. split.
  - intros (e & E) (sv & rest & H). apply parse_service_iff in H. destruct H as (l & H & _). congruence.
  - intro H. pose proof (c12_parse_service_total ts) as K. destruct (parse_service (new_lexer ts)) as [sv l|e| |] eqn:E; try contradiction.
    + exfalso. apply H. exists sv, (unread l). apply parse_service_iff. exists l. split; [exact E|reflexivity].
    + exists e. reflexivity.
Qed.
Print Assumptions c63_rejects_exactly.

(** The grammar is unambiguous. *)
Theorem c63_meaning_unique : forall s sv sv' rest rest', service_def s sv rest -> service_def s sv' rest' -> sv = sv' /\ rest = rest'.
Proof.
  intros s sv sv' rest rest' H H'. apply aservice_iff in H. apply aservice_iff in H'. rewrite H in H'. injection H' as -> ->. auto.
Qed.
Print Assumptions c63_meaning_unique.

(** The files users write (ParserSpec.v) belong to it, with the meaning they expect. *)
Theorem c63_written_form : forall sv rest, service_ok sv ->
  exists rest', service_def (write_service sv ++ rest) (mean_service sv) rest'.
Proof.
  intros sv rest H.
  destruct (ParserProofs.aservice_ok sv rest H) as [s' E]. exists s'. apply aservice_iff. exact E.
Qed.
Print Assumptions c63_written_form.

(** ** Quirks that the grammar admits, and a sample *)
(** additional_bindings without an option; a "custom" in a "custom"; another word for service. *)
Definition quirk : list stok :=
  [(IDENT, T "interface"); (IDENT, T "S"); (OPEN_BRACE, T "{"); (IDENT, T "rpc"); (IDENT, T "A");
   (OPEN_PAREN, T "("); (IDENT, T "B"); (CLOSE_PAREN, T ")"); (IDENT, T "returns");
   (OPEN_PAREN, T "("); (IDENT, T "C"); (CLOSE_PAREN, T ")"); (OPEN_BRACE, T "{");
   (IDENT, T "additional_bindings"); (SYMBOL, T "="); (OPEN_BRACE, T "{");
   (IDENT, T "get"); (SYMBOL, T ":"); (STRING_LITERAL, lit (T "/a")); (CLOSE_BRACE, T "}");
   (SYMBOL, T ";"); (CLOSE_BRACE, T "}"); (CLOSE_BRACE, T "}")].
Example quirk_accepted : service_def quirk (mkService (T "S") [mkMethod (T "A") [] (T "B") (T "C")
  [mkBinding [] [mkField (T "get") [] (T "get") (T "/a")] []]]) [(CLOSE_BRACE, T "}")].
Proof. apply aservice_iff. vm_compute. reflexivity. Qed.
Example sample_in_grammar : exists rest, service_def (write_service sample_service) (mean_service sample_service) rest.
Proof. destruct (c63_written_form sample_service [] sample_service_ok) as [rest H]. rewrite app_nil_r in H. exists rest. exact H. Qed.
Example rejected : ~ exists sv rest, service_def [(IDENT, T "service"); (IDENT, T "S"); (OPEN_BRACE, T "{"); (IDENT, T "rpc"); (IDENT, T "A"); (SYMBOL, T ";"); (CLOSE_BRACE, T "}")] sv rest.
Proof. intros (sv & rest & H). apply aservice_iff in H. vm_compute in H. discriminate. Qed.
