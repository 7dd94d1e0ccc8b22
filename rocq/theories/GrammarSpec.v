(** The language of service definitions that svcdef/svcparse/parser.go accepts, with the meaning it
    gives to each, written as a grammar: no lexer, no fuel, no errors.  [G s m rest] reads: the tokens
    [s] begin with a G that means [m], and [rest] are the tokens after it.  PropGrammar.v proves that
    the parser accepts exactly this language. *)
From Verif Require Import GoStr Lexer Unquote Parser ParserSpec.

(** Tokens that can begin an entry: not a comment, not the end of the file, not an illegal one. *)
Definition legal (t : token) : Prop := t <> TEOF /\ t <> ILLEGAL.
Definition entry (t : token) : Prop := legal t /\ t <> COMMENT.
(** Tokens skipped, whatever they are, on the way to the first [d]. *)
Definition skipped (d : str) (sk : list stok) : Prop := Forall (fun x => legal (fst x) /\ snd x <> d) sk.

Definition ends_items (t : token) (v : str) : Prop :=
  (t = CLOSE_BRACE /\ v = T "}") \/ v = T "additional_bindings".

(** The custom pattern in force after [c] if none follows. *)
Definition or_custom (later : option (list hfield)) (c : list hfield) : list hfield :=
  match later with Some l => l | None => c end.

(** The entries of a { } block, up to its } or its first additional_bindings, which is left in [rest].
    [desc] is the comment a first field without a comment of its own gets. *)
Inductive items : str -> list stok -> list hfield -> option (list hfield) -> list stok -> Prop :=
| items_end : forall desc cs t v s, entry t -> ends_items t v ->
    items desc (comments cs ++ (t, v) :: s) [] None ((t, v) :: s)
| items_field : forall desc cs t kind lit val s fs c rest, entry t -> ~ ends_items t kind ->
    kind <> T "custom" -> unquote lit = Some val -> items [] s fs c rest ->
    items desc (comments cs ++ (t, kind) :: (SYMBOL, T ":") :: (STRING_LITERAL, lit) :: s)
          (mkField kind (last cs desc) kind val :: fs) c rest
| items_custom : forall desc cs t sk t1 s cfs c' sk' t2 s' fs c rest, entry t ->
    skipped (T "{") sk -> legal t1 -> items [] s cfs c' (sk' ++ (t2, T "}") :: s') ->
    skipped (T "}") sk' -> legal t2 -> items (last cs desc) s' fs c rest ->
    items desc (comments cs ++ (t, T "custom") :: sk ++ (t1, T "{") :: s) fs (Some (or_custom c cfs)) rest.

(** ... { entries }: from a keyword to the closing brace of its block. *)
Inductive block : list stok -> list hfield -> list hfield -> list stok -> Prop :=
| block_i : forall sk t1 s fs c sk' t2 rest,
    skipped (T "{") sk -> legal t1 -> items [] s fs c (sk' ++ (t2, T "}") :: rest) ->
    skipped (T "}") sk' -> legal t2 ->
    block (sk ++ (t1, T "{") :: s) fs (or_custom c []) rest.

(** The rest of an option after its own entries: additional bindings, then a closing brace. *)
Inductive additional : list stok -> list hbinding -> list stok -> Prop :=
| add_end : forall cs v rest, additional (comments cs ++ (CLOSE_BRACE, v) :: rest) [] rest
| add_more : forall cs t s fs c s' bs rest, entry t -> t <> CLOSE_BRACE -> block s fs c s' ->
    additional s' bs rest ->
    additional (comments cs ++ (t, T "additional_bindings") :: s) (mkBinding [] fs c :: bs) rest.

(** What stands in the braces of an rpc. *)
Inductive http_part : list stok -> option (list hbinding) -> list stok -> Prop :=
| http_option : forall cs t sk t1 s fs c s' bs rest, entry t -> skipped (T "{") sk -> legal t1 ->
    items [] s fs c s' -> additional s' bs rest ->
    http_part (comments cs ++ (t, T "option") :: sk ++ (t1, T "{") :: s)
         (Some (bs ++ [mkBinding (last cs []) fs (or_custom c [])])) rest
| http_additional : forall cs t s fs c rest, entry t -> block s fs c rest ->
    http_part (comments cs ++ (t, T "additional_bindings") :: s) (Some [mkBinding (last cs []) fs c]) rest
| http_none : forall cs t rest, entry t -> http_part (comments cs ++ (t, T "}") :: rest) None rest.

(** ( [stream] first rest ): identifiers and symbols; the last identifier is the type. *)
Inductive argument : list stok -> str -> list stok -> Prop :=
| arg_plain : forall v first more v' rest, first <> T "stream" ->
    Forall (fun x => fst x = SYMBOL \/ fst x = IDENT) more ->
    argument ((OPEN_PAREN, v) :: (IDENT, first) :: more ++ (CLOSE_PAREN, v') :: rest)
             (last (map snd (filter (fun x => token_eqb (fst x) IDENT) more)) first) rest
| arg_stream : forall v t first more v' rest,
    Forall (fun x => fst x = SYMBOL \/ fst x = IDENT) more ->
    argument ((OPEN_PAREN, v) :: (t, T "stream") :: (IDENT, first) :: more ++ (CLOSE_PAREN, v') :: rest)
             (last (map snd (filter (fun x => token_eqb (fst x) IDENT) more)) first) rest.

(** rpc NAME ARG returns ARG and its end; [None]: the rpc has no http binding. *)
Inductive rpc_tail (mk : list hbinding -> hmethod) : list stok -> option hmethod -> list stok -> Prop :=
| tail_semi : forall t rest, rpc_tail mk ((t, T ";") :: rest) None rest
| tail_none : forall v s rest, v <> T ";" -> http_part s None rest -> rpc_tail mk ((OPEN_BRACE, v) :: s) None rest
| tail_http : forall v s bs cs1 cs2 v2 rest, v <> T ";" ->
    http_part s (Some bs) (comments cs1 ++ (SYMBOL, T ";") :: comments cs2 ++ (CLOSE_BRACE, v2) :: rest) ->
    rpc_tail mk ((OPEN_BRACE, v) :: s) (Some (mk bs)) rest.
Inductive rpc : list stok -> option hmethod -> list stok -> Prop :=
| rpc_i : forall cs name s req s1 resp s2 m rest, argument s req ((IDENT, T "returns") :: s1) -> argument s1 resp s2 ->
    rpc_tail (mkMethod name (last cs []) req resp) s2 m rest ->
    rpc (comments cs ++ (IDENT, T "rpc") :: (IDENT, name) :: s) m rest.

(** rpcs up to a closing brace (left unread, with the comments before it). *)
Definition methods_of (m : option hmethod) : list hmethod := match m with Some x => [x] | None => [] end.
Inductive rpcs : list stok -> list hmethod -> list stok -> Prop :=
| rpcs_end : forall cs v s, rpcs (comments cs ++ (CLOSE_BRACE, v) :: s) [] (comments cs ++ (CLOSE_BRACE, v) :: s)
| rpcs_more : forall s m s' ms rest, rpc s m s' -> rpcs s' ms rest -> rpcs s (methods_of m ++ ms) rest.

Inductive service_def : list stok -> hservice -> list stok -> Prop :=
| service_i : forall t w name v s ms rest, (t = IDENT \/ w = T "service") -> t <> TEOF -> rpcs s ms rest ->
    service_def ((t, w) :: (IDENT, name) :: (OPEN_BRACE, v) :: s) (mkService name ms) rest.
