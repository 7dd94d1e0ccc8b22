(** Specification vocabulary for the parser: significant tokens, errors up to line numbers, and the
    source form of a service definition together with its meaning. *)
From Verif Require Import GoStr Scanner ScannerSpec Lexer LexerSpec Unquote Parser.

(** A token without its line number. *)
Notation stok := (token * str)%type.
Definition stok_of (g : token_group) : stok := (tk_token g, tk_value g).

(** The tokens of a buffer that are not white space. *)
Definition significant (g : token_group) : bool := negb (token_eqb (tk_token g) WHITESPACE).
Definition without_space (ts : list token_group) : list stok := map stok_of (filter significant ts).

(** The kind of an error: everything but the line number. *)
Fixpoint err_kind (e : perr) : perr :=
  match e with
  | EOptional x _ v => EOptional x 0 v
  | EParser x _ v => EParser x 0 v
  | EWrap m e' => EWrap m (err_kind e')
  | _ => e
  end.

(** Two runs that yield the same value or the same kind of error. *)
Definition same_result {A} (a b : pres A) : Prop :=
  match a, b with
  | POk x _, POk y _ => x = y
  | PErr e, PErr e' => err_kind e = err_kind e'
  | _, _ => False
  end.

(** ** Source form *)
Definition comments (cs : list str) : list stok := map (fun c => (COMMENT, c)) cs.

(** kind: "literal", with comments above it. *)
Record field_src := mkFieldSrc { f_comments : list str; f_kind : str; f_lit : str; f_value : str }.
Definition write_field (f : field_src) : list stok :=
  comments (f_comments f) ++ [(IDENT, f_kind f); (SYMBOL, T ":"); (STRING_LITERAL, f_lit f)].
Definition field_ok (f : field_src) : Prop :=
  f_kind f <> T "additional_bindings" /\ f_kind f <> T "custom" /\ unquote (f_lit f) = Some (f_value f).
(** The description is the comment right above. *)
Definition mean_field (f : field_src) : hfield :=
  mkField (f_kind f) (last (f_comments f) []) (f_kind f) (f_value f).

(** Tokens skipped on the way to an opening brace. *)
Definition filler_ok (sk : list stok) : Prop :=
  Forall (fun x => fst x <> TEOF /\ fst x <> ILLEGAL /\ snd x <> T "{") sk.

(** An entry of a binding: a field, or custom { fields }. *)
Inductive item_src :=
| SField (f : field_src)
| SCustom (filler : list stok) (fs : list field_src) (trailing : list str).
Definition write_item (i : item_src) : list stok :=
  match i with
  | SField f => write_field f
  | SCustom sk fs tr =>
      (IDENT, T "custom") :: sk ++ (OPEN_BRACE, T "{") :: concat (map write_field fs) ++ comments tr
      ++ [(CLOSE_BRACE, T "}")]
  end.
Definition item_ok (i : item_src) : Prop :=
  match i with
  | SField f => field_ok f
  | SCustom sk fs _ => filler_ok sk /\ Forall field_ok fs
  end.
Definition item_fields (i : item_src) : list hfield := match i with SField f => [mean_field f] | _ => [] end.
(** Of several custom patterns the last counts. *)
Definition mean_custom (is : list item_src) : list hfield :=
  fold_left (fun c i => match i with SCustom _ fs _ => map mean_field fs | SField _ => c end) is [].

(** keyword ... { items }, for the keywords option and additional_bindings. *)
Record body_src := mkBodySrc { b_filler : list stok; b_items : list item_src; b_trailing : list str }.
Definition write_body (b : body_src) : list stok :=
  b_filler b ++ (OPEN_BRACE, T "{") :: concat (map write_item (b_items b)) ++ comments (b_trailing b).
Definition body_ok (b : body_src) : Prop := filler_ok (b_filler b) /\ Forall item_ok (b_items b).
Definition mean_body (desc : str) (b : body_src) : hbinding :=
  mkBinding desc (concat (map item_fields (b_items b))) (mean_custom (b_items b)).

Record additional_src := mkAddSrc { a_comments : list str; a_body : body_src }.
Definition write_additional (a : additional_src) : list stok :=
  comments (a_comments a) ++ (IDENT, T "additional_bindings") :: write_body (a_body a) ++ [(CLOSE_BRACE, T "}")].

(** option ... { items additional* } *)
Record option_src := mkOptSrc {
  o_comments : list str; o_body : body_src; o_more : list additional_src; o_trailing : list str }.
Definition write_option (o : option_src) : list stok :=
  comments (o_comments o) ++ (IDENT, T "option") :: write_body (o_body o)
  ++ concat (map write_additional (o_more o)) ++ comments (o_trailing o) ++ [(CLOSE_BRACE, T "}")].
Definition option_ok (o : option_src) : Prop :=
  body_ok (o_body o) /\ Forall (fun a => body_ok (a_body a)) (o_more o).
(** The additional bindings come first, in order, without description; the option itself is last. *)
Definition mean_option (o : option_src) : list hbinding :=
  map (fun a => mean_body [] (a_body a)) (o_more o) ++ [mean_body (last (o_comments o) []) (o_body o)].

(** [stream] first rest, e.g. google . protobuf . Empty. *)
Record type_src := mkTypeSrc { t_stream : bool; t_first : str; t_rest : list stok }.
Definition write_type (t : type_src) : list stok :=
  (OPEN_PAREN, T "(") :: (if t_stream t then [(IDENT, T "stream")] else [])
  ++ (IDENT, t_first t) :: t_rest t ++ [(CLOSE_PAREN, T ")")].
Definition type_ok (t : type_src) : Prop :=
  (t_stream t = false -> t_first t <> T "stream")
  /\ Forall (fun x => fst x = SYMBOL \/ fst x = IDENT) (t_rest t).
(** Only the last identifier of a qualified name is kept. *)
Definition mean_type (t : type_src) : str :=
  last (map snd (filter (fun x => token_eqb (fst x) IDENT) (t_rest t))) (t_first t).

Inductive options_src :=
| ONone                                             (* ; *)
| OEmpty (cs : list str)                            (* { } *)
| OHttp (o : option_src) (c1 c2 : list str).        (* { option ... ; } *)
Definition write_options (o : options_src) : list stok :=
  match o with
  | ONone => [(SYMBOL, T ";")]
  | OEmpty cs => (OPEN_BRACE, T "{") :: comments cs ++ [(CLOSE_BRACE, T "}")]
  | OHttp o c1 c2 => (OPEN_BRACE, T "{") :: write_option o ++ comments c1 ++ (SYMBOL, T ";") :: comments c2
                     ++ [(CLOSE_BRACE, T "}")]
  end.

Record method_src := mkMethodSrc {
  m_comments : list str; m_name : str; m_req : type_src; m_resp : type_src; m_options : options_src }.
Definition write_method (m : method_src) : list stok :=
  comments (m_comments m) ++ (IDENT, T "rpc") :: (IDENT, m_name m) :: write_type (m_req m)
  ++ (IDENT, T "returns") :: write_type (m_resp m) ++ write_options (m_options m).
Definition method_ok (m : method_src) : Prop :=
  type_ok (m_req m) /\ type_ok (m_resp m)
  /\ match m_options m with OHttp o _ _ => option_ok o | _ => True end.
(** rpcs without an http option are left out. *)
Definition mean_method (m : method_src) : list hmethod :=
  match m_options m with
  | OHttp o _ _ => [mkMethod (m_name m) (last (m_comments m) []) (mean_type (m_req m)) (mean_type (m_resp m))
                             (mean_option o)]
  | _ => []
  end.

Record service_src := mkServiceSrc { s_name : str; s_methods : list method_src; s_trailing : list str }.
Definition write_service (s : service_src) : list stok :=
  [(IDENT, T "service"); (IDENT, s_name s); (OPEN_BRACE, T "{")]
  ++ concat (map write_method (s_methods s)) ++ comments (s_trailing s) ++ [(CLOSE_BRACE, T "}")].
Definition service_ok (s : service_src) : Prop := Forall method_ok (s_methods s).
Definition mean_service (s : service_src) : hservice :=
  mkService (s_name s) (concat (map mean_method (s_methods s))).

(** A piece of text written between double quotes that needs no escape. *)
Definition plain_text (s : str) : Prop :=
  Forall (fun c => c <> c_dquote /\ c <> c_backslash /\ c <> c_nl) s.

(** ** Where the parts of a parsed service come from *)
Definition from_comment (ts : list stok) (d : str) : Prop := d = [] \/ In (COMMENT, d) ts.
Definition field_from (ts : list stok) (f : hfield) : Prop :=
  hf_name f = hf_kind f /\ (exists t, In (t, hf_kind f) ts) /\ from_comment ts (hf_desc f)
  /\ exists lit, In (STRING_LITERAL, lit) ts /\ unquote lit = Some (hf_value f).
Definition binding_from (ts : list stok) (b : hbinding) : Prop :=
  from_comment ts (hb_desc b) /\ Forall (field_from ts) (hb_fields b) /\ Forall (field_from ts) (hb_custom b).
Definition method_from (ts : list stok) (m : hmethod) : Prop :=
  hm_bindings m <> []
  /\ (exists a b, ts = a ++ (IDENT, T "rpc") :: (IDENT, hm_name m) :: b)
  /\ from_comment ts (hm_desc m)
  /\ In (IDENT, hm_req m) ts /\ In (IDENT, hm_resp m) ts
  /\ Forall (binding_from ts) (hm_bindings m).

(** ** From text to tokens *)
(** What may follow the first comment of a run of comments (over unit values). *)
Inductive comment_tail (U : unicode) : list str -> Prop :=
| ct_nil : comment_tail U []
| ct_comment : forall c t, is_comment c -> comment_tail U t -> comment_tail U (c :: t)
| ct_space : forall w c t, blank U w -> ~ In c_nl w -> is_comment c -> comment_tail U t ->
    comment_tail U (w :: c :: t).
(** [rest] shows that the run is over: something that is neither comment nor white space, or white
    space with a newline in it, or white space followed by something that is no comment. *)
Definition run_over (U : unicode) (rest : list str) : Prop :=
  match rest with
  | [] => False
  | v :: more => ~ is_comment v
      /\ (blank U v -> ~ In c_nl v -> match more with [] => False | x :: _ => ~ is_comment x end)
  end.
(** [spells vs s]: the lexical units [vs] of a piece of a file spell out the tokens [s], white space
    aside. *)
Inductive spells (U : unicode) : list str -> list stok -> Prop :=
| sp_nil : spells U [] []
| sp_space : forall v vs s, blank U v -> spells U vs s -> spells U (v :: vs) s
| sp_unit : forall v k vs s, ~ is_comment v -> unit_token U v k -> k <> WHITESPACE ->
    spells U vs s -> spells U (v :: vs) ((k, v) :: s)
| sp_comment : forall c t rest s, is_comment c -> comment_tail U t -> run_over U rest ->
    spells U rest s -> spells U (c :: t ++ rest) ((COMMENT, concat (c :: t)) :: s).
