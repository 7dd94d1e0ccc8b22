(** Specification vocabulary for HTTP consolidation. *)
From Verif Require Import GoStr Scanner ScannerSpec LexerSpec Parser Strs SvcTypes.

(** The braced parts of a path template, for every text.  A brace that is not closed on its line is
    plain text; an opening brace inside a part is dropped. *)
Definition without (d : N) (s : str) : str := filter (fun c => negb (N.eqb c d)) s.
Definition closes_on_line (s : str) : Prop := exists w s', s = w ++ c_rbrace :: s' /\ ~ In c_nl w.
Inductive braced : str -> list str -> Prop :=
| br_nil : braced [] []
| br_text : forall c s ps, c <> c_lbrace -> braced s ps -> braced (c :: s) ps
| br_open : forall s ps, ~ closes_on_line s -> braced s ps -> braced (c_lbrace :: s) ps
| br_part : forall w s ps, ~ In c_rbrace w -> ~ In c_nl w -> braced s ps ->
    braced (c_lbrace :: w ++ c_rbrace :: s) (without c_lbrace w :: ps).

(** A template written as literal text and {name} parts. *)
Inductive seg := Lit (s : str) | Par (name : str).
Definition write_seg (x : seg) : str := match x with Lit s => s | Par n => c_lbrace :: n ++ [c_rbrace] end.
Definition seg_ok (x : seg) : Prop :=
  match x with
  | Lit s => ~ In c_lbrace s
  | Par n => ~ In c_lbrace n /\ ~ In c_rbrace n /\ ~ In c_nl n
  end.
Definition seg_names (xs : list seg) : list str := flat_map (fun x => match x with Par n => [n] | _ => [] end) xs.

(** [w] is the part of [s] before its first dot. *)
Definition first_component (s w : str) : Prop :=
  ~ In c_dot w /\ (s = w \/ exists r, s = w ++ c_dot :: r).
(** The name [s], up to the first dot and camel-cased, is the Go field [name]. *)
Definition names_field (s name : str) : Prop := exists w, first_component s w /\ go_camel_case w = name.

(** The verb and path of a binding, as relations. *)
Definition last_of_kind (k : str) (fs : list hfield) (v : str) : Prop :=
  (exists a f b, fs = a ++ f :: b /\ hf_kind f = k /\ hf_value f = v /\ Forall (fun g => hf_kind g <> k) b)
  \/ (v = [] /\ Forall (fun g => hf_kind g <> k) fs).
Definition standard_verb (k : str) : Prop := In k [T "get"; T "put"; T "post"; T "delete"; T "patch"].
Definition first_standard (fs : list hfield) (v p : str) : Prop :=
  (exists a f b, fs = a ++ f :: b /\ standard_verb (hf_kind f) /\ v = hf_kind f /\ p = hf_value f
                 /\ Forall (fun g => ~ standard_verb (hf_kind g)) a)
  \/ (v = [] /\ p = [] /\ Forall (fun g => ~ standard_verb (hf_kind g)) fs).
Definition verb_and_path (b : hbinding) (v p : str) : Prop :=
  (hb_custom b <> [] /\ last_of_kind (T "kind") (hb_custom b) v /\ last_of_kind (T "path") (hb_custom b) p)
  \/ (hb_custom b = [] /\ first_standard (hb_fields b) v p).

(** Where a field travels. *)
Definition in_path (b : hbinding) (name : str) : Prop :=
  exists v p ps q, verb_and_path b v p /\ braced p ps /\ In q ps /\ names_field q name.
Definition in_body (b : hbinding) (name : str) : Prop :=
  exists f, In f (hb_fields b) /\ hf_kind f = T "body"
    /\ (hf_value f = T "*" \/ hf_value f = name \/ names_field (hf_value f) name).

(** A proto file (as text), and one without service definition. *)
Definition file_text (U : unicode) (t : str) : Prop :=
  exists vs blocks, t = concat vs /\ well_separated U vs /\ proto_file vs blocks.
Definition serviceless_text (U : unicode) (t : str) : Prop :=
  exists vs, t = concat vs /\ well_separated U vs /\ proto_file vs [].

(** The bindings a parsed service has for the Go method [name], in order. *)
Definition bindings_for (hms : list hmethod) (name : str) : list hbinding :=
  flat_map (fun hm => if str_eqb name (go_camel_case (hm_name hm)) then hm_bindings hm else []) hms.

(** The fields of a method's request message. *)
Definition req_fields (msgs : list message) (m : smethod) : list field :=
  match ft_msg (sm_req m) with Some r => fields_of msgs r | None => [] end.

(** A parsed method has a Go method to go to, whose request message is known if it is needed. *)
Definition has_home (ms : list smethod) (hm : hmethod) : Prop :=
  exists m, In m ms /\ sm_name m = go_camel_case (hm_name hm)
    /\ (hm_bindings hm <> [] -> ft_msg (sm_req m) <> None).
Definition same_but_bindings (m m' : smethod) : Prop :=
  sm_name m = sm_name m' /\ sm_req m = sm_req m' /\ sm_resp m = sm_resp m'.

(** The place of the field [name] under the parsed binding [b]. *)
Definition located (b : hbinding) (name loc : str) : Prop :=
  (loc = T "path" /\ in_path b name)
  \/ (loc = T "body" /\ ~ in_path b name /\ in_body b name)
  \/ (loc = T "query" /\ ~ in_path b name /\ ~ in_body b name).
(** [sb] is what the parsed binding [b] says about a request with these fields. *)
Definition consolidated (fields : list field) (b : hbinding) (sb : sbinding) : Prop :=
  verb_and_path b (sb_verb sb) (sb_path sb)
  /\ map pm_field (sb_params sb) = fields
  /\ Forall (fun p => located b (fd_name (pm_field p)) (pm_loc p)) (sb_params sb).

(** Every field of the request has exactly one place in the binding. *)
Definition one_place (fields : list field) (sb : sbinding) : Prop :=
  map pm_field (sb_params sb) = fields
  /\ Forall (fun p => In (pm_loc p) [T "path"; T "body"; T "query"]) (sb_params sb).
Definition all_placed (sd : svcdef) : Prop :=
  forall sv m sb, sd_service sd = Some sv -> In m (sv_methods sv) -> In sb (sm_bindings m) ->
  one_place (req_fields (sd_messages sd) m) sb.
