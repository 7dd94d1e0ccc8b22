(** Model of the context helpers of gengokit/template/NAME-service/baron/NAME.pb.baron.go.tmpl ("tmpl"):
    GRPCMetadataToContext (241-254), ContextValuesToGRPCMetadata (306-323), HTTPHeadersToContext
    (486-503) and CtxValuesToSend (561-570), with what they use of net/http, net/textproto, context and
    google.golang.org/grpc/metadata.  Text is a sequence of bytes. *)
From Coq Require Import Permutation.
From Verif Require Import GoStr GoStrProofs GoMap.

(** ** context.Context *)
(** A key: a string, or a key of any other type. *)
Inductive ckey := KStr (s : str) | KOther (n : nat).
(** A value: a string, or anything else. *)
Inductive cval := VStr (s : str) | VOther (n : nat).
Definition ckey_eqb (a b : ckey) : bool :=
  match a, b with KStr x, KStr y => str_eqb x y | KOther x, KOther y => Nat.eqb x y | _, _ => false end.
Definition ctx := list (ckey * cval).
(** context.WithValue: a new innermost layer. *)
Definition with_value (c : ctx) (k : ckey) (v : cval) : ctx := (k, v) :: c.
(** Value: the innermost layer with the key; None is nil. *)
Fixpoint value (c : ctx) (k : ckey) : option cval :=
  match c with
  | [] => None
  | (k', v) :: c' => if ckey_eqb k k' then Some v else value c' k
  end.
(** [v, ok := ctx.Value(k).(string)] *)
Definition string_value (c : ctx) (k : str) : option str :=
  match value c (KStr k) with Some (VStr v) => Some v | _ => None end.

(** ** http.Header *)
(** textproto.validHeaderFieldByte: the bytes of a token. *)
Definition token_byte (c : N) : bool :=
  is_alnum c || existsb (N.eqb c) (T "!#$%&'*+-.^_`|~").
Definition is_token (k : str) : bool := forallb token_byte k.
(** The loop of textproto.canonicalMIMEHeaderKey. *)
Fixpoint title (up : bool) (k : str) : str :=
  match k with
  | [] => []
  | c :: k' => (if up then upper1 c else lower1 c) :: title (N.eqb c c_dash) k'
  end.
(** http.CanonicalHeaderKey: a key that has a byte which is no token byte stays as it is. *)
Definition canonical (k : str) : str := if is_token k then title true k else k.
(** An http.Header: a map to lists of values. *)
Definition header := gomap (list str).
(** Header.Get *)
Definition h_get (h : header) (k : str) : str :=
  match mget h (canonical k) with Some (v :: _) => v | _ => [] end.
(** Header.Set *)
Definition h_set (h : header) (k v : str) : header := mset h (canonical k) [v].

(** tmpl:486-496, one iteration of the loop of HTTPHeadersToContext. *)
Definition header_to_ctx (h : header) (c : ctx) (k : str) : ctx :=
  with_value (with_value c (KStr k) (VStr (h_get h k))) (KStr (to_lower k)) (VStr (h_get h k)).
(** tmpl:486-503, HTTPHeadersToContext; [order] is the order of iteration over the header map. *)
Definition http_headers_to_context (order : list str) (h : header) (url_path : str) (c : ctx) : ctx :=
  with_value (with_value (fold_left (header_to_ctx h) order c)
    (KStr (T "request-url")) (VStr url_path)) (KStr (T "transport")) (VStr (T "HTTPJSON")).
(** tmpl:561-570, CtxValuesToSend: what the client does to the headers of the request. *)
Definition ctx_values_to_send (ks : list str) (c : ctx) (h : header) : header :=
  fold_left (fun h k => match string_value c k with Some v => h_set h k v | None => h end) ks h.

(** ** metadata.MD: a value may be a nil slice (None). *)
Definition metadata := gomap (option (list str)).
(** tmpl:242-250, one iteration: None is the panic of v[0] on an empty slice. *)
Definition md_to_ctx (md : metadata) (oc : option ctx) (k : str) : option ctx :=
  match oc with
  | None => None
  | Some c =>
      match mget md k with
      | Some (Some []) => None
      | Some (Some (v :: _)) =>
          Some (with_value (with_value c (KStr k) (VStr v)) (KStr (canonical k)) (VStr v))
      | _ => Some c
      end
  end.
(** tmpl:241-254, GRPCMetadataToContext. *)
Definition grpc_metadata_to_context (order : list str) (md : metadata) (c : ctx) : option ctx :=
  fold_left (md_to_ctx md) order (Some c).
(** Appending to a slice of a map of slices. *)
Definition md_append (md : metadata) (k : str) (vs : list str) : metadata :=
  mset md k (Some (match mget md k with Some (Some l) => l ++ vs | _ => vs end)).
(** metadata.Pairs lower-cases the keys. *)
Definition md_pairs (ps : list (str * str)) : metadata :=
  fold_left (fun md p => md_append md (to_lower (fst p)) [snd p]) ps [].
(** metadata.Join: [append(out[k], v...)]; appending nothing to nothing leaves nil.  A map has each
    key once, so the order in which Join ranges over it does not matter. *)
Definition md_append_join (md : metadata) (k : str) (o : option (list str)) : metadata :=
  mset md k (match mget md k, o with
             | Some (Some l), Some vs => Some (l ++ vs)
             | Some (Some l), None => Some l
             | _, Some (v :: vs) => Some (v :: vs)
             | _, _ => None
             end).
Definition md_join (a b : metadata) : metadata :=
  fold_left (fun md p => md_append_join md (fst p) (snd p)) (a ++ b) [].
(** tmpl:309-314: the pairs. *)
Definition ctx_pairs (ks : list str) (c : ctx) : list (str * str) :=
  flat_map (fun k => match string_value c k with Some v => [(k, v)] | None => [] end) ks.
(** tmpl:306-323, ContextValuesToGRPCMetadata. *)
Definition ctx_values_to_metadata (ks : list str) (c : ctx) (md : metadata) : metadata :=
  match ctx_pairs ks c with
  | [] => md                                            (* pairs is nil *)
  | ps => md_join md (md_pairs ps)
  end.
