(** Vocabulary for the properties of definitions. *)
From Coq Require Import Permutation.
From Verif Require Import GoStr GoStrProofs GoMap Unquote SvcTypes HttpTypes Svcdef.

(** ** Struct tags *)
(** The inside of a Go string literal: every quote in it is escaped. *)
Inductive literal_body : str -> Prop :=
| LBNil : literal_body []
| LBPlain : forall c s, c <> c_dquote -> c <> c_backslash -> literal_body s -> literal_body (c :: s)
| LBEsc : forall d s, literal_body s -> literal_body (c_backslash :: d :: s).
(** A key: no control character, space, colon, quote or DEL. *)
Definition tag_key (k : str) : Prop := k <> [] /\ Forall (fun c => (32 < c)%N /\ c <> c_colon /\ c <> c_dquote /\ c <> 127%N) k.
(** key:"literal" pairs with spaces between them. *)
Definition tag_pair (p : str * str) : str := fst p ++ [c_colon; c_dquote] ++ snd p ++ [c_dquote].
Definition tag_text (ps : list (str * str)) : str := join [c_space] (map tag_pair ps).
Definition good_tag (ps : list (str * str)) : Prop := Forall (fun p => tag_key (fst p) /\ literal_body (snd p)) ps.
(** The first literal with that key. *)
Definition first_literal (ps : list (str * str)) (key : str) : option str := option_map snd (find (fun p => str_eqb (fst p) key) ps).
(** The protobuf entry protoc-gen-go writes: kind, number, cardinality, maybe the word packed, the name, and more. *)
Definition pb_entry (kind num card : str) (packed : bool) (name : str) (more : list str) : str :=
  join [44%N] ([kind; num; card] ++ (if packed then [T "packed"] else []) ++ [T "name=" ++ name] ++ more).
Definition no_comma (s : str) : Prop := ~ In 44%N s.

(** ** The Go type of a type expression (as HttpTypes.v has them) *)
Fixpoint expr_type (e : gexpr) : option gty :=
  match e with
  | GIdent n => Some (GName n)
  | GSel (GIdent p) s => Some (GName (p ++ [c_dot] ++ s))
  | GStar x => option_map GPtr (expr_type x)
  | GArr x => option_map GSlice (expr_type x)
  | _ => None
  end.
(** The types of fields of protoc-gen-go, but for maps and [repeated bytes]: a name, perhaps qualified, perhaps a
    pointer, perhaps a slice of these. *)
Inductive named : gexpr -> Prop := NamedI : forall n, named (GIdent n) | NamedS : forall p s, named (GSel (GIdent p) s).
Inductive plain_type : gexpr -> Prop :=
| PlainName : forall e, named e -> plain_type e
| PlainPtr : forall e, named e -> plain_type (GStar e)
| PlainSlice : forall e, named e -> plain_type (GArr e)
| PlainSlicePtr : forall e, named e -> plain_type (GArr (GStar e)).

(** ** Resolution *)
Definition last_index (name : str) (l : list str) (i : nat) : Prop := nth_error l i = Some name /\ forall j, i < j -> nth_error l j <> Some name.
(** What a type becomes: the enum of that name, else the message of that name (the last ones so called), else it stays. *)
Inductive names_type (msgs enums : list str) (t : ftype) : ftype -> Prop :=
| NTEnum : forall i, last_index (ft_name t) enums i ->
    names_type msgs enums t (mkFT (ft_name t) (Some i) (ft_oneof t) (ft_msg t) (ft_map t) (ft_star t) (ft_array t))
| NTMsg : forall i, ~ In (ft_name t) enums -> last_index (ft_name t) msgs i ->
    names_type msgs enums t (mkFT (ft_name t) (ft_enum t) (ft_oneof t) (Some (MDef i)) (ft_map t) (ft_star t) (ft_array t))
| NTNone : ~ In (ft_name t) enums -> ~ In (ft_name t) msgs -> names_type msgs enums t t.
(** Of a map with pointer values it is the value type that is resolved. *)
Inductive resolved (msgs enums : list str) (t : ftype) : ftype -> Prop :=
| RMap : forall k v v', ft_map t = Some (k, v) -> ft_star v = true -> names_type msgs enums v v' ->
    resolved msgs enums t (mkFT (ft_name t) (ft_enum t) (ft_oneof t) (ft_msg t) (Some (k, v')) (ft_star t) (ft_array t))
| RName : forall t', (forall k v, ft_map t = Some (k, v) -> ft_star v = false) -> names_type msgs enums t t' -> resolved msgs enums t t'.
Definition resolved_field (msgs enums : list str) (f f' : field) : Prop :=
  fd_name f' = fd_name f /\ fd_pbname f' = fd_pbname f /\ resolved msgs enums (fd_type f) (fd_type f').
Definition resolved_message (msgs enums : list str) (m m' : message) : Prop :=
  ms_name m' = ms_name m /\ Forall2 (resolved_field msgs enums) (ms_fields m) (ms_fields m').
Definition resolved_method (msgs enums : list str) (m m' : smethod) : Prop :=
  sm_name m' = sm_name m /\ resolved msgs enums (sm_req m) (sm_req m') /\ resolved msgs enums (sm_resp m) (sm_resp m') /\ sm_bindings m' = sm_bindings m.

(** ** Links: what the enum and the message of a type are *)
Definition linked (msgs enums : list str) (t : ftype) : Prop :=
  (forall i, ft_enum t = Some i <-> last_index (ft_name t) enums i) /\
  (forall r, ft_msg t = Some r <-> exists i, r = MDef i /\ ~ In (ft_name t) enums /\ last_index (ft_name t) msgs i).
Definition unlinked (t : ftype) : Prop := ft_enum t = None /\ ft_msg t = None.
(** Of a map it is the value type, if that is a pointer. *)
Definition links (msgs enums : list str) (t : ftype) : Prop :=
  match ft_map t with
  | Some (_, v) => if ft_star v then linked msgs enums v /\ unlinked t else unlinked v
  | None => linked msgs enums t
  end.

(** ** The contents of files *)
Section S.
  Variable upper : N -> bool.
  Definition is_server (n : str) : bool := has_suffix n (T "Server") && negb (has_prefix n (T "Unsafe")).
  Definition is_oneof_iface (n : str) : bool := has_prefix n (T "is") && negb (has_suffix n (T "Server")) && negb (has_prefix n (T "Unsafe")).
  (** The exported structs, the enums and the Server interfaces among some type specs, in order. *)
  Definition structs (ts : list tspec) : list (str * list gfield) :=
    flat_map (fun t => match ts_type t with TStruct fs => if go_exported upper (ts_name t) then [(ts_name t, fs)] else [] | _ => [] end) ts.
  Definition enums_in (ts : list tspec) : list str :=
    flat_map (fun t => match ts_type t with TIdent n => if str_eqb n (T "int32") then [ts_name t] else [] | _ => [] end) ts.
  Definition servers (ts : list tspec) : list (str * list gmethod) :=
    flat_map (fun t => match ts_type t with TIface ms => if is_server (ts_name t) then [(ts_name t, ms)] else [] | _ => [] end) ts.
  Definition struct_specs (f : gofile) := structs (type_specs f).
  Definition enum_names (f : gofile) := enums_in (type_specs f).
  Definition server_specs (f : gofile) := servers (type_specs f).

  (** The file has the oneof interface [i]. *)
  Definition has_iface (f : gofile) (i : str) : bool :=
    is_oneof_iface i && existsb (fun t => str_eqb (ts_name t) i && match ts_type t with TIface _ => true | _ => false end) (type_specs f).
  (** [s] has the marker method of the interface [i]. *)
  Definition is_marker (s i : str) (d : gdecl) : bool :=
    match d with GDFunc n (Some (GStar (GIdent x) :: _)) => str_eqb n i && str_eqb x s | _ => false end.
  Definition option_of (f : gofile) (s i : str) : Prop := has_iface f i = true /\ exists d, In d (go_decls f) /\ is_marker s i d = true.
  Definition is_option (f : gofile) (s : str) : bool :=
    existsb (fun d => match d with GDFunc n _ => has_iface f n && is_marker s n d | _ => false end) (go_decls f).
  Definition non_options (f : gofile) : list (str * list gfield) := filter (fun s => negb (is_option f (fst s))) (struct_specs f).
  Definition options_of (f : gofile) (i : str) : list (str * list gfield) :=
    filter (fun s => has_iface f i && existsb (is_marker (fst s) i) (go_decls f)) (struct_specs f).
  Definition has_options (f : gofile) : bool := existsb (fun s => is_option f (fst s)) (struct_specs f).
  (** A struct is an option of one oneof. *)
  Definition one_oneof_each (f : gofile) : Prop := forall s i j, option_of f s i -> option_of f s j -> i = j.
  (** One of the files, at most, has oneofs. *)
  Definition one_with_options (fs : list gofile) : Prop := length (filter has_options fs) <= 1.

  (** The fields of a struct that count: exported, and no XXX_ in front. *)
  Definition visible (f : gfield) : bool :=
    match gf_names f with n :: _ => negb (has_prefix n (T "XXX_")) && go_exported upper n | [] => false end.
  (** The tag says the protobuf name is [name]. *)
  Definition tag_name (tag name : str) : Prop :=
    exists ps body kind num card packed more,
      tag = tag_text ps /\ good_tag ps /\ first_literal ps (T "protobuf") = Some body /\
      unquote (c_dquote :: body ++ [c_dquote]) = Some (pb_entry kind num card packed name more) /\
      no_comma kind /\ no_comma num /\ no_comma card /\ no_comma name /\ Forall no_comma more.
  (** A field has the name, the protobuf name and the type of the struct field. *)
  Definition field_of (g : gfield) (f : field) : Prop :=
    (exists rest, gf_names g = fd_name f :: rest) /\
    (forall tag name, gf_tag g = Some tag -> tag_name tag name -> fd_pbname f = name) /\
    (gf_tag g = None -> fd_pbname f = []) /\
    (plain_type (gf_type g) -> expr_type (gf_type g) = Some (field_gty (fd_type f)) /\ ft_map (fd_type f) = None) /\
    (forall k v, gf_type g = GMap (GIdent k) (GIdent v) ->
       exists kt vt, ft_map (fd_type f) = Some (kt, vt) /\ field_gty kt = GName k /\ field_gty vt = GName v) /\
    (forall k v, gf_type g = GMap (GIdent k) (GStar (GIdent v)) ->
       exists kt vt, ft_map (fd_type f) = Some (kt, vt) /\ field_gty kt = GName k /\ field_gty vt = GPtr (GName v)).
  (** A message has the name of the struct and its visible fields. *)
  Definition message_of (s : str * list gfield) (m : message) : Prop :=
    ms_name m = fst s /\ Forall2 field_of (filter visible (snd s)) (ms_fields m).
  (** The option of a oneof: the first visible field of the struct, with a message of the name of the struct. *)
  Definition option_field (s : str * list gfield) (f : field) : Prop :=
    exists g rest, filter visible (snd s) = g :: rest /\ field_of g f /\ ft_msg (fd_type f) = Some (MSynth (fst s)).
  (** The fields that are oneofs of their file have the options, in order; the ones that are oneofs of none of the files
      have none. *)
  Definition oneof_of (fs : list gofile) (h : gofile) (g : gfield) (f : field) : Prop :=
    forall i, gf_type g = GIdent i ->
      (options_of h i <> [] -> exists os, ft_oneof (fd_type f) = Some os /\ Forall2 option_field (options_of h i) os) /\
      ((forall k, In k fs -> options_of k i = []) -> ft_oneof (fd_type f) = None).
  Definition oneofs_of (fs : list gofile) (h : gofile) (s : str * list gfield) (m : message) : Prop :=
    Forall2 (oneof_of fs h) (filter visible (snd s)) (ms_fields m).

  (** A service has the name of the interface without Server, and its exported methods with their types. *)
  Definition points_to (e : gexpr) (t : ftype) : Prop :=
    exists n, (e = GStar (GIdent n) \/ exists x, e = GStar (GSel x n)) /\
      ft_name t = n /\ ft_star t = true /\ ft_array t = false /\ ft_map t = None /\ ft_oneof t = None.
  Definition method_of (m : gmethod) (x : smethod) : Prop :=
    exists n rest c rq ps rs qs, gm_names m = n :: rest /\ gm_type m = MFunc (c :: rq :: ps) (rs :: qs) /\
      sm_name x = n /\ points_to rq (sm_req x) /\ points_to rs (sm_resp x) /\ sm_bindings x = [].
  Definition exported_method (m : gmethod) : bool := match gm_names m with n :: _ => go_exported upper n | [] => false end.
  Definition service_of (s : str * list gmethod) (v : service) : Prop :=
    fst s = sv_name v ++ T "Server" /\ Forall2 method_of (filter exported_method (snd s)) (sv_methods v).
  (** The last one of a list, if there is one. *)
  Definition last_of {A} (l : list A) (d : option A) : option A := fold_left (fun _ x => Some x) l d.
  Definition service_is (s : option (str * list gmethod)) (v : option service) : Prop :=
    match s, v with Some s, Some v => service_of s v | None, None => True | _, _ => False end.

  (** ** Files as protoc-gen-go and protoc-gen-go-grpc write them *)
  Fixpoint keys_ok (e : gexpr) : Prop :=
    match e with GMap (GIdent _) _ => True | GMap _ _ => False | GStar x | GArr x => keys_ok x | _ => True end.
  Definition tag_ok (t : option str) : Prop :=
    match t with
    | None => True
    | Some tag => (exists name, tag_name tag name) \/ exists ps, tag = tag_text ps /\ good_tag ps /\ first_literal ps (T "protobuf") = None
    end.
  Definition protoc_field (g : gfield) : Prop := gf_names g <> [] /\ (visible g = true -> tag_ok (gf_tag g) /\ keys_ok (gf_type g)).
  (** (context, *Request) ( *Response, error) *)
  Definition pointer (e : gexpr) : Prop := (exists n, e = GStar (GIdent n)) \/ exists x n, e = GStar (GSel x n).
  Definition unary (m : gmethod) : Prop :=
    exists c rq ps rs qs, gm_type m = MFunc (c :: rq :: ps) (rs :: qs) /\ pointer rq /\ pointer rs.
  Definition protoc_method (m : gmethod) : Prop := gm_names m <> [] /\ (exported_method m = true -> unary m).
  Record protoc_file (f : gofile) : Prop := {
    pf_fields : forall s, In s (struct_specs f) -> Forall protoc_field (snd s);
    pf_methods : forall s, In s (server_specs f) -> Forall protoc_method (snd s);
    pf_markers : forall n recv, In (GDFunc n recv) (go_decls f) -> has_iface f n = true -> exists x rest, recv = Some (GStar (GIdent x) :: rest);
    pf_options : forall s, In s (struct_specs f) -> is_option f (fst s) = true -> filter visible (snd s) <> [] }.
  (** What one sees of a message and of a method without the links. *)
  Definition message_view (m : message) : str * list str := (ms_name m, map fd_name (ms_fields m)).
  Definition method_view (m : smethod) : str * str * str := (sm_name m, ft_name (sm_req m), ft_name (sm_resp m)).
  Definition service_view (v : option service) : option (str * list (str * str * str)) :=
    option_map (fun v => (sv_name v, map method_view (sv_methods v))) v.
End S.
