(** The Go typing rules the generated request decoder has to meet (a specification). *)
From Verif Require Import GoStr GoStrProofs SvcTypes HttpTransport.

Inductive gty := GName (s : str) | GPtr (t : gty) | GSlice (t : gty).
Definition maybe_ptr (star : bool) (t : gty) : gty := if star then GPtr t else t.
(** The Go type protoc-gen-go gives the struct field. *)
Definition field_gty (t : ftype) : gty :=
  if ft_array t then GSlice (maybe_ptr (ft_star t) (GName (ft_name t))) else maybe_ptr (ft_star t) (GName (ft_name t)).

(** The variable a strconv call declares. *)
Definition parsed_gty (p : scalar_parse) : gty :=
  match p with
  | PUint _ => GName (T "uint64") | PInt _ => GName (T "int64") | PBool => GName (T "bool")
  | PFloat _ => GName (T "float64") | PCopy => GName (T "string")
  end.
Definition numeric (s : str) : Prop :=
  In s [T "uint32"; T "uint64"; T "int32"; T "int64"; T "float32"; T "float64"].
(** The type of an assigned expression, given the type of the variable in it.  [enums]: the enum
    types.  A conversion [t(x)] needs a numeric x and a numeric or enum t; [&x] needs a variable, so
    [&t(x)] has no type. *)
Inductive expr_gty (enums : list str) (x : gty) : tconv -> gty -> Prop :=
| EtVar : expr_gty enums x TcVar x
| EtCast : forall s t, x = GName s -> numeric s -> numeric t \/ In t enums -> expr_gty enums x (TcCast t) (GName t)
| EtAddr : expr_gty enums x TcAddr (GPtr x).
(** The type of the variable a conversion declares; for a repeated field the assignment to each
    element has to have the element type. *)
Inductive declares (enums : list str) (goname : str) (star : bool) : convert -> gty -> Prop :=
| DcScalar : forall p, declares enums goname star (CvScalar p) (parsed_gty p)
| DcSingle : declares enums goname star CvSingle (maybe_ptr star (GName goname))
| DcRepeated : forall (each : option scalar_parse) (narrow check : bool),
    (forall p, each = Some p ->
       expr_gty enums (parsed_gty p) (if narrow then TcCast goname else TcVar) (maybe_ptr star (GName goname))) ->
    declares enums goname star (CvRepeated each narrow check) (GSlice (maybe_ptr star (GName goname))).
(** The assignment generated for a field has the type of the field. *)
Definition assignment_ok (enums : list str) (f : hfield) (t : gty) : Prop :=
  exists x, declares enums (hf_gotype f) (hf_star f) (hf_conv f) x /\ expr_gty enums x (hf_tconv f) t.
(** The assignment generated for an option of a oneof: the struct field is an interface that only the pointer to the
    option's wrapper type implements; [t] is the type of the wrapper's one field, [name] its name. *)
Definition option_assignment_ok (enums : list str) (f : hfield) (wrapper name : str) (t : gty) : Prop :=
  exists inner x, hf_tconv f = TcWrap true wrapper name inner /\ declares enums (hf_gotype f) (hf_star f) (hf_conv f) x /\ expr_gty enums x inner t.

(** [v != literal] for v of type t. *)
Inductive comparable (enums : list str) : gty -> str -> Prop :=
| CpPtr : forall t, comparable enums (GPtr t) (T "nil")
| CpSlice : forall t, comparable enums (GSlice t) (T "nil")
| CpBool : comparable enums (GName (T "bool")) (T "false")
| CpStr : comparable enums (GName (T "string")) [c_dquote; c_dquote]
| CpNum : forall s, numeric s \/ In s enums -> comparable enums (GName s) (T "0").

(** Field types as protoc-gen-go writes them: a scalar, an enum or a message (by pointer), possibly
    repeated; optional scalars and enums are pointers.  [bytes] is []byte. *)
Definition scalar_name (s : str) : Prop := In s go_base_types.
Inductive protoc_type (enums : list str) : ftype -> Prop :=
| PtScalar : forall n o, scalar_name n -> protoc_type enums (mkFT n None None None None o false)
| PtScalars : forall n, scalar_name n -> protoc_type enums (mkFT n None None None None false true)
| PtEnum : forall n i o, nth_error enums i = Some n -> ~ scalar_name n -> protoc_type enums (mkFT n (Some i) None None None o false)
| PtEnums : forall n i, nth_error enums i = Some n -> ~ scalar_name n -> protoc_type enums (mkFT n (Some i) None None None false true)
| PtMsg : forall n r, ~ scalar_name n -> protoc_type enums (mkFT n None None (Some r) None true false)
| PtMsgs : forall n r, ~ scalar_name n -> protoc_type enums (mkFT n None None (Some r) None true true)
| PtForeign : forall n a, ~ scalar_name n -> protoc_type enums (mkFT n None None None None true a)
| PtBytes : forall n, In n [T "byte"; T "[]byte"] -> protoc_type enums (mkFT n None None None None false true).
(** The cases the generator gets wrong: [optional] int32, uint32, float32 or enum. *)
Definition narrow_optional (t : ftype) : Prop :=
  ft_array t = false /\ ft_star t = true
  /\ (ft_enum t <> None \/ In (ft_name t) [T "int32"; T "uint32"; T "float32"]).
