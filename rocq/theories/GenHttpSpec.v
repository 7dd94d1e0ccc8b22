(** Which requests the HTTP transport carries (a specification, in terms of the protobuf types of the
    fields and their values). *)
From Verif Require Import GoStr GoStrProofs GoMap SvcTypes Strs HttpSpec HttpTypes HttpTransport GenHttp UrlProofs.

(** A value of a scalar Go type (a float has to survive printing and parsing, as all but NaN do). *)
Inductive scalar_val (K : codecs) : str -> gval -> Prop :=
| SvU32 : forall z, (0 <= z < 2 ^ 32)%Z -> scalar_val K (T "uint32") (VZ z)
| SvU64 : forall z, (0 <= z < 2 ^ 64)%Z -> scalar_val K (T "uint64") (VZ z)
| SvI32 : forall z, (- 2 ^ 31 <= z < 2 ^ 31)%Z -> scalar_val K (T "int32") (VZ z)
| SvI64 : forall z, (- 2 ^ 63 <= z < 2 ^ 63)%Z -> scalar_val K (T "int64") (VZ z)
| SvBool : forall b, scalar_val K (T "bool") (VB b)
| SvF32 : forall f, fl_parse K 32 (fl_text K 32 f) = Some f -> bytes (fl_text K 32 f) -> scalar_val K (T "float32") (VF f)
| SvF64 : forall f, fl_parse K 64 (fl_text K 64 f) = Some f -> bytes (fl_text K 64 f) -> scalar_val K (T "float64") (VF f)
| SvStr : forall s, bytes s -> scalar_val K (T "string") (VS s).
(** encoding/json takes the value there and back. *)
Definition json_there_and_back (K : codecs) (n : str) (rep : bool) (sent got : gval) : Prop :=
  exists t, js_enc K sent = Some t /\ bytes t /\ t <> T "null" /\ js_dec K n rep t = Some got.
(** A float that is sent alone has to look like a JSON number. *)
Definition lone_ok (K : codecs) (n : str) (v : gval) : Prop :=
  match v with
  | VS _ => False
  | VF f => json_number (fl_text K (width n) f) = true /\ Forall (fun c => num_char c = true) (fl_text K (width n) f)
  | _ => True
  end.

(** The values of a field that a query carries. *)
Inductive query_value (K : codecs) : ftype -> gval -> Prop :=
| QScalar : forall n v, scalar_val K n v -> query_value K (mkFT n None None None None false false) v
| QNone : forall n, In n [T "uint64"; T "int64"; T "bool"; T "float64"; T "string"] ->
    query_value K (mkFT n None None None None true false) VNone
| QSome : forall n v, In n [T "uint64"; T "int64"; T "bool"; T "float64"; T "string"] -> scalar_val K n v ->
    query_value K (mkFT n None None None None true false) (VSome v)
| QEnum : forall n i z, (- 2 ^ 31 <= z < 2 ^ 31)%Z -> query_value K (mkFT n (Some i) None None None false false) (VZ z)
| QScalars : forall n l, scalar_name n -> Forall (scalar_val K n) l -> (forall v, l = [v] -> lone_ok K n v) ->
    query_value K (mkFT n None None None None false true) (VList l)
| QEnums : forall n i v, ~ scalar_name n -> json_there_and_back K n true (VList v) (VList v) -> query_value K (mkFT n (Some i) None None None false true) (VList v)
| QMsg : forall n r v, ~ scalar_name n -> json_there_and_back K n false (VSome v) v -> query_value K (mkFT n None None (Some r) None true false) (VSome v)
| QMsgs : forall n r l, ~ scalar_name n -> json_there_and_back K n true (VList l) (VList l) -> query_value K (mkFT n None None (Some r) None true true) (VList l)
| QBytes : forall n v, In n [T "byte"; T "[]byte"] -> json_there_and_back K n true (VMsg v) (VMsg v) -> query_value K (mkFT n None None None None false true) (VMsg v).

(** The values nothing is sent for: the empty list and the missing optional. *)
Definition unsent (v : gval) : Prop := v = VNone \/ v = VList [] \/ v = VOneof None.

(** Text that a path part can carry. *)
Definition url_plain (c : N) : Prop :=
  c <> c_slash /\ c <> 63%N /\ c <> 35%N /\ c <> 37%N /\ (32 <= c)%N /\ c <> 127%N.
Definition path_safe (s : str) : Prop := s <> [] /\ s <> T "." /\ s <> T ".." /\ Forall url_plain s.
Inductive path_value (K : codecs) : ftype -> gval -> Prop :=
| PvScalar : forall n v, scalar_val K n v -> path_safe (sprint K n v) -> path_value K (mkFT n None None None None false false) v
| PvEnum : forall n i z, (- 2 ^ 31 <= z < 2 ^ 31)%Z -> path_value K (mkFT n (Some i) None None None false false) (VZ z).

(** A scalar of this type that is not zero (a float is zero if it is 0.0 or -0.0) *)
Definition nonzero (gotype : str) (v : gval) : Prop :=
  match v with
  | VZ z => z <> 0%Z
  | VB b => b = true
  | VF f => f <> 0%N /\ f <> (if str_eqb gotype (T "float32") then 2 ^ 31 else 2 ^ 63)%N
  | VS s => s <> []
  | _ => True
  end.
(** The values of a oneof: nothing, or one option of scalar type whose value is not the zero value. *)
Inductive oneof_value (K : codecs) (os : list field) : gval -> Prop :=
| OvNone : oneof_value K os (VOneof None)
| OvSome : forall o v, In o os -> scalar_val K (ft_name (fd_type o)) v -> nonzero (ft_name (fd_type o)) v ->
    oneof_value K os (VOneof (Some (fd_name o, v))).
Definition scalar_option (o : field) : Prop :=
  exists n r star, fd_type o = mkFT n None None (Some r) None star false /\ scalar_name n.

(** A parameter whose value in [req] travels in its place. *)
Definition camel_of (p : hparam) : str := go_camel_case (fd_name (pm_field p)).
Inductive carried (K : codecs) (ts : list tpart) (req : request) (p : hparam) : Prop :=
| CarriedPath : pm_loc p = T "path" -> path_value K (fd_type (pm_field p)) (req (camel_of p)) ->
    ft_name (fd_type (pm_field p)) <> [] ->
    In (TVar (fd_pbname (pm_field p))) ts -> go_camel_case (fd_pbname (pm_field p)) = camel_of p -> carried K ts req p
| CarriedQuery : pm_loc p = T "query" -> query_value K (fd_type (pm_field p)) (req (camel_of p)) ->
    ft_name (fd_type (pm_field p)) <> [] -> bytes (fd_pbname (pm_field p)) -> carried K ts req p
| CarriedOneof : forall os, pm_loc p = T "query" -> ft_oneof (fd_type (pm_field p)) = Some os -> NoDup (map fd_name os) ->
    Forall (fun o => scalar_option o /\ bytes (fd_pbname o)) os -> oneof_value K os (req (camel_of p)) -> carried K ts req p.

(** The names a binding uses in the query. *)
Definition query_names (ps : list hparam) : list str :=
  flat_map (fun p => if str_eqb (pm_loc p) (T "query") then
                       match ft_oneof (fd_type (pm_field p)) with
                       | Some os => map fd_pbname os
                       | None => [fd_pbname (pm_field p)]
                       end
                     else []) ps.
(** A template part that a URL can carry as it is. *)
Definition tpart_plain (p : tpart) : Prop :=
  match p with
  | TLit s => path_safe s /\ plain s
  | TVar n => n <> [] /\ plain n /\ ~ In c_colon n
  end.
(** ... and a whole template (after the first slash); a slash may end it. *)
Definition template_plain (ts : list tpart) : Prop :=
  ts <> [] /\ exists us, Forall tpart_plain us /\ (ts = us \/ ts = us ++ [TLit []]).

(** A binding whose path is the template "/" ++ ts, whose parameters have distinct names, and whose
    template variables are its path parameters. *)
Record fits (ts : list tpart) (sb : sbinding) : Prop := mkFits {
  ft_path : sb_path sb = write_template (TLit [] :: ts);
  ft_plain : template_plain ts;
  ft_vars : NoDup (template_vars ts);      (* the router refuses a variable twice *)
  ft_bound : forall n, In n (template_vars ts) ->
    exists p, In p (sb_params sb) /\ pm_loc p = T "path" /\ fd_pbname (pm_field p) = n;
  ft_camels : NoDup (map camel_of (sb_params sb));
  ft_names : NoDup (query_names (sb_params sb)) }.
