(** Data model of svcdef/svcdef.go:38-139.  Pointers to values that are built once and then only
    read are replaced by the values; pointers to messages and enums, which can be cyclic, by
    references. *)
From Verif Require Import GoStr.

(** A *Message: the i-th entry of Svcdef.Messages, or the field-less Message made for a oneof option
    (svcdef.go:305-307). *)
Inductive mref := MDef (i : nat) | MSynth (name : str).

(** svcdef.go:81-119: FieldType and Field.  [fenum] is an index into Svcdef.Enums; [foneof] is None
    for a nil Oneof; [fmap] is the key and value type of a Map. *)
Inductive ftype := mkFT {
  ft_name : str; ft_enum : option nat; ft_oneof : option (list field); ft_msg : option mref;
  ft_map : option (ftype * ftype); ft_star : bool; ft_array : bool }
with field := mkFld { fd_name : str; fd_pbname : str; fd_type : ftype }.

(** svcdef.go:51-54, Message. *)
Record message := mkMsg { ms_name : str; ms_fields : list field }.
(** svcdef.go:134-139, HTTPParameter. *)
Record hparam := mkParam { pm_field : field; pm_loc : str }.
(** svcdef.go:123-129, HTTPBinding. *)
Record sbinding := mkSBind { sb_verb : str; sb_path : str; sb_params : list hparam }.
(** svcdef.go:71-78, ServiceMethod. *)
Record smethod := mkSMeth { sm_name : str; sm_req : ftype; sm_resp : ftype; sm_bindings : list sbinding }.
(** svcdef.go:66-69, Service. *)
Record service := mkSvc { sv_name : str; sv_methods : list smethod }.
(** svcdef.go:38-48, Svcdef (enums by name, svcdef.go:56-58). *)
Record svcdef := mkSvcdef {
  sd_pkg : str; sd_messages : list message; sd_enums : list str; sd_service : option service }.

(** [p.Fields] for a *Message p. *)
Definition fields_of (ms : list message) (r : mref) : list field :=
  match r with
  | MDef i => match nth_error ms i with Some m => ms_fields m | None => [] end
  | MSynth _ => []
  end.
