(** What a text means as a value of a Go scalar type (a specification, apart from strconv's model), and which
    parameters have one. *)
From Verif Require Import GoStr SvcTypes HttpTypes HttpTransport GenHttp GenHttpSpec.

Definition digits (d : str) : Prop := d <> [] /\ Forall (fun c => (48 <= c <= 57)%N) d.
Definition dec_value (d : str) : Z := fold_left (fun a c => (10 * a + (Z.of_N c - 48))%Z) d 0%Z.
(** Digits with an optional sign. *)
Inductive signed : str -> Z -> Prop :=
| SgNone : forall d, digits d -> signed d (dec_value d)
| SgPlus : forall d, digits d -> signed (T "+" ++ d) (dec_value d)
| SgMinus : forall d, digits d -> signed (T "-" ++ d) (- dec_value d).

Inductive reads (K : codecs) : str -> str -> gval -> Prop :=
| RdU32 : forall d, digits d -> (dec_value d < 2 ^ 32)%Z -> reads K (T "uint32") d (VZ (dec_value d))
| RdU64 : forall d, digits d -> (dec_value d < 2 ^ 64)%Z -> reads K (T "uint64") d (VZ (dec_value d))
| RdI32 : forall s z, signed s z -> (- 2 ^ 31 <= z < 2 ^ 31)%Z -> reads K (T "int32") s (VZ z)
| RdI64 : forall s z, signed s z -> (- 2 ^ 63 <= z < 2 ^ 63)%Z -> reads K (T "int64") s (VZ z)
| RdTrue : forall s, In s [T "1"; T "t"; T "T"; T "true"; T "TRUE"; T "True"] -> reads K (T "bool") s (VB true)
| RdFalse : forall s, In s [T "0"; T "f"; T "F"; T "false"; T "FALSE"; T "False"] -> reads K (T "bool") s (VB false)
| RdF32 : forall s f, fl_parse K 32 s = Some f -> reads K (T "float32") s (VF f)
| RdF64 : forall s f, fl_parse K 64 s = Some f -> reads K (T "float64") s (VF f)
| RdStr : forall s, reads K (T "string") s (VS s).

(** A single scalar (perhaps optional) or enum; [n] is the type its text is read as.  (For an optional enum the generated
    code has a type error: HttpTypes.v.) *)
Inductive one_scalar : ftype -> str -> Prop :=
| OsScalar : forall n star, In n go_base_types -> one_scalar (mkFT n None None None None star false) n
| OsEnum : forall n i, n <> [] -> one_scalar (mkFT n (Some i) None None None false false) (T "int32").
Definition stored (t : ftype) (v : gval) : gval := if ft_star t then VSome v else v.
