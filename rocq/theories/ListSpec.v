(** Specification of C79: a list of scalars written in one query value, as a JSON array or as its elements with commas between them. *)
From Coq Require Import String.
From Verif Require Import GoStr GoStrProofs Decimals HttpTransport GenHttp.

(** The inside of a JSON string: characters that are no quotes, backslashes or control characters, and escapes. *)
Inductive inside : str -> Prop :=
| InNil : inside []
| InChar : forall c s, (32 <= c)%N -> c <> c_dquote -> c <> c_backslash -> inside s -> inside (c :: s)
| InEsc : forall c s, inside s -> inside (c_backslash :: c :: s).
(** The texts of elements of a type, and their values. *)
Inductive item (K : codecs) : str -> str -> gval -> Prop :=
| ItU32 : forall z, (0 <= z < 2 ^ 32)%Z -> item K (T "uint32") (itoa z) (VZ z)
| ItU64 : forall z, (0 <= z < 2 ^ 64)%Z -> item K (T "uint64") (itoa z) (VZ z)
| ItI32 : forall z, (- 2 ^ 31 <= z < 2 ^ 31)%Z -> item K (T "int32") (itoa z) (VZ z)
| ItI64 : forall z, (- 2 ^ 63 <= z < 2 ^ 63)%Z -> item K (T "int64") (itoa z) (VZ z)
| ItTrue : item K (T "bool") (T "true") (VB true)
| ItFalse : item K (T "bool") (T "false") (VB false)
| ItF32 : forall s f, json_number s = true -> Forall (fun c => num_char c = true) s -> fl_parse K 32 s = Some f -> item K (T "float32") s (VF f)
| ItF64 : forall s f, json_number s = true -> Forall (fun c => num_char c = true) s -> fl_parse K 64 s = Some f -> item K (T "float64") s (VF f)
| ItStr : forall s t, inside s -> js_str K s = Some t -> item K (T "string") (T """" ++ s ++ T """") (VS t).
Definition zero_scalar (n : str) : gval :=
  if str_eqb n (T "bool") then VB false else if str_eqb n (T "string") then VS [] else if str_eqb n (T "float32") || str_eqb n (T "float64") then VF 0 else VZ 0.
(** With white space around it; null is the zero of the type. *)
Inductive spaced (K : codecs) : str -> str -> gval -> Prop :=
| SpItem : forall n w1 s w2 v, Forall (fun c => json_ws c = true) w1 -> Forall (fun c => json_ws c = true) w2 -> item K n s v -> spaced K n (w1 ++ s ++ w2) v
| SpNull : forall n w1 w2, Forall (fun c => json_ws c = true) w1 -> Forall (fun c => json_ws c = true) w2 -> spaced K n (w1 ++ T "null" ++ w2) (zero_scalar n).
(** The texts of a list *)
Inductive list_text (K : codecs) : str -> str -> list gval -> Prop :=
| LtArray : forall n w1 w2 texts vs, Forall (fun c => json_ws c = true) w1 -> Forall (fun c => json_ws c = true) w2 -> texts <> [] -> Forall2 (spaced K n) texts vs ->
    list_text K n (w1 ++ T "[" ++ join (T ",") texts ++ T "]" ++ w2) vs
| LtEmpty : forall n w1 w2 w3, Forall (fun c => json_ws c = true) w1 -> Forall (fun c => json_ws c = true) w2 -> Forall (fun c => json_ws c = true) w3 ->
    list_text K n (w1 ++ T "[" ++ w2 ++ T "]" ++ w3) []
| LtBare : forall n w1 w2 s v texts vs, Forall (fun c => json_ws c = true) w1 -> Forall (fun c => json_ws c = true) w2 -> item K n s v -> Forall2 (spaced K n) texts vs ->
    list_text K n (join (T ",") ((w1 ++ s ++ w2) :: texts)) (v :: vs).
