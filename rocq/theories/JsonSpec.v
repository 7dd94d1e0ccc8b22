(** JSON texts (RFC 8259, as package encoding/json reads them), and what the error wrapper makes of one. *)
From Verif Require Import GoStr Json.

Definition space (c : N) : Prop := c = 32%N \/ c = 9%N \/ c = 10%N \/ c = 13%N.
Definition spaces (s : str) : Prop := Forall space s.
Definition digits (s : str) : Prop := s <> [] /\ Forall (fun c => (48 <= c <= 57)%N) s.

(** ** Numbers: [-] int [frac] [exp] *)
Definition int_part (s : str) : Prop := s = T "0" \/ digits s /\ hd 0%N s <> 48%N.
Definition frac_part (s : str) : Prop := s = [] \/ exists d, digits d /\ s = T "." ++ d.
Definition exp_part (s : str) : Prop :=
  s = [] \/ exists e sign d, In e [T "e"; T "E"] /\ In sign [[]; T "+"; T "-"] /\ digits d /\ s = e ++ sign ++ d.
Definition number (s : str) : Prop :=
  exists sign i f e, In sign [[]; T "-"] /\ int_part i /\ frac_part f /\ exp_part e /\ s = sign ++ i ++ f ++ e.

(** ** Strings: what stands between the quotes, and the text it means *)
(** The value of a hexadecimal digit. *)
Definition hex_is (c : N) (v : N) : Prop :=
  (48 <= c <= 57)%N /\ v = (c - 48)%N \/ (97 <= c <= 102)%N /\ v = (c - 87)%N \/ (65 <= c <= 70)%N /\ v = (c - 55)%N.
Definition u_is (s : str) (v : N) : Prop :=
  exists a b c d w x y z, s = [92; 117; a; b; c; d]%N /\ hex_is a w /\ hex_is b x /\ hex_is c y /\ hex_is d z /\
    v = (4096 * w + 256 * x + 16 * y + z)%N.
Definition high (v : N) : Prop := (55296 <= v <= 56319)%N.
Definition low (v : N) : Prop := (56320 <= v <= 57343)%N.
Definition simple_is (c : N) (v : N) : Prop :=
  In (c, v) [(34, 34); (92, 92); (47, 47); (98, 8); (102, 12); (110, 10); (114, 13); (116, 9)]%N.
Inductive string_body : str -> str -> Prop :=
| SbEnd : string_body [] []
| SbRune : forall c s t, (32 <= c < 1114112)%N -> c <> 34%N -> c <> 92%N -> string_body s t -> string_body (c :: s) (c :: t)
| SbBadByte : forall c s t, (1114112 <= c)%N -> string_body s t -> string_body (c :: s) (65533%N :: t)
| SbSimple : forall c v s t, simple_is c v -> string_body s t -> string_body (92%N :: c :: s) (v :: t)
| SbU : forall u v s t, u_is u v -> ~ high v -> ~ low v -> string_body s t -> string_body (u ++ s) (v :: t)
| SbPair : forall u1 u2 h l s t, u_is u1 h -> u_is u2 l -> high h -> low l -> string_body s t ->
    string_body (u1 ++ u2 ++ s) ((65536 + 1024 * (h - 55296) + (l - 56320))%N :: t)
| SbLone : forall u v s t, u_is u v -> high v \/ low v ->
    (forall u2 l s2, s = u2 ++ s2 -> u_is u2 l -> ~ (high v /\ low l)) -> string_body s t -> string_body (u ++ s) (65533%N :: t).
Definition quoted (s t : str) : Prop := exists b, s = [34%N] ++ b ++ [34%N] /\ string_body b t.

(** ** Values.  [value s v]: the text s, without spaces around it, means v. *)
Inductive value : str -> json -> Prop :=
| VaNull : value (T "null") JNull
| VaTrue : value (T "true") (JBool true)
| VaFalse : value (T "false") (JBool false)
| VaNum : forall s, number s -> value s (JNum s)
| VaStr : forall s t, quoted s t -> value s (JStr t)
| VaArr0 : forall w, spaces w -> value (T "[" ++ w ++ T "]") (JArr [])
| VaArr : forall s l, elems s l -> value (T "[" ++ s ++ T "]") (JArr l)
| VaObj0 : forall w, spaces w -> value (T "{" ++ w ++ T "}") (JObj [])
| VaObj : forall s l, members s l -> value (T "{" ++ s ++ T "}") (JObj l)
with elems : str -> list json -> Prop :=
| EOne : forall a s b v, spaces a -> spaces b -> value s v -> elems (a ++ s ++ b) [v]
| EMore : forall a s b v r l, spaces a -> spaces b -> value s v -> elems r l -> elems (a ++ s ++ b ++ T "," ++ r) (v :: l)
with members : str -> list (str * json) -> Prop :=
| MOne : forall a k kt b c s d v, spaces a -> spaces b -> spaces c -> spaces d -> quoted k kt -> value s v ->
    members (a ++ k ++ b ++ T ":" ++ c ++ s ++ d) [(kt, v)]
| MMore : forall a k kt b c s d v r l, spaces a -> spaces b -> spaces c -> spaces d -> quoted k kt -> value s v -> members r l ->
    members (a ++ k ++ b ++ T ":" ++ c ++ s ++ d ++ T "," ++ r) ((kt, v) :: l).
(** A whole text. *)
Definition json_text (s : str) (v : json) : Prop := exists a t b, spaces a /\ spaces b /\ s = a ++ t ++ b /\ value t v.

(** ** The error in a body *)
Definition called_error (k : str) : Prop := to_lower k = T "error".
(** [m] is the error text of an object with these members: the last member called error (in any case) that is not null
    says it, and all of these are strings or null. *)
Definition error_member (l : list (str * json)) (m : str) : Prop :=
  (forall k v, In (k, v) l -> called_error k -> v = JNull \/ exists s, v = JStr s) /\
  ((exists a k b, l = a ++ (k, JStr m) :: b /\ called_error k /\ forall k' v, In (k', v) b -> called_error k' -> v = JNull)
   \/ m = [] /\ forall k v, In (k, v) l -> called_error k -> v = JNull).
Definition error_in (body m : str) : Prop :=
  json_text body JNull /\ m = [] \/ exists l, json_text body (JObj l) /\ error_member l m.
