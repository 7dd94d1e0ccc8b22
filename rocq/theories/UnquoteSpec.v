(** The meaning of an interpreted string literal (Go specification, "String literals" and "Rune literals"). *)
From Verif Require Import GoStr.

(** [hexdigit c d]: the character c is a hexadecimal digit of value d. *)
Inductive hexdigit : N -> N -> Prop :=
| HDigit : forall d, (d < 10)%N -> hexdigit (48 + d) d
| HLower : forall d, (d < 6)%N -> hexdigit (97 + d) (10 + d)
| HUpper : forall d, (d < 6)%N -> hexdigit (65 + d) (10 + d).
Inductive octdigit : N -> N -> Prop := ODigit : forall d, (d < 8)%N -> octdigit (48 + d) d.
(** The number with these digits, the first the most significant. *)
Fixpoint number (base : N) (ds : list N) : N :=
  match ds with [] => 0%N | d :: ds' => (d * base ^ N.of_nat (length ds') + number base ds')%N end.
(** One-letter escapes: a b f n r t v, the backslash and the double quote. *)
Definition letters : list (N * N) := [(97, 7); (98, 8); (102, 12); (110, 10); (114, 13); (116, 9); (118, 11); (92, 92); (34, 34)]%N.
(** A byte below 128 is that character; other bytes are bytes of the text that are no characters (see Unquote.v). *)
Definition byte_char (b : N) : N := if (b <? 128)%N then b else (1114112 + b)%N.
(** A code point: surrogates are no characters, and stored as U+FFFD. *)
Definition code_char (v : N) : N := if (55296 <=? v)%N && (v <=? 57343)%N then 65533%N else v.
(** [escape e r]: a backslash followed by e stands for r. *)
Inductive escape : str -> N -> Prop :=
| EscLetter : forall c r, In (c, r) letters -> escape [c] r
| EscHex : forall cs ds, Forall2 hexdigit cs ds -> length ds = 2 -> escape (120%N :: cs) (byte_char (number 16 ds))
| EscOct : forall cs ds, Forall2 octdigit cs ds -> length ds = 3 -> (number 8 ds <= 255)%N -> escape cs (byte_char (number 8 ds))
| EscU4 : forall cs ds, Forall2 hexdigit cs ds -> length ds = 4 -> escape (117%N :: cs) (code_char (number 16 ds))
| EscU8 : forall cs ds, Forall2 hexdigit cs ds -> length ds = 8 -> (number 16 ds <= 1114111)%N -> escape (85%N :: cs) (code_char (number 16 ds)).
(** [denotes body v]: between double quotes, body stands for v. *)
Inductive denotes : str -> str -> Prop :=
| DNil : denotes [] []
| DChar : forall c s v, c <> 10%N -> c <> 34%N -> c <> 92%N -> denotes s v -> denotes (c :: s) (c :: v)
| DEsc : forall e r s v, escape e r -> denotes s v -> denotes (92%N :: e ++ s) (r :: v).
