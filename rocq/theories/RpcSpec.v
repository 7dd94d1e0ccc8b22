(** Specifications for calls over gRPC and NATS. *)
From Verif Require Import GoStr Strs Json JsonSpec Rpc.

(** A name in a .proto file. *)
Definition name (s : str) : Prop :=
  match s with c :: _ => (is_letter c = true \/ c = c_underscore) /\ Forall (fun c => is_alnum c = true \/ c = c_underscore) s | [] => False end.
(** JSON values that have a text. *)
Fixpoint good_json (j : json) : Prop :=
  match j with
  | JNull | JBool _ => True
  | JNum s => number s
  | JStr s => Forall (fun c => (c < 1114112)%N) s
  | JArr l => (fix all l := match l with [] => True | x :: l' => good_json x /\ all l' end) l
  | JObj l => (fix all l := match l with [] => True | (k, x) :: l' => Forall (fun c => (c < 1114112)%N) k /\ good_json x /\ all l' end) l
  end.

Section S.
  Variable P : Type.
  (** A value that encoding/json takes there and back in this field: left out only if it is zero. *)
  Definition plain_ok (c : codec P) (p : P) : Prop :=
    if f_empty P c p then p = f_zero P c else exists j, f_enc P c p = Some j /\ good_json j /\ f_dec P c j = Some p.
  (** A message that goes over NATS: no oneof is set. *)
  Definition carried_by_json (fs : list (jfield P)) (m : msg P) : Prop :=
    NoDup (map (jf_name P) fs) /\ Forall (fun f => Forall (fun c => (c < 1114112)%N) (jf_name P f)) fs /\
    Forall (fun f => match jf_kind P f with FPlain c => exists p, m (jf_name P f) = VPlain p /\ plain_ok c p | FOneof _ => m (jf_name P f) = VOne None end) fs.
  (** The same values of all fields. *)
  Definition same (fs : list (jfield P)) (a b : msg P) : Prop := forall f, In f fs -> a (jf_name P f) = b (jf_name P f).
  (** A service that looks at the fields of the request only. *)
  Definition extensional (qs : list (jfield P)) (svc : msg P -> msg P * option str) : Prop := forall a b, same qs a b -> svc a = svc b.
  (** All that is written of a message has a text. *)
  Definition writable (fs : list (jfield P)) (m : msg P) : Prop :=
    forall f, In f fs -> Forall (fun c => (c < 1114112)%N) (jf_name P f) /\ forall j, enc_field P f (m (jf_name P f)) = Some (Some j) -> good_json j.
  (** A request with a oneof set to one of its options. *)
  Definition oneof_set (fs : list (jfield P)) (m : msg P) : Prop :=
    exists f os n p, In f fs /\ jf_kind P f = FOneof os /\ m (jf_name P f) = VOne (Some (n, p)).
  Definition named_err (f : jfield P) : Prop := to_lower (jf_name P f) = T "err".
End S.
Arguments plain_ok {P}.
Arguments carried_by_json {P}.
Arguments same {P}.
Arguments extensional {P}.
Arguments oneof_set {P}.
Arguments writable {P}.
Arguments named_err {P}.
