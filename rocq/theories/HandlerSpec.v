(** Vocabulary for the properties of regenerating a service file. *)
From Verif Require Import GoStr GoStrProofs GoMap Strs Handler.

Section S.
  Variable upper : N -> bool.
  (** The user's own code: everything but exported functions; and NewService. *)
  Definition own (d : decl) : bool :=
    match d with
    | DOther _ => true
    | DFunc f => str_eqb (fd_fname f) (T "NewService") || negb (exported upper (fd_fname f))
    end.
  (** A method of *<svc>Service. *)
  Definition right_receiver (svc : str) (f : fundecl) : Prop :=
    exists names rest, fd_recv f = Some (mkAF names (EStar (EIdent (to_lower svc ++ T "Service"))) :: rest).
  (** A handler of the rpc called n. *)
  Definition handles (svc n : str) (d : decl) : Prop :=
    exists f, d = DFunc f /\ fd_fname f = n /\ right_receiver svc f.
  (** pb.Old or *pb.Old becomes pb.New or *pb.New; anything else stays. *)
  Inductive renamed (n : str) : expr -> expr -> Prop :=
  | RenSel : forall x s, renamed n (ESel x s) (ESel x n)
  | RenStar : forall x s, renamed n (EStar (ESel x s)) (EStar (ESel x n))
  | RenSame : forall e, (forall x s, e <> ESel x s /\ e <> EStar (ESel x s)) -> renamed n e e.
  (** How many parameters (or results) a list declares: fields with names declare one per name, a
      field without a name declares one. *)
  Definition declares (f : afield) : nat := Nat.max 1 (length (af_names f)).
  Definition how_many (l : list afield) : nat := list_sum (map declares l).
  Definition with_type (f : afield) (t : expr) : afield := mkAF (af_names f) t.
  (** Two parameters, each with its own type: the second gets the new type.  Not two parameters: nothing changes. *)
  Inductive param_retyped (n : str) : list afield -> list afield -> Prop :=
  | ParTwo : forall a b t, declares a = 1 -> declares b = 1 -> renamed n (af_type b) t -> param_retyped n [a; b] [a; with_type b t]
  | ParOther : forall l, how_many l <> 2 -> param_retyped n l l.
  (** Two results: the first (and the second, if they share their type) gets the new type. *)
  Inductive result_retyped (n : str) : list afield -> list afield -> Prop :=
  | ResTwo : forall a b t, declares a = 1 -> declares b = 1 -> renamed n (af_type a) t -> result_retyped n [a; b] [with_type a t; b]
  | ResShared : forall a t, declares a = 2 -> renamed n (af_type a) t -> result_retyped n [a] [with_type a t]
  | ResOther : forall l, how_many l <> 2 -> result_retyped n l l.
  (** The same function, but for the types of its second parameter and of its first result. *)
  Inductive retyped (r : rpc) : fundecl -> fundecl -> Prop :=
  | Retyped : forall name recv ps ps' rs rs' body doc,
      param_retyped (rpc_req r) ps ps' -> result_retyped (rpc_resp r) rs rs' ->
      retyped r (mkFun name recv ps rs body doc) (mkFun name recv ps' rs' body doc).
  (** The handlers in a file: its exported functions, but for NewService. *)
  Definition handlers (ds : list decl) : list fundecl :=
    flat_map (fun d => match d with DFunc f => if own d then [] else [f] | DOther _ => [] end) ds.
  (** The second list comes from the first by dropping and retyping functions that are not the user's
      own; the order is kept. *)
  Inductive edited (ms : list rpc) : list decl -> list decl -> Prop :=
  | EdNil : edited ms [] []
  | EdKeep : forall d l l', own d = true -> edited ms l l' -> edited ms (d :: l) (d :: l')
  | EdDrop : forall f l l', own (DFunc f) = false -> edited ms l l' -> edited ms (DFunc f :: l) l'
  | EdRetype : forall f f' r l l', own (DFunc f) = false -> In r ms -> rpc_name r = fd_fname f -> retyped r f f' -> edited ms l l' ->
      edited ms (DFunc f :: l) (DFunc f' :: l').
  (** The services a .proto file gives: distinct method names, exported, none called NewService. *)
  Definition good_rpcs (ms : list rpc) : Prop :=
    NoDup (map rpc_name ms) /\ forall r, In r ms -> exported upper (rpc_name r) = true /\ rpc_name r <> T "NewService".
  (** A Go file: the identifiers of receivers have no star in them. *)
  Definition go_receivers (ds : list decl) : Prop :=
    forall f a rest, In (DFunc f) ds -> fd_recv f = Some (a :: rest) -> forall n, af_type a = EIdent n -> ~ In c_star n.
End S.
