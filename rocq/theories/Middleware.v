(** Model of the endpoint code in gengokit/template/NAME-service/baron/NAME.pb.baron.go.tmpl ("tmpl"),
    lines 84-178: endpoints, and the two WrapAll functions. *)
From Coq Require Import Permutation.
From Verif Require Import GoStr GoStrProofs GoMap.

Section E.
  (** An endpoint.Endpoint (a function value). *)
  Variable E : Type.
  (** tmpl:84-89: the struct of endpoints, by method name. *)
  Definition endpoints := str -> E.
  Definition set_endpoint (e : endpoints) (n : str) (x : E) : endpoints := fun m => if str_eqb m n then x else e m.

  (** tmpl:124-128, the map literal with one key per method. *)
  Definition included (methods : list str) : gomap unit := fold_left (fun m n => mset m n tt) methods [].
  (** tmpl:130-135: the loop over the excluded names; None is the panic of 132. *)
  Fixpoint exclude (m : gomap unit) (excluded : list str) : option (gomap unit) :=
    match excluded with
    | [] => Some m
    | x :: xs => match mget m x with Some _ => exclude (mdel m x) xs | None => None end
    end.
  (** tmpl:137-143 / 170-176: the body of the loop over the map, for one key [inc]: one [if] per method.
      [mw] gets the name of the method (tmpl:173); WrapAllExcept (140) ignores it. *)
  Definition wrap_key (methods : list str) (mw : str -> E -> E) (e : endpoints) (inc : str) : endpoints :=
    fold_left (fun e n => if str_eqb inc n then set_endpoint e n (mw n (e n)) else e) methods e.
  (** tmpl:157-177, WrapAllLabeledExcept: what calling it can do to the endpoints, and whether it
      panics.  The order of iteration over the map is any permutation of its keys. *)
  Inductive wrap_all_labeled (methods : list str) (mw : str -> E -> E) (excluded : list str) (e : endpoints) : endpoints -> bool -> Prop :=
  | WrapPanic : exclude (included methods) excluded = None -> wrap_all_labeled methods mw excluded e e true
  | WrapDone : forall m order, exclude (included methods) excluded = Some m -> Permutation order (keys m) ->
      wrap_all_labeled methods mw excluded e (fold_left (wrap_key methods mw) order e) false.
  (** tmpl:123-144, WrapAllExcept. *)
  Definition wrap_all_except (methods : list str) (mw : E -> E) := wrap_all_labeled methods (fun _ => mw).
End E.

(** tmpl:92-100 and 103-115: the method of Endpoints, and the endpoint made from a service.  A response
    is an interface value: None is the nil interface, which the type assertion of line 98 panics on. *)
Section S.
  Variables Req Resp Err : Type.
  Inductive result := Response (r : Resp) | Failure (e : Err) | Panicked.
  (** An endpoint returns an interface value and an error. *)
  Definition endpoint := Req -> option Resp * option Err.
  Definition call_endpoint (ep : endpoint) (req : Req) : result :=
    match ep req with
    | (_, Some e) => Failure e                                             (* 94-96 *)
    | (Some r, None) => Response r                                         (* 97 *)
    | (None, None) => Panicked                                             (* 97: assertion on a nil interface *)
    end.
  (** A service method returns a pointer (perhaps nil, which is a value of the interface) and an error. *)
  Definition make_endpoint (s : Req -> Resp * option Err) : endpoint := fun req =>
    match s req with
    | (_, Some e) => (None, Some e)                                        (* 108-110 *)
    | (v, None) => (Some v, None)                                          (* 111 *)
    end.
End S.
Arguments Response {Resp Err} r.
Arguments Failure {Resp Err} e.
Arguments Panicked {Resp Err}.
