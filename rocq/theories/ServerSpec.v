(** Vocabulary for the properties of the generated server. *)
From Verif Require Import GoStr Server.

(** Does main or some goroutine report v at g in the execution? *)
Definition reported (tr : list label) (g : gid) (v : value) : Prop := In (LReport g v) tr.
(** Steps of main itself. *)
Definition by_main (l : label) : Prop := match l with LStart _ | LReceive _ _ => True | _ => False end.

(** ** Settings *)
(** The last value a list of assignments gives to a name. *)
Fixpoint last_set (n : str) (l : list (str * str)) : option str :=
  match l with
  | [] => None
  | (m, v) :: l' => match last_set n l' with Some w => Some w | None => if str_eqb m n then Some v else None end
  end.
Definition dash_or_two (d : str) : Prop := d = T "-" \/ d = T "--".
(** The rest of a command line at which the flags end. *)
Definition ends_flags (rest : list str) : Prop :=
  match rest with
  | [] => True
  | s :: _ => s = T "-" \/ s = T "--" \/ match s with [] => True | c :: _ => c <> c_dash end
  end.
Definition address_flags : list str := [T "debug.addr"; T "http.addr"; T "grpc.addr"; T "nats.addr"].
(** [written l args]: the command line gives these values to these flags, in this order. *)
Inductive written : list (str * str) -> list str -> Prop :=
| w_end : forall rest, ends_flags rest -> written [] rest
| w_equal : forall d n v l args, dash_or_two d -> In n (T "debug" :: address_flags) -> written l args ->
    written ((n, v) :: l) ((d ++ n ++ T "=" ++ v) :: args)
| w_space : forall d n v l args, dash_or_two d -> In n address_flags -> written l args ->
    written ((n, v) :: l) ((d ++ n) :: v :: args)
| w_switch : forall d l args, dash_or_two d -> written l args ->
    written ((T "debug", T "true") :: l) ((d ++ T "debug") :: args).
(** Flag, else environment variable(s), else default. *)
Definition first_of (l : list (option str)) (dflt : str) : str :=
  fold_right (fun o r => match o with Some v => v | None => r end) dflt l.
(** A variable that is set to something. *)
Definition set_var (E : environ) (n : str) : option str := match E n with [] => None | v => Some v end.
(** The spellings of a boolean flag. *)
Definition true_words : list str := [T "1"; T "t"; T "T"; T "TRUE"; T "true"; T "True"].
Definition false_words : list str := [T "0"; T "f"; T "F"; T "FALSE"; T "false"; T "False"].

(** The part of the server a rendering and a configuration ask for. *)
Definition wanted (r : rendering) (c : config) (g : gid) : Prop :=
  match g with
  | GInterrupt => True
  | GDebug => c_debug c = true
  | GHttp => r_http r = true /\ c_http c <> []
  | GGrpc => (r_transport r = T "all" \/ r_transport r = T "grpc") /\ c_grpc c <> []
  | GNats => (r_transport r = T "all" \/ r_transport r = T "nats") /\ c_nats c <> []
  end.
