(** What one can write on the command line of baron, and what it means. *)
From Verif Require Import GoStr Cmdline Server.

(** The value of a flag. *)
Inductive fvalue := VB (b : bool) | VS (s : str).
Definition value_of (o : opts) (f : bflag) : fvalue :=
  match f with
  | FSvcout => VS (op_svcout o) | FVerbose => VB (op_verbose o) | FHelp => VB (op_help o) | FStart => VB (op_start o) | FVersion => VB (op_version o)
  | FClient => VB (op_client o) | FTransport => VS (op_transport o) | FSvcdef => VB (op_svcdef o) | FDebug => VB (op_debug o)
  end.
(** The text [v] is a value for the flag [f]. *)
Inductive reads (f : bflag) : str -> fvalue -> Prop :=
| RdBool : forall v b, is_bool f = true -> parse_bool v = Some b -> reads f v (VB b)
| RdText : forall v, is_bool f = false -> reads f v (VS v).

(** The end of a cluster of shorthands: nothing, a flag with a value (-o=v, -ov, or -o v), or a word that is passed over. *)
Inductive short_end :=
| ENone
| EEq (f : bflag) (v : str)
| EJoined (f : bflag) (v : str)
| ENext (f : bflag) (v : str)
| ETest (rest : str).
(** One thing on the command line. *)
Inductive item :=
| IArg (s : str)                              (* an argument *)
| ISwitch (f : bflag)                         (* --flag *)
| ILong (f : bflag) (v : str)                 (* --flag=v *)
| ILongNext (f : bflag) (v : str)             (* --flag v *)
| IShort (l : list bflag) (e : short_end).    (* -abc, and the end *)
Definition end_text (e : short_end) : str :=
  match e with ENone => [] | EEq f v => shorthand f ++ T "=" ++ v | EJoined f v => shorthand f ++ v | ENext f _ => shorthand f | ETest r => T "test." ++ r end.
Definition words (it : item) : list str :=
  match it with
  | IArg s => [s]
  | ISwitch f => [T "--" ++ long_name f]
  | ILong f v => [T "--" ++ long_name f ++ T "=" ++ v]
  | ILongNext f v => [T "--" ++ long_name f; v]
  | IShort l e => (T "-" ++ flat_map shorthand l ++ end_text e) :: match e with ENext _ v => [v] | _ => [] end
  end.
Definition end_ok (e : short_end) : Prop :=
  match e with
  | ENone => True
  | EEq f v => shorthand f <> [] /\ v <> [] /\ exists x, reads f v x
  | EJoined f v => shorthand f <> [] /\ is_bool f = false /\ v <> [] /\ (forall c w, v <> T "=" ++ c :: w) /\ ~ (f = FTransport /\ exists w, v = T "est." ++ w)
  | ENext f _ => shorthand f <> [] /\ is_bool f = false
  | ETest _ => True
  end.
Definition item_ok (it : item) : Prop :=
  match it with
  | IArg s => s = T "-" \/ forall w, s <> T "-" ++ w
  | ISwitch f => is_bool f = true
  | ILong f v => exists x, reads f v x
  | ILongNext f v => is_bool f = false
  | IShort l e => Forall (fun f => is_bool f = true /\ shorthand f <> []) l /\ end_ok e /\ (l <> [] \/ e <> ENone)
  end.
(** What an item says, in order. *)
Definition end_says (e : short_end) : list (bflag * str) :=
  match e with ENone | ETest _ => [] | EEq f v | EJoined f v | ENext f v => [(f, v)] end.
Definition says (it : item) : list (bflag * str) :=
  match it with
  | IArg _ => []
  | ISwitch f => [(f, T "true")]
  | ILong f v | ILongNext f v => [(f, v)]
  | IShort l e => map (fun f => (f, T "true")) l ++ end_says e
  end.
Definition argument (it : item) : list str := match it with IArg s => [s] | _ => [] end.
(** The last word on [f] in [l], or else [d]. *)
Definition last_word (f : bflag) (l : list (bflag * str)) (d x : fvalue) : Prop :=
  (exists a v b, l = a ++ (f, v) :: b /\ ~ In f (map fst b) /\ reads f v x) \/ (~ In f (map fst l) /\ x = d).
(** What may follow the items: nothing, or -- and arguments. *)
Definition tail_args (t rest : list str) : Prop := (t = [] /\ rest = []) \/ t = T "--" :: rest.
(** The command line [args] means the options [o] and the arguments [ps]. *)
Definition means (args : list str) (o : opts) (ps : list str) : Prop :=
  exists items t rest, args = flat_map words items ++ t /\ tail_args t rest /\ Forall item_ok items /\
    ps = flat_map argument items ++ rest /\ forall f, last_word f (flat_map says items) (value_of opts0 f) (value_of o f).

(** What baron does when started with [args]. *)
Inductive does (args : list str) : action -> Prop :=
| DoBad : (forall o ps, ~ means args o ps) -> does args ABadFlags
| DoHelp : forall o ps, means args o ps -> op_help o = true -> does args AUsage
| DoVersion : forall o ps, means args o ps -> op_help o = false -> op_version o = true -> does args AVersion
| DoStart : forall o ps pkg out, means args o ps -> op_help o = false -> op_version o = false -> op_start o = true ->
    ((ps = [] /\ pkg = [] /\ out = []) \/ (ps = [pkg] /\ out = []) \/ (exists more, ps = pkg :: out :: more)) -> does args (AStart pkg out)
| DoMissing : forall o, means args o [] -> op_help o = false -> op_version o = false -> op_start o = false -> does args AMissing
| DoGenerate : forall o p ps, means args o (p :: ps) -> op_help o = false -> op_version o = false -> op_start o = false -> does args (AGenerate o (p :: ps)).
