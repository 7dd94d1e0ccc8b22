(** Model of the generated server: Run in gengokit/template/NAME-service/server/server.go.tmpl, Interrupt in
    server/interrupt.go.tmpl, and the settings read by cmd/NAME/main.go.tmpl.

    Goroutines are a labelled transition system; the error channel is unbuffered, so a send and the receive
    happen together.  What net/http, gRPC and NATS do is left open: they go on for ever or return any value at
    any time.  Not modelled: panics in user code, the log, process exit after main returns. *)
From Verif Require Import GoStr.

(** server.go.tmpl:32-38, Config *)
Record config := mkConfig { c_http : str; c_debug_addr : str; c_grpc : str; c_nats : str; c_debug : bool }.
(** What the template was rendered with: HTTPHelper.Methods is not empty; Config.Transport. *)
Record rendering := mkRendering { r_http : bool; r_transport : str }.
(** server.go.tmpl:77, 96: eq .Config.Transport "all" "grpc" (and "nats") *)
Definition r_grpc (r : rendering) : bool := str_eqb (r_transport r) (T "all") || str_eqb (r_transport r) (T "grpc").
Definition r_nats (r : rendering) : bool := str_eqb (r_transport r) (T "all") || str_eqb (r_transport r) (T "nats").

Inductive gid := GInterrupt | GDebug | GHttp | GGrpc | GNats.
Definition gid_eq_dec (a b : gid) : {a = b} + {a <> b}.
Proof. decide equality. Defined.
Definition empty (s : str) : bool := match s with [] => true | _ => false end.

(** server.go.tmpl:50-119: the goroutines Run starts, in order. *)
Definition to_start (r : rendering) (c : config) : list gid :=
  [GInterrupt]                                                             (* 50 *)
  ++ (if c_debug c then [GDebug] else [])                                  (* 53-66 *)
  ++ (if r_http r && negb (empty (c_http c)) then [GHttp] else [])         (* 67-76 *)
  ++ (if r_grpc r && negb (empty (c_grpc c)) then [GGrpc] else [])         (* 77-95 *)
  ++ (if r_nats r && negb (empty (c_nats c)) then [GNats] else []).        (* 96-119 *)

(** An error value. *)
Definition value := str.
(** Where a goroutine is: in a call (the first or the second of its calls that can fail), at errc <- v, or at its end. *)
Inductive pc := PFirst | PSecond | PSending (v : value) | PDone.

(** [todo]: go statements main has yet to execute; then main is at <-errc; [ret]: what it received. *)
Record state := mkState { todo : list gid; gos : gid -> option pc; ret : option value }.
Definition initial (r : rendering) (c : config) : state := mkState (to_start r c) (fun _ => None) None.
Definition set_pc (s : state) (g : gid) (p : pc) : state :=
  mkState (todo s) (fun h => if gid_eq_dec h g then Some p else gos s h) (ret s).

Inductive label :=
| LStart (g : gid)                 (* main executes a go statement *)
| LReport (g : gid) (v : value)    (* the call of goroutine g that can fail returned v, and g is about to send it *)
| LPhase (g : gid)                 (* the first call succeeded *)
| LQuiet (g : gid)                 (* g ends without a report *)
| LReceive (g : gid) (v : value).  (* main receives v from g, logs it and returns *)

(** The two goroutines with two calls: net.Listen and Serve (82-92), nats.Connect and ServeNATS (101-116). *)
Definition two_calls (g : gid) : bool := match g with GGrpc | GNats => true | _ => false end.

Inductive step : state -> label -> state -> Prop :=
| SStart : forall s g gs, todo s = g :: gs ->
    step s (LStart g) (mkState gs (fun h => if gid_eq_dec h g then Some PFirst else gos s h) (ret s))
| SReport1 : forall s g v, gos s g = Some PFirst -> step s (LReport g v) (set_pc s g (PSending v))
| SPhase : forall s g, gos s g = Some PFirst -> two_calls g = true -> step s (LPhase g) (set_pc s g PSecond)
| SReport2 : forall s g v, gos s g = Some PSecond -> step s (LReport g v) (set_pc s g (PSending v))
| SQuiet : forall s, gos s GNats = Some PSecond -> step s (LQuiet GNats) (set_pc s GNats PDone)   (* 112-116: err == nil *)
| SReceive : forall s g v, todo s = [] -> ret s = None -> gos s g = Some (PSending v) ->             (* 122 *)
    step s (LReceive g v) (mkState [] (fun h => if gid_eq_dec h g then Some PDone else gos s h) (Some v)).

(** An execution: the labels in order. *)
Inductive run (s : state) : list label -> state -> Prop :=
| RNil : run s [] s
| RSnoc : forall tr s1 l s2, run s tr s1 -> step s1 l s2 -> run s (tr ++ [l]) s2.

(** ** Settings *)
(** os.Getenv: empty if not set. *)
Definition environ := str -> str.
Definition or_env (v dflt : str) : str := match v with [] => dflt | _ => v end.

(** cmd/NAME/main.go.tmpl:14-40, init: defaults, then the environment. *)
Definition from_env (E : environ) : config :=
  let http := or_env (E (T "HTTP_ADDR")) (match E (T "PORT") with [] => [] | p => T ":" ++ p end) in
  mkConfig http (or_env (E (T "DEBUG_ADDR")) (T ":5060")) (or_env (E (T "GRPC_ADDR")) []) (or_env (E (T "NATS_ADDR")) [])
    (match E (T "DEBUG") with [] => false | d => str_eqb (T "true") (to_lower d) end).

(** strconv.ParseBool *)
Definition parse_bool (s : str) : option bool :=
  if existsb (str_eqb s) [T "1"; T "t"; T "T"; T "TRUE"; T "true"; T "True"] then Some true
  else if existsb (str_eqb s) [T "0"; T "f"; T "F"; T "FALSE"; T "false"; T "False"] then Some false
  else None.

(** FlagSet.Set for the five flags of main.go.tmpl:15-19; None: no such flag, or a bad value. *)
Definition set_flag (c : config) (name value : str) : option config :=
  if str_eqb name (T "debug.addr") then Some (mkConfig (c_http c) value (c_grpc c) (c_nats c) (c_debug c))
  else if str_eqb name (T "http.addr") then Some (mkConfig value (c_debug_addr c) (c_grpc c) (c_nats c) (c_debug c))
  else if str_eqb name (T "grpc.addr") then Some (mkConfig (c_http c) (c_debug_addr c) value (c_nats c) (c_debug c))
  else if str_eqb name (T "nats.addr") then Some (mkConfig (c_http c) (c_debug_addr c) (c_grpc c) value (c_debug c))
  else if str_eqb name (T "debug") then
    match parse_bool value with Some b => Some (mkConfig (c_http c) (c_debug_addr c) (c_grpc c) (c_nats c) b) | None => None end
  else None.
Definition is_flag (name : str) : bool :=
  existsb (str_eqb name) [T "debug.addr"; T "http.addr"; T "grpc.addr"; T "nats.addr"; T "debug"].

(** package flag, parseOne: split name=value at the first '=' that is not the first rune. *)
Fixpoint cut_eq (s : str) : str * option str :=
  match s with
  | [] => ([], None)
  | c :: s' => if N.eqb c 61 then ([], Some s') else let '(n, v) := cut_eq s' in (c :: n, v)
  end.

(** package flag, FlagSet.Parse with ExitOnError; None: usage is printed and the process exits. *)
Fixpoint flag_parse (c : config) (args : list str) {struct args} : option config :=
  match args with
  | [] => Some c
  | s :: args' =>
      match s with
      | 45%N :: b :: s' =>                                         (* at least two runes, the first a '-' *)
          let dashes := N.eqb b c_dash in
          let name := if dashes then s' else b :: s' in
          match name with
          | [] => Some c                                           (* -- ends the flags *)
          | x :: name' =>
              if N.eqb x c_dash || N.eqb x 61 then None            (* bad flag syntax *)
              else
                let '(n, v) := (let '(n, v) := cut_eq name' in (x :: n, v)) in
                if negb (is_flag n) then None                      (* not defined; also -h and -help *)
                else if str_eqb n (T "debug") then
                  match set_flag c n (match v with Some w => w | None => T "true" end) with
                  | Some c' => flag_parse c' args'
                  | None => None
                  end
                else
                  match v with
                  | Some w => match set_flag c n w with Some c' => flag_parse c' args' | None => None end
                  | None => match args' with
                            | w :: args'' => match set_flag c n w with Some c' => flag_parse c' args'' | None => None end
                            | [] => None                           (* flag needs an argument *)
                            end
                  end
          end
      | _ => Some c                                                (* not a flag: parsing stops *)
      end
  end.

(** cmd/NAME/main.go.tmpl:42-50, main: the configuration Run is called with (the check of lines 46-48 only prints). *)
Definition main_config (E : environ) (args : list str) : option config := flag_parse (from_env E) args.
