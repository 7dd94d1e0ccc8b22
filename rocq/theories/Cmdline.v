(** Model of the command line of baron: the flags of cmd/baron/main.go:37-46, their reading by github.com/spf13/pflag v1.0.5
    (CommandLine.Parse: interspersed arguments, shorthand clusters, ExitOnError), and what main does with them
    (cmd/baron/main.go:94-124). *)
From Verif Require Import GoStr Server.

(** cmd/baron/main.go:37-46 *)
Inductive bflag := FSvcout | FVerbose | FHelp | FStart | FVersion | FClient | FTransport | FSvcdef | FDebug.
Definition all_flags : list bflag := [FSvcout; FVerbose; FHelp; FStart; FVersion; FClient; FTransport; FSvcdef; FDebug].
Definition long_name (f : bflag) : str :=
  match f with
  | FSvcout => T "svcout" | FVerbose => T "verbose" | FHelp => T "help" | FStart => T "start" | FVersion => T "version"
  | FClient => T "client" | FTransport => T "transport" | FSvcdef => T "svcdef" | FDebug => T "debug"
  end.
(** The shorthands; --debug has none. *)
Definition shorthand (f : bflag) : str :=
  match f with
  | FSvcout => T "o" | FVerbose => T "v" | FHelp => T "h" | FStart => T "s" | FVersion => T "V"
  | FClient => T "c" | FTransport => T "t" | FSvcdef => T "d" | FDebug => []
  end.
Record opts := mkOpts { op_svcout : str; op_verbose : bool; op_help : bool; op_start : bool; op_version : bool; op_client : bool; op_transport : str; op_svcdef : bool; op_debug : bool }.
Definition opts0 : opts := mkOpts (T "./") false false false false false (T "all") false false.
(** FlagSet.formal and FlagSet.shorthands *)
Definition find_long (name : str) : option bflag := find (fun f => str_eqb (long_name f) name) all_flags.
Definition find_short (c : N) : option bflag := find (fun f => str_eqb (shorthand f) [c]) all_flags.
(** StringP has no NoOptDefVal; that of BoolP is true. *)
Definition is_bool (f : bflag) : bool := match f with FSvcout | FTransport => false | _ => true end.
(** FlagSet.Set: None is a value that strconv.ParseBool refuses. *)
Definition set_bool (f : bflag) (b : bool) (o : opts) : opts :=
  let '(mkOpts so ve he st ve' cl tr sd de) := o in
  match f with
  | FVerbose => mkOpts so b he st ve' cl tr sd de
  | FHelp => mkOpts so ve b st ve' cl tr sd de
  | FStart => mkOpts so ve he b ve' cl tr sd de
  | FVersion => mkOpts so ve he st b cl tr sd de
  | FClient => mkOpts so ve he st ve' b tr sd de
  | FSvcdef => mkOpts so ve he st ve' cl tr b de
  | FDebug => mkOpts so ve he st ve' cl tr sd b
  | FSvcout | FTransport => o
  end.
Definition set_text (f : bflag) (v : str) (o : opts) : opts :=
  let '(mkOpts so ve he st ve' cl tr sd de) := o in
  match f with
  | FSvcout => mkOpts v ve he st ve' cl tr sd de
  | FTransport => mkOpts so ve he st ve' cl v sd de
  | _ => o
  end.
Definition set_opt (f : bflag) (v : str) (o : opts) : option opts :=
  if is_bool f then match parse_bool v with Some b => Some (set_bool f b o) | None => None end else Some (set_text f v o).

(** pflag, parseShortArg and parseSingleShortArg, on what follows the dash; [next] is the next argument.  The flag says whether that one was
    used.  None: an error. *)
Fixpoint short_args (o : opts) (s : str) (next : option str) : option (opts * bool) :=
  match s with
  | [] => Some (o, false)
  | c :: rest =>
      if has_prefix s (T "test.") then Some (o, false)
      else match find_short c with
           | None => None
           | Some f =>
               match rest with
               | 61%N :: v :: vs => match set_opt f (v :: vs) o with Some o' => Some (o', false) | None => None end
               | _ =>
                   if is_bool f then match set_opt f (T "true") o with Some o' => short_args o' rest next | None => None end
                   else match rest with
                        | _ :: _ => match set_opt f rest o with Some o' => Some (o', false) | None => None end
                        | [] => match next with
                                | Some v => match set_opt f v o with Some o' => Some (o', true) | None => None end
                                | None => None
                                end
                        end
               end
           end
  end.
(** pflag, parseArgs and parseLongArg: the options and the arguments that are no flags.  None: a message, the usage, and exit status 2. *)
Fixpoint parse_args (o : opts) (args : list str) {struct args} : option (opts * list str) :=
  match args with
  | [] => Some (o, [])
  | s :: args' =>
      match s with
      | 45%N :: 45%N :: [] => Some (o, args')
      | 45%N :: 45%N :: x :: name' =>
          if N.eqb x c_dash || N.eqb x 61 then None
          else
            let '(n, v) := cut_eq (x :: name') in
            match find_long n with
            | None => None
            | Some f =>
                match v with
                | Some w => match set_opt f w o with Some o' => parse_args o' args' | None => None end
                | None =>
                    if is_bool f then match set_opt f (T "true") o with Some o' => parse_args o' args' | None => None end
                    else match args' with
                         | w :: args'' => match set_opt f w o with Some o' => parse_args o' args'' | None => None end
                         | [] => None
                         end
                end
            end
      | 45%N :: c :: rest =>
          match args' with
          | w :: args'' =>
              match short_args o (c :: rest) (Some w) with
              | Some (o', false) => parse_args o' args'
              | Some (o', true) => parse_args o' args''
              | None => None
              end
          | [] =>
              match short_args o (c :: rest) None with
              | Some (o', _) => Some (o', [])
              | None => None
              end
          end
      | _ => match parse_args o args' with Some (o', ps) => Some (o', s :: ps) | None => None end
      end
  end.

(** cmd/baron/main.go:94-124, main up to initLog (the build has a version and a date: lines 62-74 do nothing). *)
Inductive action := ABadFlags | AUsage | AVersion | AStart (pkg out : str) | AMissing | AGenerate (o : opts) (protos : list str).
Definition decide (args : list str) : action :=
  match parse_args opts0 args with
  | None => ABadFlags
  | Some (o, ps) =>
      if op_help o then AUsage
      else if op_version o then AVersion
      else if op_start o then AStart (hd [] ps) (hd [] (tl ps))
      else match ps with [] => AMissing | _ => AGenerate o ps end
  end.
