(** Model of a whole run of baron that generates (cmd/baron/main.go:126-161 and the functions it calls), put together from the command line
    (Cmdline.v), the paths (Paths.v, Generator.v), protoc (Protoc.v), svcdef.New (NewDef.v) and the generator (Generator.v).

    Not modelled: the log, file modes, directories without files, other processes that change the disk, a missing working directory. *)
From Verif Require Import GoStr GoMap Scanner SvcTypes Svcdef NewDef Handler Generator GeneratorSpec Paths Protoc Cmdline.

(** Everything outside of baron. *)
Record world := mkWorld {
  w_cwd : str;                                  (* the working directory *)
  w_gopath : str; w_default : str;              (* the variable GOPATH, and build.Default.GOPATH *)
  w_has : str -> bool;                          (* exec.LookPath *)
  w_compile : list (str * str) -> list str -> disk -> option (str -> bytes * option bytes);   (* protoc with its plugins, see Protoc.v *)
  w_packages : str -> disk -> option (list str);   (* packages.Load of a directory: import paths; None: an error *)
  w_temp : option str;                          (* ioutil.TempDir; None: an error *)
  w_mkdir : str -> bool;                        (* os.MkdirAll: whether there is no error *)
  w_walk : str -> bool;                         (* whether readPreviousGeneration can read all that it finds *)
  w_go : bytes -> option gofile;                (* go/parser.ParseFile; None: an error *)
  w_order : nat -> list (str * bytes) -> list (str * bytes);   (* the order in which a range over a map delivers it, for each range of a run *)
  w_upper : N -> bool; w_unicode : unicode }.

(** cmd/baron/main.go:393-403, openFiles (and parsesvcname.go:43-53): a map from path to content; None: a file is missing. *)
Fixpoint open_files (fs : disk) (m : gomap bytes) (paths : list str) : option (gomap bytes) :=
  match paths with
  | [] => Some m
  | p :: ps => match fs (at_path p) with Some b => open_files fs (mset m p b) ps | None => None end
  end.
(** cmd/baron/main.go:299-310 and parsesvcname.go:30-41: the .pb.go files of the definitions in a directory, and those of the _grpc.pb.go
    files that are there (pkg/file.go:6-12, FileExists). *)
Definition pb_go_paths (fs : disk) (dir : str) (files : list str) : list str :=
  flat_map (fun p => fp_join [dir; pb_file_name p] ::
    let g := fp_join [dir; grpc_pb_file_name p] in match fs (at_path g) with Some _ => [g] | None => [] end) files.
(** cmd/baron/main.go:311-325 and parsesvcname.go:54-67: opening the files, and New; None: a file cannot be opened.  [k] tells the ranges
    of the two calls apart. *)
Definition new_from (w : world) (k : nat) (p : process) (fs : disk) (dir : str) (files : list str) : option new_result :=
  match open_files fs [] (pb_go_paths fs dir files), open_files fs [] files with
  | Some gos, Some protos => Some (svcdef_new (w_upper w) (w_unicode w) p (map (fun x => w_go w (snd x)) (w_order w k gos)) (map snd (w_order w (S k) protos)))
  | _, _ => None
  end.

(** internal/parsesvcname/parsesvcname.go:18-74, FromPaths: an error, a panic, or a name and what the process remembers. *)
Inductive from_result := FrErr | FrPanic | FrName (name : str) (p : process).
Definition from_paths (w : world) (gopath files : list str) (fs : disk) : disk * from_result :=
  match w_temp w with
  | None => (fs, FrErr)
  | Some td =>
      let '(fs1, ok) := generate_pb (w_compile w) (w_has w) files gopath td fs in
      let r := if ok then
                 match new_from w 0 fresh_process fs1 td files with
                 | None | Some NewErr => FrErr
                 | Some NewPanic => FrPanic
                 | Some (NewOk sd p) => match sd_service sd with None => FrErr | Some sv => FrName (sv_name sv) p end
                 end
               else FrErr in
      (step_op fs1 (ORemoveAll (at_path td)), r)
  end.

(** config.Config, with what the process remembers *)
Record config := mkCfg { cf_files : list str; cf_pb_path : str; cf_svc_path : str; cf_name : str; cf_process : process }.
(** A run that ends (with exit status 0?), or goes on. *)
Inductive front := FExit (fs : disk) (zero : bool) | FGo (fs : disk) (c : config).
(** cmd/baron/main.go:164-275, parseInput, with what main does with its results (128-136); the previous generation is read in [baron_run].
    errors.Wrap of nil is nil (187, 255). *)
Definition parse_input (w : world) (svcout : str) (protos : list str) (fs : disk) : front :=
  let gopath := go_path (w_gopath w) (w_default w) in
  match clean_proto_paths (fun s => Some (fp_abs (w_cwd w) s)) protos with
  | None => FExit fs false
  | Some files =>
      let dir := abs_dir (hd [] files) in
      match w_packages w dir fs with
      | None => FExit fs false
      | Some [] => FExit fs true
      | Some (_ :: _) =>
          let '(fs1, ok) := generate_pb (w_compile w) (w_has w) files gopath dir fs in
          if negb ok then FExit fs1 false
          else
            let '(fs2, r) := from_paths w gopath files fs1 in
            match r with
            | FrErr => FExit fs2 true
            | FrPanic => FExit fs2 false
            | FrName name p =>
                match service_path (w_cwd w) gopath svcout name with
                | None => FExit fs2 false
                | Some sp =>
                    if negb (w_mkdir w sp) then FExit fs2 false
                    else match w_packages w sp fs2 with
                         | None => FExit fs2 false
                         | Some [] => FExit fs2 true
                         | Some (_ :: _) => if w_walk w sp then FGo fs2 (mkCfg files dir sp (to_lower name) p) else FExit fs2 false
                         end
                end
            end
      end
  end.

(** gengokit/gengokit.go:76-88, NewData, and what the renderers use of a method *)
Definition rpc_of (m : smethod) : rpc := mkRpc (sm_name m) (ft_name (sm_req m)) (ft_name (sm_resp m)).
Definition data_of (sv : service) (client : bool) : data := mkData (sv_name sv) (map rpc_of (sv_methods sv)) client.

Section R.
  (** As in Generator.v: the templates (for a definition and the command line), the Go parser, printer and formatter. *)
  Variable tmpl : svcdef -> opts -> str -> data -> option bytes.
  Variable parse_go : bytes -> option (list decl).
  Variable print_go : list decl -> bytes.
  Variable format_source : bytes -> option bytes.

  (** A run with these options and arguments: the disk at its end, and whether the exit status is zero.
      cmd/baron/main.go:126-161; parseServiceDefinition (288-333) makes the definition anew; generateBaronCode (359-391) names its file after
      the first argument. *)
  Inductive baron_run (w : world) (o : opts) (protos : list str) (fs : disk) : disk -> bool -> Prop :=
  | RunFront : forall fs' z, parse_input w (op_svcout o) protos fs = FExit fs' z -> baron_run w o protos fs fs' z
  | RunNoDef : forall fs1 c, parse_input w (op_svcout o) protos fs = FGo fs1 c ->
      (forall sd p, new_from w 2 (cf_process c) fs1 (cf_pb_path c) (cf_files c) <> Some (NewOk sd p)) -> baron_run w o protos fs fs1 false
  | RunNoService : forall fs1 c sd p, parse_input w (op_svcout o) protos fs = FGo fs1 c ->
      new_from w 2 (cf_process c) fs1 (cf_pb_path c) (cf_files c) = Some (NewOk sd p) -> sd_service sd = None -> baron_run w o protos fs fs1 false
  | RunGenerate : forall fs1 c sd p sv l ops fin, parse_input w (op_svcout o) protos fs = FGo fs1 c ->
      new_from w 2 (cf_process c) fs1 (cf_pb_path c) (cf_files c) = Some (NewOk sd p) -> sd_service sd = Some sv ->
      let root := at_path (fp_abs (w_cwd w) (cf_svc_path c)) in
      wf_node (NDir l) -> on_disk fs1 root (NDir l) ->
      main_ops (w_upper w) (tmpl sd o) parse_go print_go format_source fs1 root
        (at_path (fp_join [cf_pb_path c; baron_file_name (hd [] (cf_files c))])) (data_of sv (op_client o))
        (read_previous_generation (last root []) (cf_name c) (NDir l)) ops fin ->
      baron_run w o protos fs (run_ops fs1 ops) fin.
End R.
