(** Model of gengokit/generator/gen.go, of the renderers in gengokit/service, and of the part of
    cmd/baron/main.go that reads the previous generation and writes the new one.

    Parameters: the template engine (text/template applied to a template and the data), the Go
    parser, printer and formatter.  Not modelled: the log, protoc, packages.Load, file modes and
    directories without files. *)
From Coq Require Import Permutation.
From Verif Require Import GoStr GoStrProofs GoMap Strs Handler SplitJoin.

Definition bytes := str.

(** gengokit/service/templates.go:3-18 *)
Definition BaronPath : str := T "baron/NAME.pb.baron.go.tmpl".
Definition CmdClientPath : str := T "cmd/NAME-client/main.go.tmpl".
Definition CmdServerPath : str := T "cmd/NAME/main.go.tmpl".
Definition ServicePath : str := T "service/service.go.tmpl".
Definition ServiceMethodsPath : str := T "service/service_methods.go.tmpl".
Definition ServiceWrapperPath : str := T "service/wrapper.go.tmpl".
Definition ServerPath : str := T "server/server.go.tmpl".
Definition ServerEndpointsPath : str := T "server/endpoints.go.tmpl".
Definition ServerInterruptPath : str := T "server/interrupt.go.tmpl".
Definition ServerWrapperPath : str := T "server/wrapper.go.tmpl".
(** gengokit/service/templates.go:20-22, ExcludedPath *)
Definition excluded_paths : list str := [BaronPath; ServiceMethodsPath].
(** gengokit/service/templates.go:25-32, IsExcludedPath *)
Definition is_excluded_path (p : str) : bool := existsb (fun q => str_eqb q p) excluded_paths.
(** The files under gengokit/template/NAME-service, which go-bindata embeds (AssetNames ranges over a map:
    the order is arbitrary). *)
Definition assets : list str :=
  [BaronPath; CmdServerPath; CmdClientPath; ServerEndpointsPath; ServerInterruptPath; ServerPath; ServerWrapperPath;
   ServicePath; ServiceMethodsPath; ServiceWrapperPath].

(** strings.Replace(s, old, new, -1) with a non-empty old; the fuel is the length of s. *)
Fixpoint replace_all (fuel : nat) (s old new : str) : str :=
  match fuel, s with
  | 0, _ => s
  | _, [] => []
  | S fuel', c :: s' => if has_prefix s old then new ++ replace_all fuel' (skipn (length old) s) old new else c :: replace_all fuel' s' old new
  end.
(** gen.go:184-192, templatePathToActual *)
Definition template_path_to_actual (tp svc : str) : str :=
  trim_suffix (replace_all (length tp) tp (T "NAME") (to_lower svc)) (T ".tmpl").

(** What the renderers need to know of gengokit.Data. *)
Record data := mkData { d_name : str; d_methods : list rpc; d_client : bool }.

(** The result of one file: GErr is any error but ErrGenIgnored. *)
Inductive gen := GOk (b : bytes) | GIgnored | GErr | GPanic.

Section G.
  Variable upper : N -> bool.
  (** Data.ApplyTemplateFromPath: None is an error. *)
  Variable tmpl : str -> data -> option bytes.
  (** go/parser.ParseFile *)
  Variable parse_go : bytes -> option (list decl).
  (** go/printer.Fprint, then the rendered handlers *)
  Variable print_go : list decl -> bytes.
  (** go/format.Source: None is an error *)
  Variable format_source : bytes -> option bytes.

  (** gen.go:207-217, formatCode *)
  Definition format_code (b : bytes) : bytes := match format_source b with Some f => f | None => b end.
  (** gen.go:169-178 *)
  Definition finish (o : option bytes) : gen := match o with Some b => GOk (format_code b) | None => GErr end.
  (** gengokit/service/{cmd_client,cmd_server,server,server_endpoints,server_interrupt,server_wrapper,service_wrapper}.go:
      each of these renderers gives back the previous file if there is one. *)
  Definition keep_or_make (t : str) (d : data) (prev : option bytes) : option bytes :=
    match prev with Some b => Some b | None => tmpl t d end.
  (** gengokit/service/services.go:28-45 and 73-124: NewService and Render.  The first file comes from the template. *)
  Inductive service_render (d : data) : option bytes -> gen -> Prop :=
  | SRFirst : service_render d None (finish (tmpl ServicePath d))
  | SRBad : forall b, parse_go b = None -> service_render d (Some b) GErr
  | SROut : forall b ds out, parse_go b = Some ds -> render upper (d_name d) (d_methods d) (Some ds) (Ret out) ->
      service_render d (Some b) (finish (Some (print_go out)))
  | SRPanic : forall b ds, parse_go b = Some ds -> render upper (d_name d) (d_methods d) (Some ds) Panic -> service_render d (Some b) GPanic.
  (** gen.go:97-167, generateResponseFile, but for the case of ServicePath. *)
  Definition other_response (t : str) (d : data) (prev : option bytes) : gen :=
    if str_eqb t ServiceWrapperPath then finish (keep_or_make t d prev)
    else if str_eqb t CmdServerPath then finish (keep_or_make t d prev)
    else if str_eqb t CmdClientPath then if d_client d then finish (keep_or_make t d prev) else GIgnored
    else if str_eqb t ServerPath then finish (keep_or_make t d None)
    else if str_eqb t ServerEndpointsPath then finish (keep_or_make t d prev)
    else if str_eqb t ServerInterruptPath then finish (keep_or_make t d prev)
    else if str_eqb t ServerWrapperPath then finish (keep_or_make t d prev)
    else finish (tmpl t d).
  (** gen.go:90-179, generateResponseFile *)
  Definition response (t : str) (d : data) (prev : option bytes) (g : gen) : Prop :=
    if str_eqb t ServicePath then service_render d prev g else g = other_response t d prev.

  (** gen.go:31-61, GenerateGokit: one run, with the templates in some order.  None is an error or a panic. *)
  Inductive gokit_loop (d : data) (prev : gomap bytes) : list str -> gomap bytes -> option (gomap bytes) -> Prop :=
  | GLDone : forall m, gokit_loop d prev [] m (Some m)
  | GLExcluded : forall t ts m res, is_excluded_path t = true -> gokit_loop d prev ts m res -> gokit_loop d prev (t :: ts) m res
  | GLOk : forall t ts m b res, is_excluded_path t = false ->
      response t d (mget prev (template_path_to_actual t (to_lower (d_name d)))) (GOk b) ->
      gokit_loop d prev ts (mset m (template_path_to_actual t (to_lower (d_name d))) b) res -> gokit_loop d prev (t :: ts) m res
  | GLIgnored : forall t ts m res, is_excluded_path t = false ->
      response t d (mget prev (template_path_to_actual t (to_lower (d_name d)))) GIgnored ->
      gokit_loop d prev ts m res -> gokit_loop d prev (t :: ts) m res
  | GLFail : forall t ts m g, is_excluded_path t = false ->
      response t d (mget prev (template_path_to_actual t (to_lower (d_name d)))) g -> g = GErr \/ g = GPanic ->
      gokit_loop d prev (t :: ts) m None.
  Definition generate_gokit (d : data) (prev : gomap bytes) (res : option (gomap bytes)) : Prop :=
    exists order, Permutation order assets /\ gokit_loop d prev order [] res.
  (** gen.go:66-83, GenerateBaronFile: its content *)
  Definition baron_file (d : data) : option bytes :=
    match other_response BaronPath d None with GOk b => Some b | _ => None end.

  (** ** The disk *)
  (** An absolute path: its components. *)
  Definition path := list str.
  (** The regular files. *)
  Definition disk := path -> option bytes.
  Fixpoint path_eqb (a b : path) : bool :=
    match a, b with [], [] => true | x :: a', y :: b' => str_eqb x y && path_eqb a' b' | _, _ => false end.
  Fixpoint under (p root : path) : bool :=
    match root, p with [], _ => true | x :: r', y :: p' => str_eqb x y && under p' r' | _ :: _, [] => false end.
  Inductive op :=
  | OCreate (p : path)             (* os.Create: the file is empty now *)
  | OWrite (p : path) (b : bytes)  (* one write of io.Copy *)
  | ORemoveAll (p : path).         (* one file or directory of os.RemoveAll is gone *)
  Definition step_op (fs : disk) (o : op) : disk :=
    match o with
    | OCreate p => fun q => if path_eqb q p then Some [] else fs q
    | OWrite p b => fun q => if path_eqb q p then match fs q with Some c => Some (c ++ b) | None => Some b end else fs q
    | ORemoveAll p => fun q => if under q p then None else fs q
    end.
  Definition run_ops (fs : disk) (ops : list op) : disk := fold_left step_op ops fs.

  (** gen.go:220-236, WriteGenFile: it creates the file and copies into it, in any number of writes. *)
  Inductive write_gen_file (p : path) (b : bytes) : list op -> Prop :=
  | WriteGenFile : forall chunks, concat chunks = b -> write_gen_file p b (OCreate p :: map (OWrite p) chunks).
  (** filepath.Join(servicePath, rel): for service names without slashes and other than a dot or two
      dots, Join only joins. *)
  Definition dest (root : path) (rel : str) : path := root ++ split1 c_slash rel.
  (** cmd/baron/main.go:151-157, writing the files, in the order of the map. *)
  Inductive write_files (root : path) : list (str * bytes) -> list op -> Prop :=
  | WFNil : write_files root [] []
  | WFCons : forall rel b fs o1 o2, write_gen_file (dest root rel) b o1 -> write_files root fs o2 -> write_files root ((rel, b) :: fs) (o1 ++ o2).
  (** cmd/baron/main.go:489-515, cleanupOldFiles: RemoveAll of a directory removes what is below it, one
      entry after the other, and then the directory. *)
  Inductive remove_all (p : path) : list op -> Prop :=
  | RemoveAll : forall below, Forall (fun q => under q p = true) below -> remove_all p (map ORemoveAll below ++ [ORemoveAll p]).
  (** One directory: nothing to do if os.Stat finds nothing. *)
  Inductive clean_one (fs : disk) (p : path) : list op -> Prop :=
  | CleanNone : (forall q, under q p = true -> fs q = None) -> clean_one fs p []
  | CleanSome : forall o, remove_all p o -> clean_one fs p o.
  Inductive cleanup (fs : disk) (root : path) (svc : str) : list op -> Prop :=
  | Cleanup : forall o1 o2 o3, clean_one fs (root ++ [T "svc"; T "server"; T "cli"]) o1 ->
      clean_one (run_ops fs o1) (root ++ [T "svc"; T "client"; T "cli"]) o2 ->
      clean_one (run_ops fs (o1 ++ o2)) (root ++ [T "cmd"; svc ++ T "-server"]) o3 -> cleanup fs root svc (o1 ++ o2 ++ o3).

  (** ** The previous generation *)
  (** A directory and what is in it (filepath.Walk). *)
  Inductive node := NFile (b : bytes) | NDir (l : list (str * node)).
  (** cmd/baron/main.go:442 *)
  Definition walked (base svc name : str) : bool :=
    existsb (str_eqb name) [base; svc; svc ++ T "-client"; T "service"; T "cmd"; T "server"].
  (** cmd/baron/main.go:436-470, addFileToFiles, under filepath.Walk: the files with their paths below the
      service directory.  A name that is not walked is skipped with all that is below it. *)
  Fixpoint walk (base svc : str) (rel : path) (name : str) (n : node) : list (path * bytes) :=
    match n with
    | NFile b => [(rel, b)]
    | NDir l => if walked base svc name
                then (fix go (l : list (str * node)) : list (path * bytes) :=
                        match l with [] => [] | (nm, n') :: l' => walk base svc (rel ++ [nm]) nm n' ++ go l' end) l
                else []
    end.
  (** cmd/baron/main.go:429-478, readPreviousGeneration: relative paths in unix style, but for server/server.go. *)
  Definition add_file (m : gomap bytes) (e : path * bytes) : gomap bytes :=
    if str_eqb (join [c_slash] (fst e)) (T "server/server.go") then m else mset m (join [c_slash] (fst e)) (snd e).
  Definition read_previous_generation (base svc : str) (root : node) : gomap bytes :=
    fold_left add_file (walk base svc [] base root) [].
  (** What the tree has at a path. *)
  Fixpoint lookup (n : node) (p : path) : option bytes :=
    match n, p with
    | NFile b, [] => Some b
    | NDir l, nm :: p' =>
        (fix go (l : list (str * node)) : option bytes :=
           match l with [] => None | (nm', n') :: l' => if str_eqb nm nm' then lookup n' p' else go l' end) l
    | _, _ => None
    end.

  (** ** The run *)
  (** cmd/baron/main.go:142-161, main from the definition on: the operations on the disk, and whether main got
      to its end.  An error or a panic ends the run (log.Fatal); every prefix of the operations is a run that was
      killed, or whose next operation failed. *)
  Inductive main_ops (fs : disk) (root baron_path : path) (d : data) (prev : gomap bytes) : list op -> bool -> Prop :=
  | MOBaronFails : baron_file d = None -> main_ops fs root baron_path d prev [] false
  | MOServiceFails : forall b o1, baron_file d = Some b -> write_gen_file baron_path b o1 -> generate_gokit d prev None ->
      main_ops fs root baron_path d prev o1 false
  | MODone : forall b o1 m order o2 o3, baron_file d = Some b -> write_gen_file baron_path b o1 -> generate_gokit d prev (Some m) ->
      Permutation order m -> write_files root order o2 -> cleanup (run_ops fs (o1 ++ o2)) root (to_lower (d_name d)) o3 ->
      main_ops fs root baron_path d prev (o1 ++ o2 ++ o3) true.
End G.

(** ** Paths of the command line *)
(** filepath.Dir of a clean absolute path: all before the last slash, or the slash. *)
Definition join_dir (l : list str) : str :=
  match l with [] | [[]] => [c_slash] | l => join [c_slash] l end.
Definition abs_dir (p : str) : str := join_dir (removelast (split1 c_slash p)).
(** cmd/baron/main.go:406-426, cleanProtofilePath; [abs] is filepath.Abs (None: no working directory). *)
Fixpoint clean_proto_loop (abs : str -> option str) (full raw : list str) : option (list str) :=
  match raw with
  | [] => Some full
  | def :: raw' =>
      match abs def with
      | None => None
      | Some f => let full := full ++ [f] in
                  if str_eqb (abs_dir (hd [] full)) (abs_dir f) then clean_proto_loop abs full raw' else None
      end
  end.
Definition clean_proto_paths (abs : str -> option str) (raw : list str) : option (list str) := clean_proto_loop abs [] raw.
(** filepath.Base of a path with no trailing slash *)
Definition path_base (p : str) : str := last (split1 c_slash p) [].
(** filepath.Ext: from the last dot of the last element on *)
Definition path_ext (p : str) : str :=
  let b := path_base p in
  match split1 c_dot b with [] | [_] => [] | l => c_dot :: last l [] end.
(** internal/parsesvcname/parsesvcname.go:103-107 and 112-116, GetPBFileName and GetGRPCPBFileName, and
    cmd/baron/main.go:376-379; the last element of the path. *)
Definition bare_name (p : str) : str := trim_suffix (path_base p) (path_ext p).
Definition pb_file_name (p : str) : str := bare_name p ++ T ".pb.go".
Definition grpc_pb_file_name (p : str) : str := bare_name p ++ T "_grpc.pb.go".
Definition baron_file_name (p : str) : str := bare_name p ++ T ".pb.baron.go".
