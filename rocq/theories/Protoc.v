(** Model of internal/execprotoc/execprotoc.go, and of what protoc and its two Go plugins make of the command line that it builds
    (google/protobuf, command_line_interface.cc and importer.cc; protoc-gen-go and protoc-gen-go-grpc; neither is in /repo). *)
From Verif Require Import GoStr Generator Paths Server.

(** execprotoc.go:16-31, the arguments for the plugins *)
Definition go_code_args (out : str) : list str :=
  [T "--go_out=" ++ out; T "--go_opt=paths=source_relative"; T "--go-grpc_out=" ++ out; T "--go-grpc_opt=paths=source_relative"].
(** execprotoc.go:121-125 *)
Definition gopath_args (gp : str) : list str :=
  [T "-I" ++ fp_join [gp; T "src"];
   T "-I" ++ fp_join [gp; T "src"; T "github.com"; T "teamlint"; T "baron"; T "third_party"; T "googleapis"]].
(** execprotoc.go:115-129, the command line; the first file is clean and absolute (GoStr: filepath.Dir is [abs_dir]). *)
Definition protoc_args (files gopath plugin : list str) : list str :=
  [T "--experimental_allow_proto3_optional"; T "--proto_path=" ++ abs_dir (hd [] files)] ++ flat_map gopath_args gopath ++ plugin ++ files.

(** What protoc is asked for: the directories to look in (with the name that stands for each), the files, the outputs (plugin, parameter,
    directory) and the options (plugin, option). *)
Record request := mkReq { rq_path : list (str * str); rq_inputs : list str; rq_outs : list (str * str * str); rq_opts : list (str * str) }.
(** ParseArgument and InterpretArgument, for the forms that occur: a value for -I or --proto_path is a list with colons of DIR or
    VIRTUAL=DIR; the value of NAME_out may have a parameter and a colon before the directory. *)
Definition path_part (s : str) : str * str := match cut_eq s with (v, Some d) => (v, d) | (d, None) => ([], d) end.
Definition path_parts (v : str) : list (str * str) := map path_part (filter (fun s => negb (str_eqb s [])) (split1 c_colon v)).
Fixpoint cut_colon (s : str) : str * option str :=
  match s with [] => ([], None) | c :: s' => if N.eqb c c_colon then ([], Some s') else let '(n, v) := cut_colon s' in (c :: n, v) end.
Definition out_part (v : str) : str * str := match cut_colon v with (p, Some d) => (p, d) | (d, None) => ([], d) end.
Definition drop_prefix (p s : str) : option str := if has_prefix s p then Some (skipn (length p) s) else None.
Definition read_arg (a : str) (r : request) : option request :=
  let '(mkReq ps ins os ops) := r in
  match drop_prefix (T "--proto_path=") a with Some v => Some (mkReq (ps ++ path_parts v) ins os ops) | None =>
  match drop_prefix (T "-I") a with Some v => match v with [] => None | _ => Some (mkReq (ps ++ path_parts v) ins os ops) end | None =>
  match drop_prefix (T "--go_out=") a with Some v => let '(p, d) := out_part v in Some (mkReq ps ins (os ++ [(T "go", p, d)]) ops) | None =>
  match drop_prefix (T "--go-grpc_out=") a with Some v => let '(p, d) := out_part v in Some (mkReq ps ins (os ++ [(T "go-grpc", p, d)]) ops) | None =>
  match drop_prefix (T "--go_opt=") a with Some v => Some (mkReq ps ins os (ops ++ [(T "go", v)])) | None =>
  match drop_prefix (T "--go-grpc_opt=") a with Some v => Some (mkReq ps ins os (ops ++ [(T "go-grpc", v)])) | None =>
  if str_eqb a (T "--experimental_allow_proto3_optional") then Some r
  else match a with [] => None | c :: _ => if N.eqb c c_dash then None else Some (mkReq ps (ins ++ [a]) os ops) end
  end end end end end end.
Fixpoint read_args (args : list str) (r : request) : option request :=
  match args with [] => Some r | a :: args' => match read_arg a r with Some r' => read_args args' r' | None => None end end.
Definition protoc_request (args : list str) : option request := read_args args (mkReq [] [] [] []).

(** importer.cc, ApplyMapping: the name of the file [f] in the directory [old] that [new] stands for. *)
Definition apply_mapping (old new f : str) : option str :=
  match drop_prefix old f with
  | None => None
  | Some [] => Some new
  | Some (c :: rest) =>
      let under x := match new with [] => Some x | _ => Some (new ++ c_slash :: x) end in
      if N.eqb c c_slash then under rest
      else match rev old with e :: _ => if N.eqb e c_slash then under (c :: rest) else None | [] => None end
  end.
(** importer.cc, DiskFileToVirtualFile, without the check for shadowing (which never fails for the first directory). *)
Fixpoint virtual_name (path : list (str * str)) (f : str) : option str :=
  match path with
  | [] => None
  | (v, d) :: path' => match apply_mapping d v f with Some n => Some n | None => virtual_name path' f end
  end.
Fixpoint virtual_names (path : list (str * str)) (fs : list str) : option (list str) :=
  match fs with
  | [] => Some []
  | f :: fs' => match virtual_name path f, virtual_names path fs' with Some n, Some ns => Some (n :: ns) | _, _ => None end
  end.
(** protogen, GeneratedFilenamePrefix with paths=source_relative *)
Definition go_prefix (v : str) : str :=
  let e := path_ext v in if str_eqb e (T ".proto") || str_eqb e (T ".protodevel") then trim_suffix v e else v.

(** The file of a clean absolute path. *)
Definition at_path (s : str) : path := filter (fun e => negb (str_eqb e [])) (split1 c_slash s).
Definition put_file (p : path) (b : bytes) (fs : disk) : disk := fun q => if path_eqb q p then Some b else fs q.

(** importer.cc, OpenVirtualFile, for directories that no name stands for: the first directory that has the file. *)
Fixpoint resolve (path : list (str * str)) (name : str) (fs : disk) : option bytes :=
  match path with
  | [] => None
  | (_, d) :: path' => match fs (at_path (fp_join [d; name])) with Some b => Some b | None => resolve path' name fs end
  end.

Section P.
  (** What the two plugins write for a file, by its name: a .pb.go file, and a _grpc.pb.go file if there is a service; None: an error in one
      of the files.  (The files are looked for along the path, in their order.) *)
  Variable compile : list (str * str) -> list str -> disk -> option (str -> bytes * option bytes).
  Definition go_out (outs : str -> bytes * option bytes) (dir v : str) : path * bytes := (at_path (fp_join [dir; go_prefix v ++ T ".pb.go"]), fst (outs v)).
  Definition grpc_out (outs : str -> bytes * option bytes) (dir v : str) : list (path * bytes) :=
    match snd (outs v) with Some b => [(at_path (fp_join [dir; go_prefix v ++ T "_grpc.pb.go"]), b)] | None => [] end.
  Fixpoint distinct (l : list path) : bool := match l with [] => true | p :: l' => negb (existsb (path_eqb p) l') && distinct l' end.
  Fixpoint once (l : list str) : list str := match l with [] => [] | s :: l' => if existsb (str_eqb s) l' then once l' else s :: once l' end.
  (** A file that is given twice is compiled once; two outputs of the same name are an error.  Other outputs than the two, and other options,
      are not modelled: they fail here. *)
  Definition run_protoc (args : list str) (fs : disk) : disk * bool :=
    match protoc_request args with
    | Some (mkReq ps ins [(g1, p1, d1); (g2, p2, d2)] [(o1, x1); (o2, x2)]) =>
        if str_eqb g1 (T "go") && str_eqb g2 (T "go-grpc") && str_eqb o1 (T "go") && str_eqb o2 (T "go-grpc") && str_eqb p1 [] && str_eqb p2 []
           && str_eqb x1 (T "paths=source_relative") && str_eqb x2 (T "paths=source_relative") then
          match virtual_names ps ins with
          | None => (fs, false)
          | Some vs =>
              match compile ps vs fs with
              | None => (fs, false)
              | Some outs =>
                  let files := map (go_out outs d1) (once vs) ++ flat_map (grpc_out outs d2) (once vs) in
                  if distinct (map fst files) then (fold_left (fun fs x => put_file (fst x) (snd x) fs) files fs, true) else (fs, false)
              end
          end
        else (fs, false)
    | _ => (fs, false)
    end.
  (** exec.LookPath *)
  Variable has_program : str -> bool.
  (** execprotoc.go:15-50, GeneratePBDotGo: the disk, and whether there was no error. *)
  Definition generate_pb (files gopath : list str) (out : str) (fs : disk) : disk * bool :=
    if negb (has_program (T "protoc-gen-go")) then (fs, false)
    else if negb (has_program (T "protoc-gen-go-grpc")) then (fs, false)
    else if negb (has_program (T "protoc")) then (fs, false)
    else run_protoc (protoc_args files gopath (go_code_args out)) fs.
End P.
