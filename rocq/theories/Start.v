(** Model of internal/start/start.go and internal/start/template.go.  Not modelled: the log, file
    modes, symbolic links; names are ASCII where case matters (GoStr.to_lower, Strs.go_camel_case). *)
From Verif Require Import GoStr Strs Generator.

(** start.go:109-129, removeDotProtoSuffix: every occurrence of .proto goes (the warning is only logged). *)
Definition remove_dot_proto_suffix (pkg : str) : str := replace_all (length pkg) pkg (T ".proto") [].

(** start.go:25-32, PackageName *)
Definition package_name (alias : str) : str := to_lower (replace1 c_space [] (replace1 c_dash [] alias)).
(** start.go:34-39, ServiceName *)
Definition service_name (alias : str) : str :=
  go_camel_case (replace1 c_space [c_underscore] (replace1 c_dash [c_underscore] alias)).
(** start.go:20-23, FileName: filepath.Join only joins if no component of [out] or of the name is
    empty, a dot or two dots. *)
Definition file_name (alias : str) (out : path) : path := out ++ split1 c_slash (package_name alias ++ T ".proto").

(** template.go:3-32, startProto, rendered for an alias (the two placeholders are method calls). *)
Definition start_proto (alias : str) : str := T "
syntax = ""proto3"";

package " ++ package_name alias ++ T ";

import ""google/api/annotations.proto"";

service " ++ service_name alias ++ T " {
  rpc Status(StatusRequest) returns (StatusResponse) {
    option (google.api.http) = {
      get: ""/status""
    };
  }
}

enum ServiceStatus {
  FAIL = 0;
  OK = 1;
}

message StatusRequest {
  bool full = 1;
}

message StatusResponse {
  ServiceStatus status = 1;
}
".

(** ** The disk: regular files and directories; the empty path is the current directory. *)
Inductive entry := EDir | EFile (b : bytes).
Definition tree := path -> option entry.
Definition put (t : tree) (p : path) (e : entry) : tree := fun q => if path_eqb q p then Some e else t q.

(** What the operating system lets us do: which paths can be looked up (permissions on directories), where
    directories can be made, whether the file can be created, and how much of it can be written (None:
    everything).  [env_other] is what other processes do between os.Stat and the rest. *)
Record env := mkEnv {
  env_visible : path -> bool; env_mkdir : path -> bool; env_create : bool; env_written : option nat;
  env_other : tree -> tree }.

(** os.Stat(p), err == nil *)
Definition stat_ok (e : env) (t : tree) (p : path) : bool :=
  env_visible e p && match t p with Some _ => true | None => false end.
(** os.MkdirAll(p): [todo] are the components still to do below [done]. *)
Fixpoint mkdir_all (e : env) (t : tree) (done todo : path) : tree * bool :=
  match todo with
  | [] => (t, true)
  | c :: todo' =>
      let p := done ++ [c] in
      match t p with
      | Some EDir => if env_visible e p then mkdir_all e t p todo' else (t, false)
      | Some (EFile _) => (t, false)
      | None => if env_mkdir e p then mkdir_all e (put t p EDir) p todo' else (t, false)
      end
  end.
Definition is_dir (t : tree) (p : path) : bool :=
  match p with [] => true | _ => match t p with Some EDir => true | _ => false end end.
(** os.Create(p): truncates a file that is there. *)
Definition create (e : env) (t : tree) (p : path) : option tree :=
  if env_create e && env_visible e p && is_dir t (removelast p) && negb (is_dir t p) then Some (put t p (EFile [])) else None.

(** start.go:46-93, Do: the disk afterwards and the exit code.  Both template executions succeed: they only
    call the methods above. *)
Definition do_start (e : env) (t : tree) (pkg : str) (out : path) : tree * Z :=
  let pkg := match pkg with [] => T "start" | _ => pkg end in                      (* 47-50 *)
  let alias := remove_dot_proto_suffix pkg in                                      (* 51 *)
  let p := file_name alias out in
  if stat_ok e t p then (t, 1%Z)                                                   (* 56-64 *)
  else
    let t := env_other e t in
    let '(t, ok) := match out with [] => (t, true) | _ => mkdir_all e t [] (removelast p) end in   (* 66-72 *)
    if negb ok then (t, 1%Z) else
    match create e t p with                                                        (* 73-77 *)
    | None => (t, 1%Z)
    | Some t =>
        let code := start_proto alias in
        match env_written e with                                                   (* 85-89 *)
        | None => (put t p (EFile code), 0%Z)
        | Some n => (put t p (EFile (firstn n code)), 1%Z)
        end
    end.
