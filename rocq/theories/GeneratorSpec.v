(** Vocabulary for the properties of a generation run. *)
From Verif Require Import GoStr GoStrProofs GoMap Strs Handler SplitJoin Generator.

(** The files of a service, below its directory; [svc] is the service's name in lower case. *)
Definition main_file (svc : str) : path := [T "cmd"; svc; T "main.go"].
Definition client_file (svc : str) : path := [T "cmd"; svc ++ T "-client"; T "main.go"].
Definition service_file : path := [T "service"; T "service.go"].
Definition server_file : path := [T "server"; T "server.go"].
(** The ones that are the user's after the first generation, with their templates. *)
Definition user_files (svc : str) (client : bool) : list (path * str) :=
  [(main_file svc, T "cmd/NAME/main.go.tmpl");
   ([T "server"; T "endpoints.go"], T "server/endpoints.go.tmpl");
   ([T "server"; T "interrupt.go"], T "server/interrupt.go.tmpl");
   ([T "server"; T "wrapper.go"], T "server/wrapper.go.tmpl");
   ([T "service"; T "wrapper.go"], T "service/wrapper.go.tmpl")]
  ++ if client then [(client_file svc, T "cmd/NAME-client/main.go.tmpl")] else [].
Definition all_files (svc : str) (client : bool) : list path := service_file :: server_file :: map fst (user_files svc client).
(** As the generator calls them. *)
Definition slashed (p : path) : str := join [c_slash] p.

(** A directory tree: names differ, and have no slash in them. *)
Inductive wf_node : node -> Prop :=
| WfFile : forall b, wf_node (NFile b)
| WfDir : forall l, NoDup (map fst l) -> Forall (fun e => ~ In c_slash (fst e) /\ wf_node (snd e)) l -> wf_node (NDir l).
(** The tree is what the disk has below the service directory. *)
Definition on_disk (fs : disk) (root : path) (n : node) : Prop := forall rel, fs (root ++ rel) = lookup n rel.

(** Paths below which old versions of baron kept files. *)
Definition stale (root : path) (svc : str) (p : path) : Prop :=
  exists old rest, In old [[T "svc"; T "server"; T "cli"]; [T "svc"; T "client"; T "cli"]; [T "cmd"; svc ++ T "-server"]] /\ p = root ++ old ++ rest.
(** The operations on the disk so far: a run that is killed, or whose next operation fails, stops at such a point. *)
Definition so_far (done all : list op) : Prop := exists rest, all = done ++ rest.
