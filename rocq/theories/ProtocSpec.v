(** Vocabulary for C75: what baron asks of protoc. *)
From Verif Require Import GoStr Generator Paths PathsSpec.

(** The name of a directory in which protoc can be asked to look: no colon and no equals sign. *)
Definition tame (e : str) : Prop := plain e /\ ~ In c_colon e /\ ~ In 61%N e.
(** Where imports are looked for, in order: beside the files, then, for each element of GOPATH, below its src, and in the copy of
    the googleapis that comes with baron. *)
Definition import_dirs (d : dir) (gopath : list dir) : list dir :=
  d :: flat_map (fun g => [g ++ [T "src"]; g ++ [T "src"; T "github.com"; T "teamlint"; T "baron"; T "third_party"; T "googleapis"]]) gopath.
Inductive found (fs : disk) (i : dir) : list dir -> bytes -> Prop :=
| FoundHere : forall d ds b, fs (d ++ i) = Some b -> found fs i (d :: ds) b
| FoundLater : forall d ds b, fs (d ++ i) = None -> found fs i ds b -> found fs i (d :: ds) b.
(** The .proto files NAME.proto of a directory. *)
Definition proto_file (n : str) : str := n ++ T ".proto".
Definition go_file (n : str) : str := n ++ T ".pb.go".
Definition grpc_file (n : str) : str := n ++ T "_grpc.pb.go".
