(** When the files of a Go package fit together and fit the packages they import (The Go Programming Language Specification, "Packages", "Import declarations", "Qualified identifiers",
    "Declarations and scope"): what a compiler checks about names.  A specification: nothing here is baron's code. *)
From Coq Require Import String.
From Verif Require Import GoStr Strs GoLex GoDecls GoUse WiringSpec.

(** The name under which a file knows an imported package *)
Definition local_name (package_name : str -> str) (i : option str * str) : str := match fst i with Some n => n | None => package_name (snd i) end.
(** A name of another package that can be used: it begins with a capital letter. *)
Definition capital (x : str) : Prop := match x with c :: _ => is_upper c = true | [] => False end.
Section Package.
  Variable package_name : str -> str.   (* of the package with this import path *)
  Variable exports : str -> list str.   (* what the package with this import path declares *)
  (** One file of package pkg, whose files declare the [names]: it says so; no imported name is also a name of the package, or imported twice; every import is used; what it uses of an imported
      package is declared there, and begins with a capital letter; every function it calls by a plain name is declared in the package, or is make. *)
  Record file_fits (pkg : str) (names : list str) (ds : list (list token)) : Prop := {
    fits_clause : exists r, ds = [Word (T "package"); Word pkg] :: r;
    fits_scope : scope_ok (map (local_name package_name) (flat_map import_specs ds) ++ names);
    fits_used : forall i, In i (flat_map import_specs ds) -> flat_map (uses_of (local_name package_name i)) ds <> [];
    fits_known : forall i x, In i (flat_map import_specs ds) -> In x (flat_map (uses_of (local_name package_name i)) ds) -> In x (exports (snd i)) /\ capital x;
    fits_calls : incl (flat_map calls_of ds) (T "make" :: names) }.
  (** The files of package pkg, as texts *)
  Definition package_fits (pkg : str) (files : list str) : Prop :=
    exists dss, map declarations files = map Some dss /\ Forall (file_fits pkg (flat_map declares (concat dss))) dss.
End Package.
(** What files declare *)
Definition declared (files : list str) : list str := flat_map (fun s => match declarations s with Some ds => flat_map declares ds | None => [] end) files.

(** A part of what these packages declare: of the Go standard library, go-kit, grpc-go and nats.go. *)
Definition outside : list (str * list str) :=
  [(T "context", [T "Background"; T "Context"]); (T "flag", [T "BoolVar"; T "Parse"; T "StringVar"]); (T "fmt", [T "Errorf"; T "Println"; T "Sprintf"]);
   (T "log", [T "Fatal"; T "Fatalf"; T "Printf"; T "Println"]); (T "net", [T "Error"; T "Listen"]); (T "net/http", [T "HandlerFunc"; T "ListenAndServe"; T "NewServeMux"]);
   (T "net/http/pprof", [T "Cmdline"; T "Index"; T "Profile"; T "Symbol"; T "Trace"]); (T "os", [T "Getenv"; T "Signal"]); (T "os/signal", [T "Notify"]); (T "runtime", [T "Error"; T "SetFinalizer"]);
   (T "strings", [T "ToLower"]); (T "syscall", [T "SIGINT"; T "SIGTERM"]);
   (T "github.com/nats-io/nats.go", [T "Conn"; T "Connect"]); (T "google.golang.org/grpc", [T "Dial"; T "NewServer"; T "WithBlock"; T "WithInsecure"]);
   (T "github.com/go-kit/kit/transport/grpc", [T "Server"; T "ServerOption"]); (T "github.com/go-kit/kit/transport/http", [T "Server"; T "ServerOption"]);
   (T "github.com/go-kit/kit/transport/nats", [T "Subscriber"; T "SubscriberOption"])].
