(** Model of svcdef.New as a whole (svcdef/svcdef.go:207-345): the definition from the .pb.go files (Svcdef.v), then the
    HTTP bindings from the .proto files (Consolidate.v); and of the two calls that a run of baron makes. *)
From Verif Require Import GoStr GoMap Scanner Parser Consolidate SvcTypes Svcdef.

(** What a call of New leaves behind in the process: the variable oneofs of package svcdef (svcdef.go:202-204) and the variables of the
    scanner (svcparse/scanner.go:88-92). *)
Record process := mkProc { pr_oneofs : gomap (list field); pr_scanner : globals }.
Definition fresh_process : process := mkProc [] globals0.
(** A definition and the process, an error, or a panic.  (A run that does not end would be [NewPanic] too; C01 and C12 exclude it.) *)
Inductive new_result := NewOk (sd : svcdef) (p : process) | NewErr | NewPanic.
(** The variables of the scanner after consolidateHTTP (consolidate_http.go:38-89), file by file as in [consolidate]. *)
Fixpoint scanner_after (U : unicode) (g : globals) (sd : svcdef) (files : list str) : globals :=
  match files with
  | [] => g
  | text :: files' =>
      match parse_text U g text with
      | Ret (POk hsvc _, g') => match assemble_http_params sd hsvc with COk sd' => scanner_after U g' sd' files' | _ => g' end
      | Ret (PErr e, g') => if is_optional_error e then g' else if is_eof e then scanner_after U g' sd files' else g'
      | _ => g
      end
  end.
(** svcdef/svcdef.go:207-345, New: [gofiles] and [texts] are the .pb.go and the .proto files in the orders in which the ranges over the
    maps deliver them. *)
Definition svcdef_new (upper : N -> bool) (U : unicode) (p : process) (gofiles : list (option gofile)) (texts : list str) : new_result :=
  match new_go upper (pr_oneofs p) gofiles with
  | SErr => NewErr
  | SPanic => NewPanic
  | SOk (sd, ofs) =>
      match consolidate U (pr_scanner p) sd texts with
      | Ret (COk sd') => NewOk sd' (mkProc ofs (scanner_after U (pr_scanner p) sd texts))
      | Ret (CErr _) => NewErr
      | _ => NewPanic
      end
  end.

(** What a run of baron knows after parseInput and parseServiceDefinition: that there is no service (exit status 0), an error, a panic, or
    the name of the service and its definition. *)
Inductive baron_result := BNone | BErr | BPanic | BOk (name : str) (sd : svcdef).
(** cmd/baron/main.go:131-139 with 207-211 and internal/parsesvcname/parsesvcname.go:20-73: FromPaths calls New on the files in the temporary
    directory, for the name; parseServiceDefinition calls it again, in the same process, on the files beside the .proto file.  The files
    have the same contents; each call sees them in an order of its own. *)
Definition baron_definition (upper : N -> bool) (U : unicode) (go1 : list (option gofile)) (texts1 : list str)
    (go2 : list (option gofile)) (texts2 : list str) : baron_result :=
  match svcdef_new upper U fresh_process go1 texts1 with
  | NewPanic => BPanic
  | NewErr => BNone
  | NewOk sd p =>
      match sd_service sd with
      | None => BNone
      | Some sv =>
          match svcdef_new upper U p go2 texts2 with
          | NewPanic => BPanic
          | NewErr => BErr
          | NewOk sd' _ => BOk (sv_name sv) sd'
          end
      end
  end.
