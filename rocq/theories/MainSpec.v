(** Vocabulary for C76: where a run of baron takes place, and which files are whose. *)
From Coq Require Import Permutation.
From Verif Require Import GoStr Scanner ScannerSpec LexerSpec Strs SvcTypes HttpTransport Parser ParserSpec Svcdef NewDefSpec Handler HandlerSpec Generator GeneratorSpec Paths PathsSpec ProtocSpec Cmdline Main.

(** baron is started in [cw] with [protos], which are the files [names].proto of the directory [d]; GOPATH has the directories [gps]; if a temporary
    directory can be made it is [t], new, and not a file that protoc writes; Go identifiers have no slash, and a range delivers what is in the map. *)
Record setting (w : world) (protos : list str) (cw d : dir) (names : list str) (gps : list dir) (t : dir) (fs : disk) : Prop := {
  se_cwd : w_cwd w = text_of cw /\ Forall plain cw;
  se_args : protos <> [] /\ Forall2 (fun r n => goes cw r = d ++ [proto_file n] /\ ~ In c_slash n) protos names;
  se_dir : Forall tame d;
  se_gopath : go_path (w_gopath w) (w_default w) = map text_of gps /\ Forall (Forall tame) gps;
  se_temp : (forall td, w_temp w = Some td -> td = text_of t) /\ Forall tame t;
  se_new : forall q, fs (t ++ q) = None;
  se_apart : forall n q, In n names -> t ++ q <> d ++ [go_file n] /\ t ++ q <> d ++ [grpc_file n];
  se_idents : forall b gf s, w_go w b = Some gf -> In s (type_specs gf) -> ~ In c_slash (ts_name s);
  se_order : forall k l, Permutation l (w_order w k l) }.
(** The files that protoc may write, and the one that baron writes beside them. *)
Definition pb_files (d : dir) (names : list str) (q : path) : Prop := exists n, In n names /\ (q = d ++ [go_file n] \/ q = d ++ [grpc_file n]).
Definition baron_name (n : str) : str := n ++ T ".pb.baron.go".

(** Everything protoc makes of the files. *)
Definition go_texts (outs : str -> bytes * option bytes) (names : list str) : list bytes :=
  flat_map (fun n => fst (outs (proto_file n)) :: match snd (outs (proto_file n)) with Some b => [b] | None => [] end) names.
(** The tools are there and the files are well: protoc compiles the files (whatever .pb.go files there are), there is a service [sv] in one of them,
    the Go files are those of that service, and those of the last run are not in the way; the service directory is [root], away from the .pb.go
    files, in a Go module, and if there is a service.go, it parses and its functions are not such that go-kit's handlers cannot be pruned (C36). *)
Record ready (tmpl : svcdef -> opts -> str -> data -> option bytes) (parse_go : bytes -> option (list decl))
    (w : world) (o : opts) (cw d : dir) (names : list str) (gps : list dir) (t : dir) (fs : disk)
    (sv : service_src) (outs : str -> bytes * option bytes) (gos : list gofile) (root : dir) : Prop := {
  rd_names : NoDup names /\ forall n n', In n names -> In n' names -> n' <> n ++ T "_grpc";
  rd_texts : exists text, (forall n, In n names -> fs (d ++ [proto_file n]) = Some (text n)) /\ proto_texts (w_unicode w) (map text names) sv;
  rd_programs : w_has w (T "protoc") = true /\ w_has w (T "protoc-gen-go") = true /\ w_has w (T "protoc-gen-go-grpc") = true /\ w_temp w = Some (text_of t);
  rd_compiles : forall g, (forall q, ~ pb_files d names q -> g q = fs q) -> w_compile w (map (fun x => ([], text_of x)) (import_dirs d gps)) (map proto_file names) g = Some outs;
  rd_go : Forall2 (fun b f => w_go w b = Some f) (go_texts outs names) gos /\ compiled (w_upper w) sv gos /\ unicode_ok (w_unicode w);
  rd_no_old : forall n, In n names -> snd (outs (proto_file n)) = None -> fs (d ++ [grpc_file n]) = None;
  rd_modules : (exists x l, w_packages w (text_of d) fs = Some (x :: l)) /\
    exists sp, service_path (w_cwd w) (map text_of gps) (op_svcout o) (go_camel_case (s_name sv)) = Some sp /\ root = goes cw sp /\
      w_mkdir w sp = true /\ w_walk w sp = true /\ forall g, exists x l, w_packages w sp g = Some (x :: l);
  rd_apart : forall q, ~ pb_files d names (root ++ q) /\ root ++ q <> d ++ [baron_name (hd [] names)];
  rd_templates : forall sd svc hs x, sd_service sd = Some svc -> new_helper (sd_messages sd) (sv_methods svc) = Ret hs -> In x assets -> x <> ServiceMethodsPath ->
    tmpl sd o x (data_of svc (op_client o)) <> None;
  rd_service : forall b, fs (root ++ service_file) = Some b -> exists ds, parse_go b = Some ds /\
    forall f, In (DFunc f) ds -> own (w_upper w) (DFunc f) = false -> fd_recv f <> Some [] /\ forall a, fd_params f = [a] -> declares a <> 2 }.
