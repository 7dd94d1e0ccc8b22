(** The declarations of the other files of the packages server, service and main: proofs (the statements are in PropProject.v). *)
From Coq Require Import String Lia.
From Verif Require Import GoStr GoStrProofs GoMap Strs StrsSpec SvcTypes HttpTransport Handler Generator Template Render TextSpec TextFile GoLex GoLexProofs GoDecls GoDeclsProofs WiringSpec DecoderText FileText GoUse GoUseProofs GoServer ServerProg TextOthers FileService FileOthers.
From Verif Require WiringProofs DecoderTexts.

Ltac table := repeat (apply Forall_cons; [cbn [fst snd]; uses_are; tidy|]); apply Forall_nil.
Section Others.
  Variable d : tdata.
  Notation svc := (sv_name (td_service d)).
  Notation methods := (sv_methods (td_service d)).
  Hypothesis Hsvc : Forall ident [svc].
  Hypothesis Hdata : Forall inner [td_pb_import d; td_import d].
  Ltac loop x Hx k := fail.
  Lemma server_endpoints_reads : filed (concat (server_endpoints_pieces d)) (file_says (T "server") [(Some (T "pb"), td_pb_import d); (None, td_import d ++ T "/service")] [T "Endpoints"]
    [(T "pb", [T "Endpoints"]); (T "service", [T "NewService"])] [T "NewEndpoints"]).
  Proof.
    eexists; eexists; split; [unfold server_endpoints_pieces; match goal with |- adds (10%N :: concat (?a :: ?r)) ?l => change (adds (concat ((10%N :: a) :: r)) l) end; adds_with loop [svc] [td_pb_import d; td_import d]|].
    split; [walk|]. split; [eexists; reflexivity|]. split; [reflexivity|]. split; [reflexivity|]. split; [table|calls_are; tidy].
  Qed.
  Lemma server_interrupt_reads : filed (concat (server_interrupt_pieces d)) (file_says (T "server") [(None, T "fmt"); (None, T "os"); (None, T "os/signal"); (None, T "syscall")] [T "Interrupt"]
    [(T "fmt", [T "Errorf"]); (T "os", [T "Signal"]); (T "signal", [T "Notify"]); (T "syscall", [T "SIGINT"; T "SIGTERM"])] [T "make"]).
  Proof.
    eexists; eexists; split; [unfold server_interrupt_pieces; match goal with |- adds (10%N :: concat (?a :: ?r)) ?l => change (adds (concat ((10%N :: a) :: r)) l) end; adds_with loop [svc] [td_pb_import d; td_import d]|].
    split; [walk|]. split; [eexists; reflexivity|]. split; [reflexivity|]. split; [reflexivity|]. split; [table|calls_are; tidy].
  Qed.
  Lemma server_wrapper_reads : filed (concat (server_wrapper_pieces d)) (file_says (T "server")
    [(Some (T "grpctransport"), T "github.com/go-kit/kit/transport/grpc"); (Some (T "httptransport"), T "github.com/go-kit/kit/transport/http"); (Some (T "natstransport"), T "github.com/go-kit/kit/transport/nats")]
    [T "GRPCServerOptions"; T "HTTPServerOptions"; T "NATSSubscriberOptions"]
    [(T "grpctransport", [T "Server"; T "ServerOption"]); (T "httptransport", [T "Server"; T "ServerOption"]); (T "natstransport", [T "Subscriber"; T "SubscriberOption"])] []).
  Proof.
    eexists; eexists; split; [unfold server_wrapper_pieces; match goal with |- adds (10%N :: concat (?a :: ?r)) ?l => change (adds (concat ((10%N :: a) :: r)) l) end; adds_with loop [svc] [td_pb_import d; td_import d]|].
    split; [walk|]. split; [eexists; reflexivity|]. split; [reflexivity|]. split; [reflexivity|]. split; [table|calls_are; tidy].
  Qed.
  Lemma service_wrapper_reads : filed (concat (service_wrapper_pieces d)) (file_says (T "service") [(Some (T "pb"), td_pb_import d)] [T "WrapEndpoints"; T "WrapService"]
    [(T "pb", [T "Endpoints"; T "Endpoints"; svc ++ T "Server"; svc ++ T "Server"])] []).
  Proof.
    eexists; eexists; split; [unfold service_wrapper_pieces; match goal with |- adds (10%N :: concat (?a :: ?r)) ?l => change (adds (concat ((10%N :: a) :: r)) l) end; adds_with loop [svc] [td_pb_import d; td_import d]|].
    split; [walk|]. split; [eexists; reflexivity|]. split; [reflexivity|]. split; [reflexivity|]. split; [table|calls_are; tidy].
  Qed.
  Lemma cmd_server_reads : filed (concat (cmd_server_pieces d)) (file_says (T "main") [(None, T "flag"); (None, T "fmt"); (None, T "os"); (None, T "strings"); (None, td_import d ++ T "/server")] [T "config"; T "init"; T "main"]
    [(T "server", [T "Config"; T "Run"]); (T "flag", [T "StringVar"; T "StringVar"; T "StringVar"; T "StringVar"; T "BoolVar"; T "Parse"]); (T "fmt", [T "Sprintf"; T "Println"]);
     (T "os", repeat (T "Getenv") 6); (T "strings", [T "ToLower"]);
     (T "config", [T "DebugAddr"; T "HTTPAddr"; T "GRPCAddr"; T "NATSAddr"; T "Debug"; T "Debug"; T "DebugAddr"; T "HTTPAddr"; T "HTTPAddr"; T "GRPCAddr"; T "NATSAddr"; T "HTTPAddr"; T "GRPCAddr"; T "NATSAddr"])] []).
  Proof.
    eexists; eexists; split; [unfold cmd_server_pieces; match goal with |- adds (10%N :: concat (?a :: ?r)) ?l => change (adds (concat ((10%N :: a) :: r)) l) end; adds_with loop [svc] [td_pb_import d; td_import d]|].
    split; [walk|]. split; [eexists; reflexivity|]. split; [reflexivity|]. split; [reflexivity|]. split; [table|calls_are; tidy].
  Qed.
  Lemma cmd_server_funs : filed (concat (cmd_server_pieces d)) (fun ds => In (plain init_fun) ds /\ In (plain main_fun) ds /\ In [w "var"; w "config"; w "server"; o "."; w "Config"] ds).
  Proof.
    eexists; eexists; split; [unfold cmd_server_pieces; match goal with |- adds (10%N :: concat (?a :: ?r)) ?l => change (adds (concat ((10%N :: a) :: r)) l) end; adds_with loop [svc] [td_pb_import d; td_import d]|].
    split; [walk|]. cbn [map]. split; [right; right; right; left; reflexivity|]. split; [right; right; right; right; left; reflexivity|right; right; left; reflexivity].
  Qed.
  Lemma interrupt_fun : filed (concat (server_interrupt_pieces d)) (fun ds => In (plain (fun_decl (T "Interrupt") interrupt_body)) ds).
  Proof.
    eexists; eexists; split; [unfold server_interrupt_pieces; match goal with |- adds (10%N :: concat (?a :: ?r)) ?l => change (adds (concat ((10%N :: a) :: r)) l) end; adds_with loop [svc] [td_pb_import d; td_import d]|].
    split; [walk|]. cbn [map]. right. right. left. reflexivity.
  Qed.
End Others.
