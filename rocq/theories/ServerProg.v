(** The generated server as programs of GoServer.v: what server/server.go.tmpl (Run), server/interrupt.go.tmpl and cmd/NAME/main.go.tmpl say.  That their texts are these programs is proved (PropServerText.v). *)
From Coq Require Import String.
From Verif Require Import GoStr Strs GoLex GoDecls SvcTypes Render TextSpec TextFile GoServer.
From Verif Require Server.

(** cmd/NAME/main.go.tmpl:14-40, init *)
Definition settings : list setting :=
  [StringFlag (T "DebugAddr") (T "debug.addr") (T ":5060") (T "Debug and metrics listen address");
   StringFlag (T "HTTPAddr") (T "http.addr") [] (T "HTTP listen address");
   StringFlag (T "GRPCAddr") (T "grpc.addr") [] (T "gRPC (HTTP) listen address");
   StringFlag (T "NATSAddr") (T "nats.addr") [] (T "NATS listen address");
   BoolFlag (T "Debug") (T "debug") false (T "Debug mode");
   IfEnv (T "debug") (T "DEBUG") (T "Debug") IsTrue;
   IfEnv (T "addr") (T "DEBUG_ADDR") (T "DebugAddr") Copy;
   IfEnv (T "port") (T "PORT") (T "HTTPAddr") Port;
   IfEnv (T "addr") (T "HTTP_ADDR") (T "HTTPAddr") Copy;
   IfEnv (T "addr") (T "GRPC_ADDR") (T "GRPCAddr") Copy;
   IfEnv (T "addr") (T "NATS_ADDR") (T "NATSAddr") Copy].
Definition init_fun : list token := [w "func"; w "init"; o "("; o ")"; o "{"] ++ flat_map setting_toks settings ++ [o "}"].
(** cmd/NAME/main.go.tmpl:42-50, main: parse the flags, warn, run *)
Definition main_fun : list token :=
  [w "func"; w "main"; o "("; o ")"; o "{"] ++ call_of "flag" "Parse" [] ++ [Semi]
  ++ [w "if"; w "config"; o "."; w "HTTPAddr"; o "=="; Str []; o "&&"; w "config"; o "."; w "GRPCAddr"; o "=="; Str []; o "&&"; w "config"; o "."; w "NATSAddr"; o "=="; Str []; o "{"]
  ++ call_of "fmt" "Println" [Str (T "no server to run, serve addr must be set one of [http.addr|grpc.addr|nats.addr]")] ++ [Semi; o "}"; Semi]
  ++ call_of "server" "Run" [w "config"] ++ [Semi; o "}"].

(** server/interrupt.go.tmpl:12-20 *)
Definition interrupt_body : list gstmt :=
  [Do ([w "c"; o ":="; w "make"; o "("; w "chan"; w "os"; o "."; w "Signal"; o ","; Num (T "1"); o ")"]);
   Do (call_of "signal" "Notify" [w "c"; o ","; w "syscall"; o "."; w "SIGINT"; o ","; w "syscall"; o "."; w "SIGTERM"]);
   Do ([w "terminateError"; o ":="] ++ call_of "fmt" "Errorf" [Str (T "%s"); o ","; o "<-"; w "c"]);
   Report [w "terminateError"]].
(** server/server.go.tmpl:50-119: the goroutines that Run starts *)
Definition log_of (kind field : string) : gstmt := Do (call_of "log" "Println" [Str (T "transport"); o ","; Str (T kind); o ","; Str (T "addr"); o ","; w "cfg"; o "."; w field]).
Definition handle_of (path f : string) : gstmt := Do (call_of "m" "Handle" ([Str (T path); o ","] ++ call_of "http" "HandlerFunc" [w "pprof"; o "."; w f])).
Definition listen_of (field h : string) : gstmt := Report (call_of "http" "ListenAndServe" [w "cfg"; o "."; w field; o ","; w h]).
Definition debug_body : list gstmt :=
  [log_of "debug" "DebugAddr"; Do ([w "m"; o ":="] ++ call_of "http" "NewServeMux" []);
   handle_of "/debug/pprof/" "Index"; handle_of "/debug/pprof/cmdline" "Cmdline"; handle_of "/debug/pprof/profile" "Profile"; handle_of "/debug/pprof/symbol" "Symbol"; handle_of "/debug/pprof/trace" "Trace";
   listen_of "DebugAddr" "m"].
Definition make_of (x f g : string) : gstmt := Do ([w x; o ":="] ++ call_of "pb" f ([w "endpoints"; o ","; w g; o "("; o ")"; o "..."])).
Definition http_body : list gstmt := [log_of "HTTP" "HTTPAddr"; make_of "h" "MakeHTTPHandler" "HTTPServerOptions"; listen_of "HTTPAddr" "h"].
Definition grpc_body (svc : str) : list gstmt :=
  [log_of "gRPC" "GRPCAddr"; Try ([w "ln"; o ","; w "err"; o ":="] ++ call_of "net" "Listen" [Str (T "tcp"); o ","; w "cfg"; o "."; w "GRPCAddr"]);
   make_of "srv" "MakeGRPCServer" "GRPCServerOptions"; Do ([w "s"; o ":="] ++ call_of "grpc" "NewServer" []);
   Do [w "pb"; o "."; Word (T "Register" ++ svc ++ T "Server"); o "("; w "s"; o ","; w "srv"; o ")"];
   Report (call_of "s" "Serve" [w "ln"])].
Definition nats_body : list gstmt :=
  [log_of "NATS" "NATSAddr"; Try ([w "conn"; o ","; w "err"; o ":="] ++ call_of "nats" "Connect" [w "cfg"; o "."; w "NATSAddr"]);
   Do ([w "closeConn"; o ":="; w "func"; o "("; w "c"; o "*"; w "nats"; o "."; w "Conn"; o ")"; o "{"] ++ call_of "c" "Close" [] ++ [Semi; o "}"]);
   Do (call_of "runtime" "SetFinalizer" [w "conn"; o ","; w "closeConn"]);
   make_of "srv" "MakeNATSServer" "NATSSubscriberOptions";
   Try ([w "err"; o "="] ++ call_of "pb" "ServeNATS" [w "conn"; o ","; w "srv"])].
Definition starts (http grpc nats : bool) (svc : str) : list (start Server.gid) :=
  [mkStart _ Server.GInterrupt Always (Some (T "Interrupt")) interrupt_body; mkStart _ Server.GDebug (IfTrue (T "Debug")) None debug_body]
  ++ (if http then [mkStart _ Server.GHttp (IfSet (T "HTTPAddr")) None http_body] else [])
  ++ (if grpc then [mkStart _ Server.GGrpc (IfSet (T "GRPCAddr")) None (grpc_body svc)] else [])
  ++ (if nats then [mkStart _ Server.GNats (IfSet (T "NATSAddr")) None nats_body] else []).
(** server/server.go.tmpl:42-123, Run: endpoints and the channel; the start statements; then the log of the first report *)
Definition run_fun (l : list (start Server.gid)) : list token :=
  [w "func"; w "Run"; o "("; w "cfg"; w "Config"; o ")"; o "{"; w "endpoints"; o ":="; w "Endpoints"; o "("; o ")"; Semi; w "errc"; o ":="; w "make"; o "("; w "chan"; w "error"; o ")"; Semi]
  ++ flat_map (start_toks _) l ++ call_of "log" "Println" [Str (T "exit"); o ","; o "<-"; w "errc"] ++ [Semi; o "}"].
