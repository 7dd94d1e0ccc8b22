(** The texts of the generated files other than baron/NAME.pb.baron.go, in full: what executing their templates gives.  Made from the templates; a means of proof only. *)
From Coq Require Import String Lia.
From Verif Require Import GoStr GoStrProofs GoMap Strs SvcTypes HttpTransport Handler Generator Template TemplateProofs Assets Render TextSpec.
From Verif Require Import TextFile.

(** service/service.go.tmpl *)
Definition service_pieces (d : tdata) : list str := [T "package service

import (
	""context""

	pb """; td_pb_import d; T """
)

func NewService() *"; to_lower (sv_name (td_service d)); T "Service {
	return &"; to_lower (sv_name (td_service d)); T "Service{}
}

type "; to_lower (sv_name (td_service d)); T "Service struct {
	pb.Unimplemented"; sv_name (td_service d); T "Server
}

"; concat [T "
	"; each (fun i => concat [T "
		func (s *"; to_lower (sv_name (td_service d)); T "Service) "; sm_name i; T "(ctx context.Context, in *pb."; go_camel_case (ft_name (sm_req i)); T ") (*pb."; go_camel_case (ft_name (sm_resp i)); T ", error){
			var resp pb."; go_camel_case (ft_name (sm_resp i)); T "
			return &resp, nil
		}
	"]) (sv_methods (td_service d))]; T "
"].
(** service/service_methods.go.tmpl, for these methods *)
Definition service_methods_pieces (svc : str) (ms : list smethod) : list str := [concat [T "
	"; each (fun i => concat [T "
		func (s *"; to_lower svc; T "Service) "; sm_name i; T "(ctx context.Context, in *pb."; go_camel_case (ft_name (sm_req i)); T ") (*pb."; go_camel_case (ft_name (sm_resp i)); T ", error){
			var resp pb."; go_camel_case (ft_name (sm_resp i)); T "
			return &resp, nil
		}
	"]) (ms)]; T "
"].
(** service/wrapper.go.tmpl *)
Definition service_wrapper_pieces (d : tdata) : list str := [T "package service

import (
	pb """; td_pb_import d; T """
)

// WrapEndpoints accepts the service's entire collection of endpoints, so that a
// set of middlewares can be wrapped around every middleware (e.g., access
// logging and instrumentation), and others wrapped selectively around some
// endpoints and not others (e.g., endpoints requiring authenticated access).
// Note that the final middleware wrapped will be the outermost middleware
// (i.e. applied first)
func WrapEndpoints(in pb.Endpoints) pb.Endpoints {

	// Pass a middleware you want applied to every endpoint.
	// optionally pass in endpoints by name that you want to be excluded
	// e.g.
	// in.WrapAllExcept(authMiddleware, ""Status"", ""Ping"")

	// Pass in a svc.LabeledMiddleware you want applied to every endpoint.
	// These middlewares get passed the endpoints name as their first argument when applied.
	// This can be used to write generic metric gathering middlewares that can
	// report the endpoint name for free.
	// github.com/teamlint/baron/_example/middlewares/labeledmiddlewares.go for examples.
	// in.WrapAllLabeledExcept(errorCounter(statsdCounter), ""Status"", ""Ping"")

	// How to apply a middleware to a single endpoint.
	// in.ExampleEndpoint = authMiddleware(in.ExampleEndpoint)

	return in
}

func WrapService(in pb."; sv_name (td_service d); T "Server) pb."; sv_name (td_service d); T "Server {
	return in
}
"].
(** server/server.go.tmpl *)
Definition server_pieces (d : tdata) : list str := [T "// Code generated by baron. DO NOT EDIT.
// Rerunning baron will overwrite this file.
// Version: "; td_version d; T "
// Version Date: "; td_date d; T "

package server

import (
	""log""
	""net""
	""net/http""
	""net/http/pprof""
	""runtime""

	"; (if with_nats d then concat [T "
	""github.com/nats-io/nats.go""
	"] else []); T "
	"; (if with_grpc d then concat [T "
	""google.golang.org/grpc""
	"] else []); T "

	pb """; td_pb_import d; T """
	"""; td_import d; T "/service""
)

var (
	_ runtime.Error
	_ net.Error
)

// Config contains the required fields for running a server
type Config struct {
	HTTPAddr string
	DebugAddr string
	GRPCAddr string
	NATSAddr string
	Debug bool
}

// Run starts a new http server, gRPC server, and a debug server with the
// passed config and logger
func Run(cfg Config) {
	// Application domain
	endpoints := Endpoints()

	// Port domain
	errc := make(chan error)

	// Server Interrupt 
	go Interrupt(errc)

	// Debug listener
	if cfg.Debug {
		go func() {
			log.Println(""transport"", ""debug"", ""addr"", cfg.DebugAddr)

			m := http.NewServeMux()
			m.Handle(""/debug/pprof/"", http.HandlerFunc(pprof.Index))
			m.Handle(""/debug/pprof/cmdline"", http.HandlerFunc(pprof.Cmdline))
			m.Handle(""/debug/pprof/profile"", http.HandlerFunc(pprof.Profile))
			m.Handle(""/debug/pprof/symbol"", http.HandlerFunc(pprof.Symbol))
			m.Handle(""/debug/pprof/trace"", http.HandlerFunc(pprof.Trace))

			errc <- http.ListenAndServe(cfg.DebugAddr, m)
		}()
	}
	"; (if nonempty (td_helper d) then concat [T "
	// HTTP transport
	if cfg.HTTPAddr != """" {
		go func() {
			log.Println(""transport"", ""HTTP"", ""addr"", cfg.HTTPAddr)
			h := pb.MakeHTTPHandler(endpoints, HTTPServerOptions()...)
			errc <- http.ListenAndServe(cfg.HTTPAddr, h)
		}()
	}
	"] else []); T "
	"; (if with_grpc d then concat [T "
	// gRPC transport
	if cfg.GRPCAddr != """" {
		go func() {
			log.Println(""transport"", ""gRPC"",""addr"", cfg.GRPCAddr)
			ln, err := net.Listen(""tcp"", cfg.GRPCAddr)
			if err != nil {
				errc <- err
				return
			}

			srv := pb.MakeGRPCServer(endpoints, GRPCServerOptions()...)
			s := grpc.NewServer()
			pb.Register"; sv_name (td_service d); T "Server(s, srv)

			errc <- s.Serve(ln)
		}()
	}
	"] else []); T "
	"; (if with_nats d then concat [T "
	// NATS transport
	if cfg.NATSAddr != """" {
		go func() {
			log.Println(""transport"", ""NATS"",""addr"", cfg.NATSAddr)
			conn, err := nats.Connect(cfg.NATSAddr)
			if err != nil {
				errc <- err
				return
			}
			closeConn := func(c *nats.Conn) {
				c.Close()
			}
			runtime.SetFinalizer(conn, closeConn)

			srv := pb.MakeNATSServer(endpoints, NATSSubscriberOptions()...)
			err = pb.ServeNATS(conn, srv)
			if err != nil {
				errc <- err
				return
			}
		}()
	}
	"] else []); T "

	// Exit
	log.Println(""exit"", <-errc)
}

func NewEndpoints(svc pb."; sv_name (td_service d); T "Server) pb.Endpoints {
	// Business domain
	svc = service.WrapService(svc)
	// Endpoint domain
	var (
	"; each (fun i => concat [to_lower (sm_name i); T "Endpoint = pb.Make"; sm_name i; T "Endpoint(svc)
	"]) (sv_methods (td_service d)); T "
	)

	endpoints := pb.Endpoints{
	"; each (fun i => concat [sm_name i; T "Endpoint:    "; to_lower (sm_name i); T "Endpoint,
	"]) (sv_methods (td_service d)); T "
	}
	// Wrap selected Endpoints with middlewares
	endpoints = service.WrapEndpoints(endpoints)

	return endpoints
}
"].
(** server/endpoints.go.tmpl *)
Definition server_endpoints_pieces (d : tdata) : list str := [T "package server

import (
	pb """; td_pb_import d; T """
	"""; td_import d; T "/service""
)

// Endpoints application domain
func Endpoints() pb.Endpoints {
	svc := service.NewService()
	endpoints := NewEndpoints(svc)

	return endpoints
}

"].
(** server/interrupt.go.tmpl *)
Definition server_interrupt_pieces (d : tdata) : list str := [T "package server

import (
	""fmt""
	""os""
	""os/signal""
	""syscall""
)

// Interrupt server interrupt
func Interrupt(errc chan<- error) {
	c := make(chan os.Signal, 1)
	signal.Notify(c, syscall.SIGINT, syscall.SIGTERM)
	terminateError := fmt.Errorf(""%s"", <-c)

	// Place whatever shutdown handling you want here

	errc <- terminateError
}
"].
(** server/wrapper.go.tmpl *)
Definition server_wrapper_pieces (d : tdata) : list str := [T "package server

import (
	grpctransport ""github.com/go-kit/kit/transport/grpc""
	httptransport ""github.com/go-kit/kit/transport/http""
	natstransport ""github.com/go-kit/kit/transport/nats""
)

var (
	_ grpctransport.Server
	_ httptransport.Server
	_ natstransport.Subscriber
)

// GRPCServerOptions GRPC 服务传输选项
func GRPCServerOptions() []grpctransport.ServerOption {
	// default
	// serverOptions := []grpctransport.ServerOption{
	// 	grpctransport.ServerBefore(GRPCMetadataToContext),
	// }
	return nil
}

// HTTPServerOptions GRPC 服务传输选项
func HTTPServerOptions() []httptransport.ServerOption {
	// default
	// serverOptions := []httptransport.ServerOption{
	// 	httptransport.ServerBefore(pb.HTTPHeadersToContext),
	// 	httptransport.ServerErrorEncoder(errorEncoder),
	// 	httptransport.ServerAfter(httptransport.SetContentType(contentType)),
	// }
	return nil
}

// NATSSubscriberOptions NATS 订阅器选项
func NATSSubscriberOptions() []natstransport.SubscriberOption {
	// default none
	// options := []natstransport.SubscriberOption{}
	return nil
}
"].
(** cmd/NAME/main.go.tmpl *)
Definition cmd_server_pieces (d : tdata) : list str := [T "package main

import (
	""flag""
	""fmt""
	""os""
	""strings""

	"""; td_import d; T "/server""
)

var config server.Config

func init() {
	flag.StringVar(&config.DebugAddr, ""debug.addr"", "":5060"", ""Debug and metrics listen address"")
	flag.StringVar(&config.HTTPAddr, ""http.addr"", """", ""HTTP listen address"")
	flag.StringVar(&config.GRPCAddr, ""grpc.addr"", """", ""gRPC (HTTP) listen address"")
	flag.StringVar(&config.NATSAddr, ""nats.addr"", """", ""NATS listen address"")
	flag.BoolVar(&config.Debug, ""debug"", false, ""Debug mode"")

	// Use environment variables, if set. Flags have priority over Env vars.
	if debug := os.Getenv(""DEBUG""); debug != """" {
		config.Debug = ""true"" == strings.ToLower(debug)
	}
	if addr := os.Getenv(""DEBUG_ADDR""); addr != """" {
		config.DebugAddr = addr
	}
	if port := os.Getenv(""PORT""); port != """" {
		config.HTTPAddr = fmt.Sprintf("":%s"", port)
	}
	if addr := os.Getenv(""HTTP_ADDR""); addr != """" {
		config.HTTPAddr = addr
	}
	if addr := os.Getenv(""GRPC_ADDR""); addr != """" {
		config.GRPCAddr = addr
	}
	if addr := os.Getenv(""NATS_ADDR""); addr != """" {
		config.NATSAddr = addr
	}
}

func main() {
	// Update addresses if they have been overwritten by flags
	flag.Parse()

	if config.HTTPAddr == """" && config.GRPCAddr == """" && config.NATSAddr == """" {
		fmt.Println(""no server to run, serve addr must be set one of [http.addr|grpc.addr|nats.addr]"")		
	}
	server.Run(config)
}
"].
(** cmd/NAME-client/main.go.tmpl *)
Definition cmd_client_pieces (d : tdata) : list str := [T "package main

import (
	""context""
	""flag""
	""log""
	"; (if with_nats d then concat [T "
	""github.com/nats-io/nats.go""
	"] else []); T "

	pb """; td_pb_import d; T """
	"; (if with_grpc d then concat [T "
	""google.golang.org/grpc""
	"] else []); T "
)

var (
	grpcAddr string
	httpAddr string
	natsAddr string
)

func init() {
	flag.StringVar(&grpcAddr, ""grpc.addr"", "":5040"", ""gRPC (HTTP) listen address"")
	flag.StringVar(&httpAddr, ""http.addr"", "":5050"", ""HTTP listen address"")
	flag.StringVar(&natsAddr, ""nats.addr"", "":4222"", ""NATS listen address"")
}

func main() {
	flag.Parse()
	"; concat [T "
	"; (if with_grpc d then concat [T "
	// Baron GRPC Client
	log.Println(""[GRPC."; sv_name (td_service d); T "]"")
	pln()
	conn, err := grpc.Dial(
		grpcAddr,
		grpc.WithInsecure(),
		grpc.WithBlock(),
	)
	if err != nil {
		log.Fatal(err)
	}
	defer conn.Close()
	baronGRPCClient, err := pb.NewGRPCClient(conn)
	if err != nil {
		log.Fatal(err)
	}
	"; each (fun i => concat [T "
	// GRPC."; sv_name (td_service d); T "."; sm_name i; T "
	{
		ctx := context.Background()
		var in pb."; go_camel_case (ft_name (sm_req i)); T "
		out, err := baronGRPCClient."; go_camel_case (sm_name i); T "(ctx, &in)
		if err != nil {
			log.Fatalf(""[Baron.GRPCClient] "; sv_name (td_service d); T "."; go_camel_case (sm_name i); T " err=%v\n"", err)
		}
		log.Printf(""[Baron.GRPCClient] "; sv_name (td_service d); T "."; go_camel_case (sm_name i); T " result=%+v\n"", *out)
		pln()
	}
	"]) (sv_methods (td_service d)); T "
	"] else []); T "

	"; (if nonempty (td_helper d) then concat [T "
	// Baron HTTP Client
	log.Println(""[HTTP]["; sv_name (td_service d); T "]"")
	pln()
	"; each (fun m => concat [T "
	// HTTP."; sv_name (td_service d); T "."; hm_name m; T "
	{
		ctx := context.Background()
		var in pb."; go_camel_case (hm_req m); T "
		baronHTTPClient, err := pb.NewHTTPClient(httpAddr)
		if err != nil {
			log.Fatal(err)
		}
		out, err := baronHTTPClient."; go_camel_case (hm_name m); T "(ctx, &in)
		if err != nil {
			log.Fatalf(""[Baron.HTTPClient] "; sv_name (td_service d); T "."; go_camel_case (hm_name m); T " err=%v\n"", err)
		}
		log.Printf(""[Baron.HTTPClient] "; sv_name (td_service d); T "."; go_camel_case (hm_name m); T " result=%+v\n"", *out)
		pln()
		}
	"]) (td_helper d); T "
	"] else []); T "

	"; (if with_nats d then concat [T "
	// Baron NATS Client
	log.Println(""[NATS."; sv_name (td_service d); T "]"")
	pln()
	nc, err := nats.Connect(natsAddr)
	if err != nil {
		log.Fatal(err)
	}
	defer nc.Close()
	baronNATSClient, err := pb.NewNATSClient(nc)
	if err != nil {
		log.Fatal(err)
	}
	"; each (fun i => concat [T "
	// NATS."; sv_name (td_service d); T "."; sm_name i; T "
	{
		ctx := context.Background()
		var in pb."; go_camel_case (ft_name (sm_req i)); T "
		out, err := baronNATSClient."; go_camel_case (sm_name i); T "(ctx, &in)
		if err != nil {
			log.Fatalf(""[Baron.NATSClient] "; sv_name (td_service d); T "."; go_camel_case (sm_name i); T " err=%v\n"", err)
		}
		log.Printf(""[Baron.NATSClient] "; sv_name (td_service d); T "."; go_camel_case (sm_name i); T " result=%+v\n"", *out)
		pln()
	}
	"]) (sv_methods (td_service d)); T "
	"] else []); T "

	"]; T "
}
func pln() {
	log.Println(""---------------------------------------------------------------------------------"")
}
"].
