(** Specification of C78: what the generated transport file (baron/NAME.pb.baron.go) has to say, as Go source text (before go/format), in terms of names only. *)
From Coq Require Import String.
From Verif Require Import GoStr.
(** [x] is a part of [s] *)
Definition holds (s x : str) : Prop := exists a b, s = a ++ x ++ b.
Definition each {A} (f : A -> str) (l : list A) : str := concat (map f l).
Definition nonempty {A} (l : list A) : bool := match l with [] => false | _ => true end.
(** One route of the server: requests with this verb and path are decoded by the decoder of the label, and given to the endpoint of the method. *)
Definition route_stmt (method verb path label : str) : str := concat [T "
			m.Methods("""; verb; T """).Path("""; path; T """).Handler(httptransport.NewServer(
				endpoints."; method; T "Endpoint,
				DecodeHTTP"; label; T "Request,
				EncodeHTTPGenericResponse,
				serverOptions...,
			))"].
(** The function with all the routes, grouped by method. *)
Definition handler_func (routes : list (list str)) : str := concat [T "func MakeHTTPHandler(endpoints Endpoints, options ...httptransport.ServerOption) http.Handler {"; if nonempty routes then T "
		serverOptions := []httptransport.ServerOption{
			httptransport.ServerBefore(HTTPHeadersToContext),
			httptransport.ServerErrorEncoder(errorEncoder),
			httptransport.ServerAfter(httptransport.SetContentType(contentType)),
		}
		serverOptions = append(serverOptions, options...)" else []; T "
	m := mux.NewRouter()

	"; each (fun l => T "
		" ++ concat l) routes; T "
	return m
}
"].
(** A request decoder: the body, then the code of the fields, then that of the oneofs. *)
Definition decoder_func (label request : str) (path_and_query oneofs : str) : str := concat [T "	func DecodeHTTP"; label; T "Request(_ context.Context, r *http.Request) (interface{}, error) {
		defer r.Body.Close()
		var req "; request; T "
		buf, err := ioutil.ReadAll(r.Body)
		if err != nil {
			return nil, errors.Wrapf(err, ""cannot read body of http request"")
		}
		if len(buf) > 0 {
			unmarshaller := protojson.UnmarshalOptions{
				AllowPartial:   true,
				DiscardUnknown: true,
			}
			if err = unmarshaller.Unmarshal(buf, &req); err != nil {
				const size = 8196
				if len(buf) > size {
					buf = buf[:size]
				}
				return nil, httpError{errors.Wrapf(err, ""request body '%s': cannot parse non-json request body"", buf),
					http.StatusBadRequest,
					nil,
				}
			}
		}

		pathParams := mux.Vars(r)
		_ = pathParams

		queryParams := r.URL.Query()
		_ = queryParams

		"; path_and_query; T "

		"; oneofs; T "
		return &req, err
	}"].
(** The place of a field in it, which may be empty. *)
Definition decoder_slot (code : option str) : str := concat [T "
			"; match code with Some c => concat [T "
				"; c; T "
			"] | None => [] end; T "
		"].
(** An endpoint of the HTTP client. *)
Definition client_endpoint (method label verb base : str) : str := concat [T "
		var "; label; T "Endpoint endpoint.Endpoint
				{
					"; label; T "Endpoint = httptransport.NewClient(
						"""; verb; T """,
						copyURL(u, """; base; T """),
						EncodeHTTP"; label; T "Request,
						DecodeHTTP"; method; T "Response,
						options...,
					).Endpoint()
				}"].
(** Its place in the client. *)
Definition client_field (method label : str) : str := concat [method; T "Endpoint:    "; label; T "Endpoint,
			"].
(** The HTTP client. *)
Definition client_func (service : str) (endpoints : str) (fields : str) (none : bool) : str := concat [T "func NewHTTPClient(instance string, options ...httptransport.ClientOption) ("; service; T "Server, error) {
	if !strings.HasPrefix(instance, ""http"") {
		instance = ""http://"" + instance
	}
	u, err := url.Parse(instance)
	if err != nil {
		return nil, err
	}
	_ = u

	"; if none then T "panic(""No HTTP Endpoints, this client will not work, define bindings in your proto definition"")" else []; T "

	"; endpoints; T "

	return Endpoints{
	"; fields; T "
	}, nil
}
"].
(** The decoder of the answers to a method. *)
Definition response_func (method response : str) : str := concat [T "	func DecodeHTTP"; method; T "Response(_ context.Context, r *http.Response) (interface{}, error) {
		defer r.Body.Close()
		buf, err := ioutil.ReadAll(r.Body)
		if err == io.EOF {
			return nil, errors.New(""response http body empty"")
		}
		if err != nil {
			return nil, errors.Wrap(err, ""cannot read http body"")
		}

		if r.StatusCode != http.StatusOK {
			return nil, errors.Wrapf(errorDecoder(buf), ""status code: '%d'"", r.StatusCode)
		}

		var resp "; response; T "
		unmarshaller := protojson.UnmarshalOptions{
			AllowPartial:   true,
			DiscardUnknown: true,
		}
		if err = unmarshaller.Unmarshal(buf, &resp); err != nil {
			return nil, errorDecoder(buf)
		}

		return &resp, nil
	}
"].
(** A request encoder of the client: the path, the query, and for a verb other than get the body. *)
Definition encoder_func (label request : str) (sections : list str) (query : str) (body : option str) : str := concat [T "	func EncodeHTTP"; label; T "Request(_ context.Context, r *http.Request, request interface{}) error {
		strval := """"
		_ = strval
		req := request.(*"; request; T ")
		_ = req

		r.Header.Set(""transport"", ""HTTPJSON"")
		r.Header.Set(""request-url"", r.URL.Path)

		// Set the path parameters
		path := strings.Join([]string{"; each (fun x => concat [T "
			"; x; T ","]) sections; T "
		}, ""/"")
		u, err := url.Parse(path)
		if err != nil {
			return errors.Wrapf(err, ""couldn't unmarshal path %q"", path)
		}
		r.URL.RawPath = u.RawPath
		r.URL.Path = u.Path

		// Set the query parameters
		values := r.URL.Query()
		var tmp []byte
		_ = tmp"; query; T "

		r.URL.RawQuery = values.Encode()"; match body with Some b => concat [T "
		// Set the body parameters
		toRet := request.(*"; request; T ")"; b; T "
		marshaler := protojson.MarshalOptions{
			AllowPartial:    true,
			UseProtoNames:   true,
			UseEnumNumbers:  true,
			EmitUnpopulated: true,
		}
		data, err := marshaler.Marshal(req)
		if err != nil {
			return errors.Wrapf(err, ""couldn't encode body as json %v"", toRet)
		}
		r.Body = ioutil.NopCloser(bytes.NewBuffer(data))"] | None => [] end; T "
		return nil
	}"].
(** How the client sets the query parameters of a field: a list of strings (as []string) *)
Definition query_strings (query camel : str) : str := concat [T "
				
					values["""; query; T """] = req."; camel; T "
				"].
(** a list of scalars *)
Definition query_list (query camel : str) : str := concat [T "
				
					for _, v := range req."; camel; T " {
						values.Add("""; query; T """, fmt.Sprint(v))
					}
				"].
(** a message or an enum *)
Definition query_json (query camel : str) : str := concat [T "
				
					tmp, err = json.Marshal(req."; camel; T ")
					if err != nil {
						return errors.Wrap(err, ""failed to marshal req."; camel; T """)
					}
					strval = string(tmp)
					values.Add("""; query; T """, strval)
				"].
(** an optional scalar *)
Definition query_pointer (query camel : str) : str := concat [T "
				
					
					if req."; camel; T " !=nil {
						values.Add("""; query; T """, fmt.Sprint(*req."; camel; T "))
					}
					"].
(** a scalar *)
Definition query_scalar (query camel : str) : str := concat [T "
				
					
					values.Add("""; query; T """, fmt.Sprint(req."; camel; T "))
					"].
(** an option of a oneof that is a message or an enum *)
Definition oneof_json (name zero query : str) : str := concat [T "
					
						if val := req.Get"; name; T "(); val != "; zero; T " {
							tmp, err = json.Marshal(req.Get"; name; T "())
							if err != nil {
								return errors.Wrap(err, ""failed to marshal req.Get"; name; T "()"")
							}
							strval = string(tmp)
							values.Add("""; query; T """, strval)
						}
					"].
(** and one that is a scalar *)
Definition oneof_scalar (name zero query : str) : str := concat [T "
					
						if val := req.Get"; name; T "(); val != "; zero; T " {
							values.Add("""; query; T """, fmt.Sprint(val))
						}"].
(** What is said of a field in the body. *)
Definition body_field (camel : str) : str := concat [T "
				
				toRet."; camel; T " = req."; camel; T "
			"].
(** The struct of the endpoints *)
Definition endpoint_field (method : str) : str := concat [T "
	"; method; T "Endpoint    endpoint.Endpoint
"].
(** with a field for each method. *)
Definition endpoints_struct (service : str) (methods : list str) : str := concat [T "type Endpoints struct {
	Unimplemented"; service; T "Server
"; each endpoint_field methods; T "
}
"].
(** As a client: the method calls its own endpoint. *)
Definition endpoint_method (method request response : str) : str := concat [T "
func (e Endpoints) "; method; T "(ctx context.Context, in *"; request; T ") (*"; response; T ", error) {
	response, err := e."; method; T "Endpoint(ctx, in)
	if err != nil {
		return nil, err
	}
	return response.(*"; response; T "), nil
}
"].
(** As a server: the endpoint calls its own method. *)
Definition make_endpoint (service method request : str) : str := concat [T "
func Make"; method; T "Endpoint(s "; service; T "Server) endpoint.Endpoint {
	return func(ctx context.Context, request interface{}) (response interface{}, err error) {
		req := request.(*"; request; T ")
		v, err := s."; method; T "(ctx, req)
		if err != nil {
			return nil, err
		}
		return v, nil
	}
}"].
(** The two functions that wrap the endpoints. *)
Definition wrap_func (head : str) (call : str -> str) (methods : list str) : str := concat [T "func (e *Endpoints) "; head; T ", excluded ...string) {
	included := map[string]struct{}{"; each (fun m => concat [T "
			"""; m; T """: {},"]) methods; T "
	}

	for _, ex := range excluded {
		if _, ok := included[ex]; !ok {
			panic(fmt.Sprintf(""Excluded endpoint '%s' does not exist; see middlewares/endpoints.go"", ex))
		}
		delete(included, ex)
	}

	for inc := range included {"; each (fun m => concat [T "
			if inc == """; m; T """ {
				e."; m; T "Endpoint = middleware("; call m; T "e."; m; T "Endpoint)
			}"]) methods; T "
	}
}
"].
(** NATS: the server subscribes each method to its subject, *)
Definition nats_subscription (service method lower : str) : str := concat [T "
		"; lower; T "Sub, err := conn.QueueSubscribe("""; service; T "."; method; T """, """; service; T """, srv."; method; T ".ServeMsg(conn))
		if err != nil {
			return err
		}
		_ = "; lower; T "Sub
	"].
(** with the endpoint of that method; *)
Definition nats_subscriber (method : str) : str := concat [T "
		"; method; T ": natstransport.NewSubscriber(
			endpoints."; method; T "Endpoint,
			DecodeNATS"; method; T "Request,
			// EncodeNATS"; method; T "Response,
			EncodeNATSGenericResponse,
			serverOptions...,
		),"].
(** the client publishes to it. *)
Definition nats_publisher (service method lower : str) : str := concat [T "
			var "; lower; T "Endpoint endpoint.Endpoint
			{
				"; lower; T "Endpoint = natstransport.NewPublisher(
					conn,
					"""; service; T "."; method; T """,
					EncodeNATSGenericRequest,
					DecodeNATS"; method; T "Response,
					options...,
				).Endpoint()
			}
		"].
(** The endpoints of the gRPC and the NATS client. *)
Definition rpc_field (method lower : str) : str := concat [method; T "Endpoint:    "; lower; T "Endpoint,
	"].
(** gRPC: the handler of a method, *)
Definition grpc_handler (method lower : str) : str := concat [T "
		"; lower; T ": grpctransport.NewServer(
			endpoints."; method; T "Endpoint,
			DecodeGRPC"; method; T "Request,
			EncodeGRPC"; method; T "Response,
			serverOptions...,
		),"].
(** the method of the server that calls it, *)
Definition grpc_method (go lower request response : str) : str := concat [T "
func (s *grpcServer) "; go; T "(ctx context.Context, req *"; request; T ") (*"; response; T ", error) {
	_, rep, err := s."; lower; T ".ServeGRPC(ctx, req)
	if err != nil {
		return nil, err
	}
	return rep.(*"; response; T "), nil
}
"].
(** and the client. *)
Definition grpc_client (package service method lower response : str) : str := concat [T "
	var "; lower; T "Endpoint endpoint.Endpoint
	{
		"; lower; T "Endpoint = grpctransport.NewClient(
			conn,
			"""; package; T "."; service; T """,
			"""; method; T """,
			EncodeGRPC"; method; T "Request,
			DecodeGRPC"; method; T "Response,
			"; response; T "{},
			options...,
		).Endpoint()
	}
			"].
(** The import block, line by line: the name by which a package is known in the file, whether that name is written, and its path. *)
Inductive import_line := Blank (white : str) | Import (name : str) (written : bool) (path : str).
Definition import_text (l : import_line) : str := T "
" ++ match l with
  | Blank w => w
  | Import n written p => T "	" ++ (if written then n ++ T " " else []) ++ T """" ++ p ++ T """"
  end.
Definition import_name (l : import_line) : list str := match l with Blank _ => [] | Import n _ _ => [n] end.
Definition import_lines (grpc nats : bool) : list import_line :=
  [Import (T "bytes") false (T "bytes"); Import (T "context") false (T "context"); Import (T "json") false (T "encoding/json"); Import (T "fmt") false (T "fmt");
   Import (T "io") false (T "io"); Import (T "ioutil") false (T "io/ioutil"); Import (T "http") false (T "net/http"); Import (T "url") false (T "net/url");
   Import (T "strconv") false (T "strconv"); Import (T "strings") false (T "strings"); Blank [];
   Import (T "endpoint") false (T "github.com/go-kit/kit/endpoint");
   Import (T "anypb") true (T "google.golang.org/protobuf/types/known/anypb"); Import (T "durationpb") true (T "google.golang.org/protobuf/types/known/durationpb");
   Import (T "emptypb") true (T "google.golang.org/protobuf/types/known/emptypb"); Import (T "fieldmaskpb") true (T "google.golang.org/protobuf/types/known/fieldmaskpb");
   Import (T "structpb") true (T "google.golang.org/protobuf/types/known/structpb"); Import (T "timestamppb") true (T "google.golang.org/protobuf/types/known/timestamppb");
   Import (T "wrapperspb") true (T "google.golang.org/protobuf/types/known/wrapperspb"); Blank [];
   Import (T "mux") false (T "github.com/gorilla/mux"); Import (T "errors") false (T "github.com/pkg/errors");
   Import (T "protojson") false (T "google.golang.org/protobuf/encoding/protojson"); Import (T "proto") false (T "google.golang.org/protobuf/proto")] ++
  (if nats then [Import (T "nats") false (T "github.com/nats-io/nats.go")] else []) ++
  (if grpc then [Import (T "grpc") false (T "google.golang.org/grpc"); Import (T "metadata") false (T "google.golang.org/grpc/metadata")] else []) ++
  [Blank (T "	")] ++
  (if grpc then [Import (T "grpctransport") true (T "github.com/go-kit/kit/transport/grpc")] else []) ++
  [Import (T "httptransport") true (T "github.com/go-kit/kit/transport/http")] ++
  (if nats then [Import (T "natstransport") true (T "github.com/go-kit/kit/transport/nats")] else []).
