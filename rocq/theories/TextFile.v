(** The text of baron/NAME.pb.baron.go, in full: what executing its template gives.  Made from the template; a means of proof only. *)
From Coq Require Import String Lia.
From Verif Require Import GoStr GoStrProofs GoMap Strs SvcTypes HttpTransport Handler Generator Template TemplateProofs Assets Render TextSpec.

Section File.
  Variable format_source : str -> option str.
  Definition field_code (f : hfield) : str := match field_unmarshaler format_source f with Some s => s | None => [] end.
  Definition oneof_code (o : honeof) : str := match oneof_unmarshaler format_source o with Some s => s | None => [] end.
  Definition with_grpc (d : tdata) : bool := str_eqb (td_transport d) (T "all") || str_eqb (td_transport d) (T "grpc").
  Definition with_nats (d : tdata) : bool := str_eqb (td_transport d) (T "all") || str_eqb (td_transport d) (T "nats").
End File.
Definition p0 (format_source : str -> option str) (d : tdata) : str := T "// Code generated by baron. DO NOT EDIT.
// Rerunning baron will overwrite this file.
// Version: ".
Definition p1 (format_source : str -> option str) (d : tdata) : str := td_version d.
Definition p2 (format_source : str -> option str) (d : tdata) : str := T "
// Version Date: ".
Definition p3 (format_source : str -> option str) (d : tdata) : str := td_date d.
Definition p4 (format_source : str -> option str) (d : tdata) : str := T "

package ".
Definition p5 (format_source : str -> option str) (d : tdata) : str := td_package d.
Definition p6 (format_source : str -> option str) (d : tdata) : str := T "

// This file contains methods to make individual endpoints from services,
// request and response types to serve those endpoints, as well as encoders and
// decoders for those types, for all of our supported transport serialization
// formats.

import (
	""bytes""
	""context""
	""encoding/json""
	""fmt""
	""io""
	""io/ioutil""
	""net/http""
	""net/url""
	""strconv""
	""strings""

	""github.com/go-kit/kit/endpoint""
	anypb ""google.golang.org/protobuf/types/known/anypb""
	durationpb ""google.golang.org/protobuf/types/known/durationpb""
	emptypb ""google.golang.org/protobuf/types/known/emptypb""
	fieldmaskpb ""google.golang.org/protobuf/types/known/fieldmaskpb""
	structpb ""google.golang.org/protobuf/types/known/structpb""
	timestamppb ""google.golang.org/protobuf/types/known/timestamppb""
	wrapperspb ""google.golang.org/protobuf/types/known/wrapperspb""

	""github.com/gorilla/mux""
	""github.com/pkg/errors""
	""google.golang.org/protobuf/encoding/protojson""
	""google.golang.org/protobuf/proto""".
Definition p7 (format_source : str -> option str) (d : tdata) : str := (if with_nats d then concat [T "
	""github.com/nats-io/nats.go"""] else []).
Definition p8 (format_source : str -> option str) (d : tdata) : str := (if with_grpc d then concat [T "
	""google.golang.org/grpc""
	""google.golang.org/grpc/metadata"""] else []).
Definition p9 (format_source : str -> option str) (d : tdata) : str := T "
	".
Definition p10 (format_source : str -> option str) (d : tdata) : str := (if with_grpc d then concat [T "
	grpctransport ""github.com/go-kit/kit/transport/grpc"""] else []).
Definition p11 (format_source : str -> option str) (d : tdata) : str := T "
	httptransport ""github.com/go-kit/kit/transport/http""".
Definition p12 (format_source : str -> option str) (d : tdata) : str := (if with_nats d then concat [T "
	natstransport ""github.com/go-kit/kit/transport/nats"""] else []).
Definition p13 (format_source : str -> option str) (d : tdata) : str := T "
)


var (
	_ = fmt.Sprint
	_ = bytes.Compare
	_ = strconv.Atoi
	_ = httptransport.NewServer
	_ = ioutil.NopCloser
	_ = io.Copy
	_ = errors.Wrap
	// google.protobuf types
	_ anypb.Any
	_ durationpb.Duration
	_ emptypb.Empty
	_ structpb.Struct
	_ timestamppb.Timestamp
	_ wrapperspb.StringValue
	_ fieldmaskpb.FieldMask
)

/************************************** Endpoints ******************************************/

// In a server, it's useful for functions that need to operate on a per-endpoint
// basis. For example, you might pass an Endpoints to a function that produces
// an http.Handler, with each method (endpoint) wired up to a specific path. (It
// is probably a mistake in design to invoke the Service methods on the
// Endpoints struct in a server.)
//
// In a client, it's useful to collect individually constructed endpoints into a
// single type that implements the Service interface. For example, you might
// construct individual endpoints using transport/http.NewClient, combine them into an Endpoints, and return it to the caller as a Service.
type Endpoints struct {
	Unimplemented".
Definition p14 (format_source : str -> option str) (d : tdata) : str := sv_name (td_service d).
Definition p15 (format_source : str -> option str) (d : tdata) : str := T "Server
".
Definition p16 (format_source : str -> option str) (d : tdata) : str := each (fun i => concat [T "
	"; sm_name i; T "Endpoint    endpoint.Endpoint
"]) (sv_methods (td_service d)).
Definition p17 (format_source : str -> option str) (d : tdata) : str := T "
}

// Endpoints
".
Definition p18 (format_source : str -> option str) (d : tdata) : str := each (fun i => concat [T "
func (e Endpoints) "; sm_name i; T "(ctx context.Context, in *"; go_camel_case (ft_name (sm_req i)); T ") (*"; go_camel_case (ft_name (sm_resp i)); T ", error) {
	response, err := e."; sm_name i; T "Endpoint(ctx, in)
	if err != nil {
		return nil, err
	}
	return response.(*"; go_camel_case (ft_name (sm_resp i)); T "), nil
}
"]) (sv_methods (td_service d)).
Definition p19 (format_source : str -> option str) (d : tdata) : str := T "

// Make Endpoints
".
Definition p20 (format_source : str -> option str) (d : tdata) : str := concat [each (fun i => concat [T "
func Make"; sm_name i; T "Endpoint(s "; sv_name (td_service d); T "Server) endpoint.Endpoint {
	return func(ctx context.Context, request interface{}) (response interface{}, err error) {
		req := request.(*"; go_camel_case (ft_name (sm_req i)); T ")
		v, err := s."; sm_name i; T "(ctx, req)
		if err != nil {
			return nil, err
		}
		return v, nil
	}
}"]) (sv_methods (td_service d)); T "
"].
Definition p21 (format_source : str -> option str) (d : tdata) : str := T "

// WrapAllExcept wraps each Endpoint field of struct Endpoints with a
// go-kit/kit/endpoint.Middleware.
// Use this for applying a set of middlewares to every endpoint in the service.
// Optionally, endpoints can be passed in by name to be excluded from being wrapped.
// WrapAllExcept(middleware, ""Status"", ""Ping"")
func (e *Endpoints) WrapAllExcept(middleware endpoint.Middleware, excluded ...string) {
	included := map[string]struct{}{".
Definition p22 (format_source : str -> option str) (d : tdata) : str := each (fun i => concat [T "
			"""; sm_name i; T """: {},"]) (sv_methods (td_service d)).
Definition p23 (format_source : str -> option str) (d : tdata) : str := T "
	}

	for _, ex := range excluded {
		if _, ok := included[ex]; !ok {
			panic(fmt.Sprintf(""Excluded endpoint '%s' does not exist; see middlewares/endpoints.go"", ex))
		}
		delete(included, ex)
	}

	for inc := range included {".
Definition p24 (format_source : str -> option str) (d : tdata) : str := each (fun i => concat [T "
			if inc == """; sm_name i; T """ {
				e."; sm_name i; T "Endpoint = middleware(e."; sm_name i; T "Endpoint)
			}"]) (sv_methods (td_service d)).
Definition p25 (format_source : str -> option str) (d : tdata) : str := T "
	}
}

// LabeledMiddleware will get passed the endpoint name when passed to
// WrapAllLabeledExcept, this can be used to write a generic metrics
// middleware which can send the endpoint name to the metrics collector.
type LabeledMiddleware func(string, endpoint.Endpoint) endpoint.Endpoint

// WrapAllLabeledExcept wraps each Endpoint field of struct Endpoints with a
// LabeledMiddleware, which will receive the name of the endpoint. See
// LabeldMiddleware. See method WrapAllExept for details on excluded
// functionality.
func (e *Endpoints) WrapAllLabeledExcept(middleware func(string, endpoint.Endpoint) endpoint.Endpoint, excluded ...string) {
	included := map[string]struct{}{".
Definition p26 (format_source : str -> option str) (d : tdata) : str := each (fun i => concat [T "
			"""; sm_name i; T """: {},"]) (sv_methods (td_service d)).
Definition p27 (format_source : str -> option str) (d : tdata) : str := T "
	}

	for _, ex := range excluded {
		if _, ok := included[ex]; !ok {
			panic(fmt.Sprintf(""Excluded endpoint '%s' does not exist; see middlewares/endpoints.go"", ex))
		}
		delete(included, ex)
	}

	for inc := range included {".
Definition p28 (format_source : str -> option str) (d : tdata) : str := each (fun i => concat [T "
			if inc == """; sm_name i; T """ {
				e."; sm_name i; T "Endpoint = middleware("""; sm_name i; T """, e."; sm_name i; T "Endpoint)
			}"]) (sv_methods (td_service d)).
Definition p29 (format_source : str -> option str) (d : tdata) : str := T "
	}
}
".
Definition p30 (format_source : str -> option str) (d : tdata) : str := (if with_grpc d then concat [T "
/************************************** GRPCServer ******************************************/

// MakeGRPCServer makes a set of endpoints available as a gRPC "; sv_name (td_service d); T "Server.
func MakeGRPCServer(endpoints Endpoints, options ...grpctransport.ServerOption) "; sv_name (td_service d); T "Server {
	serverOptions := []grpctransport.ServerOption{
		grpctransport.ServerBefore(GRPCMetadataToContext),
	}
	serverOptions = append(serverOptions, options...)
	// "; to_lower (sv_name (td_service d)); T "
	return &grpcServer{
	"; each (fun i => concat [T "
		"; to_lower (sm_name i); T ": grpctransport.NewServer(
			endpoints."; sm_name i; T "Endpoint,
			DecodeGRPC"; sm_name i; T "Request,
			EncodeGRPC"; sm_name i; T "Response,
			serverOptions...,
		),"]) (sv_methods (td_service d)); T "
	}
}

// grpcServer implements the "; go_camel_case (sv_name (td_service d)); T "Server interface
type grpcServer struct {
	Unimplemented"; sv_name (td_service d); T "Server
"; each (fun i => concat [T "
	"; to_lower (sm_name i); T "   grpctransport.Handler"]) (sv_methods (td_service d)); T "
}

// Methods for grpcServer to implement "; go_camel_case (sv_name (td_service d)); T "Server interface
"; each (fun i => concat [T "
func (s *grpcServer) "; go_camel_case (sm_name i); T "(ctx context.Context, req *"; go_camel_case (ft_name (sm_req i)); T ") (*"; go_camel_case (ft_name (sm_resp i)); T ", error) {
	_, rep, err := s."; to_lower (sm_name i); T ".ServeGRPC(ctx, req)
	if err != nil {
		return nil, err
	}
	return rep.(*"; go_camel_case (ft_name (sm_resp i)); T "), nil
}
"]) (sv_methods (td_service d)); T "

// Server Decode
"; each (fun i => concat [T "
// DecodeGRPC"; sm_name i; T "Request is a transport/grpc.DecodeRequestFunc that converts a
// gRPC "; to_lower (sm_name i); T " request to a user-domain "; to_lower (sm_name i); T " request. Primarily useful in a server.
func DecodeGRPC"; sm_name i; T "Request(_ context.Context, grpcReq interface{}) (interface{}, error) {
	req := grpcReq.(*"; go_camel_case (ft_name (sm_req i)); T ")
	return req, nil
}
"]) (sv_methods (td_service d)); T "

// Server Encode
"; each (fun i => concat [T "
// EncodeGRPC"; sm_name i; T "Response is a transport/grpc.EncodeResponseFunc that converts a
// user-domain "; to_lower (sm_name i); T " response to a gRPC "; to_lower (sm_name i); T " reply. Primarily useful in a server.
func EncodeGRPC"; sm_name i; T "Response(_ context.Context, response interface{}) (interface{}, error) {
	resp := response.(*"; go_camel_case (ft_name (sm_resp i)); T ")
	return resp, nil
}
"]) (sv_methods (td_service d)); T "

// Helpers

func GRPCMetadataToContext(ctx context.Context, md metadata.MD) context.Context {
	for k, v := range md {
		if v != nil {
			// The key is added both in metadata format (k) which is all lower
			// and the http.CanonicalHeaderKey of the key so that it can be
			// accessed in either format
			ctx = context.WithValue(ctx, k, v[0])
			ctx = context.WithValue(ctx, http.CanonicalHeaderKey(k), v[0])
		}
	}

	return ctx
}

/************************************** GRPCClient ******************************************/

// NewGRPCClient returns an service backed by a gRPC client connection. It is the
// responsibility of the caller to dial, and later close, the connection.
func NewGRPCClient(conn *grpc.ClientConn, options ...grpctransport.ClientOption) ("; sv_name (td_service d); T "Server, error) {"; concat [(if nonempty (td_package d) then concat [each (fun i => concat [T "
	var "; to_lower (sm_name i); T "Endpoint endpoint.Endpoint
	{
		"; to_lower (sm_name i); T "Endpoint = grpctransport.NewClient(
			conn,
			"""; td_package d; T "."; sv_name (td_service d); T """,
			"""; sm_name i; T """,
			EncodeGRPC"; sm_name i; T "Request,
			DecodeGRPC"; sm_name i; T "Response,
			"; go_camel_case (ft_name (sm_resp i)); T "{},
			options...,
		).Endpoint()
	}
			"]) (sv_methods (td_service d)); T "
		"] else []); T "
	"]; T "

	return Endpoints{
	"; each (fun i => concat [sm_name i; T "Endpoint:    "; to_lower (sm_name i); T "Endpoint,
	"]) (sv_methods (td_service d)); T "
	}, nil
}

// GRPC Client Decode
"; each (fun i => concat [T "
// DecodeGRPC"; sm_name i; T "Response is a transport/grpc.DecodeResponseFunc that converts a
// gRPC "; to_lower (sm_name i); T " reply to a user-domain "; to_lower (sm_name i); T " response. Primarily useful in a client.
func DecodeGRPC"; sm_name i; T "Response(_ context.Context, grpcReply interface{}) (interface{}, error) {
	reply := grpcReply.(*"; go_camel_case (ft_name (sm_resp i)); T ")
	return reply, nil
}
"]) (sv_methods (td_service d)); T "

// GRPC Client Encode
"; each (fun i => concat [T "
// EncodeGRPC"; sm_name i; T "Request is a transport/grpc.EncodeRequestFunc that converts a
// user-domain "; to_lower (sm_name i); T " request to a gRPC "; to_lower (sm_name i); T " request. Primarily useful in a client.
func EncodeGRPC"; sm_name i; T "Request(_ context.Context, request interface{}) (interface{}, error) {
	req := request.(*"; go_camel_case (ft_name (sm_req i)); T ")
	return req, nil
}
"]) (sv_methods (td_service d)); T "

// ContextValuesToGRPCMetadata is a grpctransport.ClientRequestFunc
func ContextValuesToGRPCMetadata(keys []string) grpctransport.ClientRequestFunc {
	return func(ctx context.Context, md *metadata.MD) context.Context {
		var pairs []string
		for _, k := range keys {
			if v, ok := ctx.Value(k).(string); ok {
				pairs = append(pairs, k, v)
			}
		}

		if pairs != nil {
			*md = metadata.Join(*md, metadata.Pairs(pairs...))
		}

		return ctx
	}
}
"] else []).
Definition p31 (format_source : str -> option str) (d : tdata) : str := T "
/************************************** HTTPServer ******************************************/

const contentType = ""application/json; charset=utf-8""

// MakeHTTPHandler returns a handler that makes a set of endpoints available
// on predefined paths.
func MakeHTTPHandler(endpoints Endpoints, options ...httptransport.ServerOption) http.Handler {".
Definition p32 (format_source : str -> option str) (d : tdata) : str := (if nonempty (td_helper d) then concat [T "
		serverOptions := []httptransport.ServerOption{
			httptransport.ServerBefore(HTTPHeadersToContext),
			httptransport.ServerErrorEncoder(errorEncoder),
			httptransport.ServerAfter(httptransport.SetContentType(contentType)),
		}
		serverOptions = append(serverOptions, options...)"] else []).
Definition p33 (format_source : str -> option str) (d : tdata) : str := T "
	m := mux.NewRouter()

	".
Definition p34 (format_source : str -> option str) (d : tdata) : str := each (fun m => concat [T "
		"; each (fun b => concat [T "
			m.Methods("""; to_upper (hb_verb b); T """).Path("""; hb_path b; T """).Handler(httptransport.NewServer(
				endpoints."; hm_name m; T "Endpoint,
				DecodeHTTP"; hb_label b; T "Request,
				EncodeHTTPGenericResponse,
				serverOptions...,
			))"]) (hm_binds m)]) (td_helper d).
Definition p35 (format_source : str -> option str) (d : tdata) : str := T "
	return m
}

// ErrorEncoder writes the error to the ResponseWriter, by default a content
// type of application/json, a body of json with key ""error"" and the value
// error.Error(), and a status code of 500. If the error implements Headerer,
// the provided headers will be applied to the response. If the error
// implements json.Marshaler, and the marshaling succeeds, the JSON encoded
// form of the error will be used. If the error implements StatusCoder, the
// provided StatusCode will be used instead of 500.
func errorEncoder(_ context.Context, err error, w http.ResponseWriter) {
	body, _ := json.Marshal(errorWrapper{Error: err.Error()})
	if marshaler, ok := err.(json.Marshaler); ok {
		if jsonBody, marshalErr := marshaler.MarshalJSON(); marshalErr == nil {
			body = jsonBody
		}
	}
	w.Header().Set(""Content-Type"", contentType)
	if headerer, ok := err.(httptransport.Headerer); ok {
		for k := range headerer.Headers() {
			w.Header().Set(k, headerer.Headers().Get(k))
		}
	}
	code := http.StatusInternalServerError
	if sc, ok := err.(httptransport.StatusCoder); ok {
		code = sc.StatusCode()
	}
	w.WriteHeader(code)
	w.Write(body)
}

func errorDecoder(buf []byte) error {
	var w errorWrapper
	if err := json.Unmarshal(buf, &w); err != nil {
		const size = 8196
		if len(buf) > size {
			buf = buf[:size]
		}
		return fmt.Errorf(""response body '%s': cannot parse non-json request body"", buf)
	}

	return errors.New(w.Error)
}

type errorWrapper struct {
	Error string `json:""error""`
}

// httpError satisfies the Headerer and StatusCoder interfaces in
// package github.com/go-kit/kit/transport/http.
type httpError struct {
	error
	statusCode int
	headers    map[string][]string
}

func (h httpError) StatusCode() int {
	return h.statusCode
}

func (h httpError) Headers() http.Header {
	return h.headers
}

// Server Decode
".
Definition p36 (format_source : str -> option str) (d : tdata) : str := each (fun m => concat [each (fun b => concat [T "
	// DecodeHTTP"; hb_label b; T "Request is a transport/http.DecodeRequestFunc that
	// decodes a JSON-encoded "; to_lower (hm_name m); T " request from the HTTP request
	// body. Primarily useful in a server.
	func DecodeHTTP"; hb_label b; T "Request(_ context.Context, r *http.Request) (interface{}, error) {
		defer r.Body.Close()
		var req "; go_camel_case (hm_req m); T "
		buf, err := ioutil.ReadAll(r.Body)
		if err != nil {
			return nil, errors.Wrapf(err, ""cannot read body of http request"")
		}
		if len(buf) > 0 {
			unmarshaller := protojson.UnmarshalOptions{
				AllowPartial:   true,
				DiscardUnknown: true,
			}
			if err = unmarshaller.Unmarshal(buf, &req); err != nil {
				const size = 8196
				if len(buf) > size {
					buf = buf[:size]
				}
				return nil, httpError{errors.Wrapf(err, ""request body '%s': cannot parse non-json request body"", buf),
					http.StatusBadRequest,
					nil,
				}
			}
		}

		pathParams := mux.Vars(r)
		_ = pathParams

		queryParams := r.URL.Query()
		_ = queryParams

		"; each (fun f => concat [T "
			"; (if negb (str_eqb (hf_loc f) (T "body")) then concat [T "
				"; field_code format_source f; T "
			"] else []); T "
		"]) (hb_fields b); T "

		"; each (fun o => concat [T "
			"; (if str_eqb (ho_loc o) (T "query") then concat [T "
				"; oneof_code format_source o; T "
			"] else []); T "
		"]) (hb_oneofs b); T "
		return &req, err
	}"]) (hm_binds m)]) (td_helper d).
Definition p37 (format_source : str -> option str) (d : tdata) : str := T "

// EncodeHTTPGenericResponse is a transport/http.EncodeResponseFunc that encodes
// the response as JSON to the response writer. Primarily useful in a server.
func EncodeHTTPGenericResponse(_ context.Context, w http.ResponseWriter, response interface{}) error {
	marshaller := protojson.MarshalOptions{
		AllowPartial:    true,
		UseProtoNames:   true,
		UseEnumNumbers:  true,
		EmitUnpopulated: true,
	}
	buf, err := marshaller.Marshal(response.(proto.Message))
	if err != nil {
		return err
	}
	_, err = w.Write(buf)
	return err
}

// Helper functions

func HTTPHeadersToContext(ctx context.Context, r *http.Request) context.Context {
	for k := range r.Header {
		// The key is added both in http format (k) which has had
		// http.CanonicalHeaderKey called on it in transport as well as the
		// strings.ToLower which is the grpc metadata format of the key so
		// that it can be accessed in either format
		ctx = context.WithValue(ctx, k, r.Header.Get(k))
		ctx = context.WithValue(ctx, strings.ToLower(k), r.Header.Get(k))
	}

	// Tune specific change.
	// also add the request url
	ctx = context.WithValue(ctx, ""request-url"", r.URL.Path)
	ctx = context.WithValue(ctx, ""transport"", ""HTTPJSON"")

	return ctx
}

/************************************** HTTPClient ******************************************/

// NewHTTPClient returns a service backed by an HTTP server living at the remote
// instance. We expect instance to come from a service discovery system, so
// likely of the form ""host:port"".
func NewHTTPClient(instance string, options ...httptransport.ClientOption) (".
Definition p38 (format_source : str -> option str) (d : tdata) : str := sv_name (td_service d).
Definition p39 (format_source : str -> option str) (d : tdata) : str := T "Server, error) {
	if !strings.HasPrefix(instance, ""http"") {
		instance = ""http://"" + instance
	}
	u, err := url.Parse(instance)
	if err != nil {
		return nil, err
	}
	_ = u

	".
Definition p40 (format_source : str -> option str) (d : tdata) : str := (if negb (nonempty (td_helper d)) then concat [T "panic(""No HTTP Endpoints, this client will not work, define bindings in your proto definition"")"] else []).
Definition p41 (format_source : str -> option str) (d : tdata) : str := T "

	".
Definition p42 (format_source : str -> option str) (d : tdata) : str := each (fun m => concat [T "
		"; (match hm_binds m with b :: _ => concat [T "var "; hb_label b; T "Endpoint endpoint.Endpoint
				{
					"; hb_label b; T "Endpoint = httptransport.NewClient(
						"""; to_upper (hb_verb b); T """,
						copyURL(u, """; hb_base b; T """),
						EncodeHTTP"; hb_label b; T "Request,
						DecodeHTTP"; hm_name m; T "Response,
						options...,
					).Endpoint()
				}"] | [] => [] end)]) (td_helper d).
Definition p43 (format_source : str -> option str) (d : tdata) : str := T "

	return Endpoints{
	".
Definition p44 (format_source : str -> option str) (d : tdata) : str := each (fun m => concat [(match hm_binds m with b :: _ => concat [hm_name m; T "Endpoint:    "; hb_label b; T "Endpoint,
			"] | [] => [] end)]) (td_helper d).
Definition p45 (format_source : str -> option str) (d : tdata) : str := T "
	}, nil
}

func copyURL(base *url.URL, path string) *url.URL {
	next := *base
	next.Path = path
	return &next
}

// CtxValuesToSend configures the http client to pull the specified keys out of
// the context and add them to the http request as headers.  Note that keys
// will have net/http.CanonicalHeaderKey called on them before being send over
// the wire and that is the form they will be available in the server context.
func CtxValuesToSend(keys ...string) httptransport.ClientOption {
	return httptransport.ClientBefore(func(ctx context.Context, r *http.Request) context.Context {
		for _, k := range keys {
			if v, ok := ctx.Value(k).(string); ok {
				r.Header.Set(k, v)
			}
		}
		return ctx
	})
}


// HTTP Client Decode
".
Definition p46 (format_source : str -> option str) (d : tdata) : str := each (fun m => concat [T "
	// DecodeHTTP"; hm_name m; T "Response is a transport/http.DecodeResponseFunc that decodes
	// a JSON-encoded "; go_camel_case (hm_resp m); T " response from the HTTP response body.
	// If the response has a non-200 status code, we will interpret that as an
	// error and attempt to decode the specific error message from the response
	// body. Primarily useful in a client.
	func DecodeHTTP"; hm_name m; T "Response(_ context.Context, r *http.Response) (interface{}, error) {
		defer r.Body.Close()
		buf, err := ioutil.ReadAll(r.Body)
		if err == io.EOF {
			return nil, errors.New(""response http body empty"")
		}
		if err != nil {
			return nil, errors.Wrap(err, ""cannot read http body"")
		}

		if r.StatusCode != http.StatusOK {
			return nil, errors.Wrapf(errorDecoder(buf), ""status code: '%d'"", r.StatusCode)
		}

		var resp "; go_camel_case (hm_resp m); T "
		unmarshaller := protojson.UnmarshalOptions{
			AllowPartial:   true,
			DiscardUnknown: true,
		}
		if err = unmarshaller.Unmarshal(buf, &resp); err != nil {
			return nil, errorDecoder(buf)
		}

		return &resp, nil
	}
"]) (td_helper d).
Definition p47 (format_source : str -> option str) (d : tdata) : str := T "

// HTTP Client Encode
".
Definition p48 (format_source : str -> option str) (d : tdata) : str := each (fun m => concat [T "
	"; each (fun b => concat [T "// EncodeHTTP"; hb_label b; T "Request is a transport/http.EncodeRequestFunc
	// that encodes a "; to_lower (hm_name m); T " request into the various portions of
	// the http request (path, query, and body).
	func EncodeHTTP"; hb_label b; T "Request(_ context.Context, r *http.Request, request interface{}) error {
		strval := """"
		_ = strval
		req := request.(*"; go_camel_case (hm_req m); T ")
		_ = req

		r.Header.Set(""transport"", ""HTTPJSON"")
		r.Header.Set(""request-url"", r.URL.Path)

		// Set the path parameters
		path := strings.Join([]string{"; each (fun x => concat [T "
			"; section_text x; T ","]) (path_sections b); T "
		}, ""/"")
		u, err := url.Parse(path)
		if err != nil {
			return errors.Wrapf(err, ""couldn't unmarshal path %q"", path)
		}
		r.URL.RawPath = u.RawPath
		r.URL.Path = u.Path

		// Set the query parameters
		values := r.URL.Query()
		var tmp []byte
		_ = tmp"; each (fun f => concat [(if str_eqb (hf_loc f) (T "query") then concat [T "
				"; (if hf_rep f && hf_base f then concat [(if contains (hf_gotype f) (T "[]string") then concat [T "
					values["""; hf_query f; T """] = req."; hf_camel f] else concat [T "
					for _, v := range req."; hf_camel f; T " {
						values.Add("""; hf_query f; T """, fmt.Sprint(v))
					}"]); T "
				"] else concat [(if negb (hf_base f) || hf_rep f then concat [T "
					tmp, err = json.Marshal(req."; hf_camel f; T ")
					if err != nil {
						return errors.Wrap(err, ""failed to marshal req."; hf_camel f; T """)
					}
					strval = string(tmp)
					values.Add("""; hf_query f; T """, strval)
				"] else concat [T "
					"; (if hf_star f then concat [T "
					if req."; hf_camel f; T " !=nil {
						values.Add("""; hf_query f; T """, fmt.Sprint(*req."; hf_camel f; T "))
					}
					"] else concat [T "
					values.Add("""; hf_query f; T """, fmt.Sprint(req."; hf_camel f; T "))
					"])])])] else [])]) (hb_fields b); each (fun o => concat [(if str_eqb (ho_loc o) (T "query") then concat [each (fun f => concat [T "
					"; (if negb (hf_base f) || hf_rep f then concat [T "
						if val := req.Get"; hf_name f; T "(); val != "; hf_zero f; T " {
							tmp, err = json.Marshal(req.Get"; hf_name f; T "())
							if err != nil {
								return errors.Wrap(err, ""failed to marshal req.Get"; hf_name f; T "()"")
							}
							strval = string(tmp)
							values.Add("""; hf_query f; T """, strval)
						}
					"] else concat [T "
						if val := req.Get"; hf_name f; T "(); val != "; hf_zero f; T " {
							values.Add("""; hf_query f; T """, fmt.Sprint(val))
						}"])]) (ho_options o)] else [])]) (hb_oneofs b); T "

		r.URL.RawQuery = values.Encode()"; (if negb (str_eqb (hb_verb b) (T "get")) then concat [T "
		// Set the body parameters
		toRet := request.(*"; go_camel_case (hm_req m); T ")"; each (fun f => concat [(if str_eqb (hf_loc f) (T "body") then concat [T "
				"; T "
				toRet."; hf_camel f; T " = req."; hf_camel f; T "
			"] else [])]) (hb_fields b); T "
		marshaler := protojson.MarshalOptions{
			AllowPartial:    true,
			UseProtoNames:   true,
			UseEnumNumbers:  true,
			EmitUnpopulated: true,
		}
		data, err := marshaler.Marshal(req)
		if err != nil {
			return errors.Wrapf(err, ""couldn't encode body as json %v"", toRet)
		}
		r.Body = ioutil.NopCloser(bytes.NewBuffer(data))"] else []); T "
		return nil
	}"]) (hm_binds m); T "
"]) (td_helper d).
Definition p49 (format_source : str -> option str) (d : tdata) : str := T "
".
Definition p50 (format_source : str -> option str) (d : tdata) : str := (if with_nats d then concat [T "
/************************************** NATSServer ******************************************/

// ServeNATS 
func ServeNATS(conn *nats.Conn, srv *natsServer) error {
"; concat [each (fun i => concat [T "
		"; to_lower (sm_name i); T "Sub, err := conn.QueueSubscribe("""; sv_name (td_service d); T "."; sm_name i; T """, """; sv_name (td_service d); T """, srv."; sm_name i; T ".ServeMsg(conn))
		if err != nil {
			return err
		}
		_ = "; to_lower (sm_name i); T "Sub
	"]) (sv_methods (td_service d)); T "
	return nil
"]; T "
}

// MakeNATSServer makes a set of endpoints available as a NATS "; sv_name (td_service d); T "Server.
func MakeNATSServer(endpoints Endpoints, options ...natstransport.SubscriberOption) *natsServer {
	serverOptions := []natstransport.SubscriberOption{
		// grpctransport.ServerBefore(GRPCMetadataToContext),
	}
	serverOptions = append(serverOptions, options...)
	// "; to_lower (sv_name (td_service d)); T "
	return &natsServer{
	"; each (fun i => concat [T "
		"; sm_name i; T ": natstransport.NewSubscriber(
			endpoints."; sm_name i; T "Endpoint,
			DecodeNATS"; sm_name i; T "Request,
			// EncodeNATS"; sm_name i; T "Response,
			EncodeNATSGenericResponse,
			serverOptions...,
		),"]) (sv_methods (td_service d)); T "
	}
}

// natsServer implements the "; go_camel_case (sv_name (td_service d)); T "Server interface
type natsServer struct {
"; each (fun i => concat [T "
	"; sm_name i; T "   *natstransport.Subscriber"]) (sv_methods (td_service d)); T "
}

// Server Decode
"; each (fun i => concat [T "
func DecodeNATS"; sm_name i; T "Request(ctx context.Context, msg *nats.Msg) (interface{}, error) {
	var req "; go_camel_case (ft_name (sm_req i)); T "
	if err := json.Unmarshal(msg.Data, &req); err != nil {
		return nil, err
	}
	return &req, nil
}
"]) (sv_methods (td_service d)); T "

// Server Encode

// EncodeNATSGenericResponse is a transport/nats.EncodeResponseFunc that encodes
// JSON object to the subscriber reply. Many JSON-over services can use it as
// a sensible default.
func EncodeNATSGenericResponse(ctx context.Context, reply string, nc *nats.Conn, response interface{}) error {
	return natstransport.EncodeJSONResponse(ctx, reply, nc, response)
}

/************************************** NATSClient ******************************************/

// NewNATSClient returns an service backed by a nats client connection. It is the
// responsibility of the caller to dial, and later close, the connection.
func NewNATSClient(conn *nats.Conn, options ...natstransport.PublisherOption) ("; sv_name (td_service d); T "Server, error) {"; concat [each (fun i => concat [T "
			var "; to_lower (sm_name i); T "Endpoint endpoint.Endpoint
			{
				"; to_lower (sm_name i); T "Endpoint = natstransport.NewPublisher(
					conn,
					"""; sv_name (td_service d); T "."; sm_name i; T """,
					EncodeNATSGenericRequest,
					DecodeNATS"; sm_name i; T "Response,
					options...,
				).Endpoint()
			}
		"]) (sv_methods (td_service d)); T "
	"]; T "

	return Endpoints{
	"; each (fun i => concat [sm_name i; T "Endpoint:    "; to_lower (sm_name i); T "Endpoint,
	"]) (sv_methods (td_service d)); T "
	}, nil
}

// NATS Client Decode
"; each (fun i => concat [T "
// DecodeNATS"; sm_name i; T "Response is a transport/nats.DecodeResponseFunc that converts a
// nats.Msg to a user-domain "; to_lower (sm_name i); T " response. Primarily useful in a client.
func DecodeNATS"; sm_name i; T "Response(ctx context.Context, msg *nats.Msg ) (interface{}, error) {
	// if err := json.Unmarshal(msg.Data, &errResponse); err != nil {
	// 	return nil, err
	// }
	// if errResponse.Error != nil && errResponse.Error.Code == ""_internal_"" {
	// 	return nil, errors.New(errResponse.Error.Message)
	// }
	var resp "; go_camel_case (ft_name (sm_resp i)); T "
	if err := json.Unmarshal(msg.Data, &resp); err != nil {
		return nil, err
	}
	return &resp, nil
}
"]) (sv_methods (td_service d)); T "

// NATS Client Encode
// EncodeNATSGenericRequest is a transport/nats.EncodeRequestFunc that serializes the request as a
// JSON object to the Data of the Msg. Many JSON-over-NATS services can use it as
// a sensible default.
func EncodeNATSGenericRequest(ctx context.Context, msg *nats.Msg, request interface{}) error {
	return natstransport.EncodeJSONRequest(ctx, msg, request)
}
"] else []).
Definition p51 (format_source : str -> option str) (d : tdata) : str := T "
".
Definition baron_pieces (format_source : str -> option str) (d : tdata) : list str := [p0 format_source d; p1 format_source d; p2 format_source d; p3 format_source d; p4 format_source d; p5 format_source d; p6 format_source d; p7 format_source d; p8 format_source d; p9 format_source d; p10 format_source d; p11 format_source d; p12 format_source d; p13 format_source d; p14 format_source d; p15 format_source d; p16 format_source d; p17 format_source d; p18 format_source d; p19 format_source d; p20 format_source d; p21 format_source d; p22 format_source d; p23 format_source d; p24 format_source d; p25 format_source d; p26 format_source d; p27 format_source d; p28 format_source d; p29 format_source d; p30 format_source d; p31 format_source d; p32 format_source d; p33 format_source d; p34 format_source d; p35 format_source d; p36 format_source d; p37 format_source d; p38 format_source d; p39 format_source d; p40 format_source d; p41 format_source d; p42 format_source d; p43 format_source d; p44 format_source d; p45 format_source d; p46 format_source d; p47 format_source d; p48 format_source d; p49 format_source d; p50 format_source d; p51 format_source d].
