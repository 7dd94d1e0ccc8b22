(** The templates of baron, byte by byte: the files under gengokit/template/NAME-service, which go-bindata embeds in
    gengokit/template/template.go (the embedded bytes, uncompressed, are those of the files). *)
From Coq Require Import String.
From Verif Require Import GoStr GoMap Generator.

(** gengokit/template/NAME-service/baron/NAME.pb.baron.go.tmpl:1-834 *)
Definition baron_text : string := "// Code generated by baron. DO NOT EDIT.
// Rerunning baron will overwrite this file.
// Version: {{.Version}}
// Version Date: {{.VersionDate}}

package {{.PackageName}}

// This file contains methods to make individual endpoints from services,
// request and response types to serve those endpoints, as well as encoders and
// decoders for those types, for all of our supported transport serialization
// formats.

import (
	""bytes""
	""context""
	""encoding/json""
	""fmt""
	""io""
	""io/ioutil""
	""net/http""
	""net/url""
	""strconv""
	""strings""

	""github.com/go-kit/kit/endpoint""
	anypb ""google.golang.org/protobuf/types/known/anypb""
	durationpb ""google.golang.org/protobuf/types/known/durationpb""
	emptypb ""google.golang.org/protobuf/types/known/emptypb""
	fieldmaskpb ""google.golang.org/protobuf/types/known/fieldmaskpb""
	structpb ""google.golang.org/protobuf/types/known/structpb""
	timestamppb ""google.golang.org/protobuf/types/known/timestamppb""
	wrapperspb ""google.golang.org/protobuf/types/known/wrapperspb""

	""github.com/gorilla/mux""
	""github.com/pkg/errors""
	""google.golang.org/protobuf/encoding/protojson""
	""google.golang.org/protobuf/proto""

	{{- if eq .Config.Transport ""all"" ""nats"" }}
	""github.com/nats-io/nats.go""
	{{- end}}
	{{- if eq .Config.Transport ""all"" ""grpc"" }}
	""google.golang.org/grpc""
	""google.golang.org/grpc/metadata""
	{{- end}}
	{{if eq .Config.Transport ""all"" ""grpc"" }}
	grpctransport ""github.com/go-kit/kit/transport/grpc""
	{{- end}}
	httptransport ""github.com/go-kit/kit/transport/http""
	{{- if eq .Config.Transport ""all"" ""nats"" }}
	natstransport ""github.com/go-kit/kit/transport/nats""
	{{- end}}
)


var (
	_ = fmt.Sprint
	_ = bytes.Compare
	_ = strconv.Atoi
	_ = httptransport.NewServer
	_ = ioutil.NopCloser
	_ = io.Copy
	_ = errors.Wrap
	// google.protobuf types
	_ anypb.Any
	_ durationpb.Duration
	_ emptypb.Empty
	_ structpb.Struct
	_ timestamppb.Timestamp
	_ wrapperspb.StringValue
	_ fieldmaskpb.FieldMask
)

/************************************** Endpoints ******************************************/

// In a server, it's useful for functions that need to operate on a per-endpoint
// basis. For example, you might pass an Endpoints to a function that produces
// an http.Handler, with each method (endpoint) wired up to a specific path. (It
// is probably a mistake in design to invoke the Service methods on the
// Endpoints struct in a server.)
//
// In a client, it's useful to collect individually constructed endpoints into a
// single type that implements the Service interface. For example, you might
// construct individual endpoints using transport/http.NewClient, combine them into an Endpoints, and return it to the caller as a Service.
type Endpoints struct {
	Unimplemented{{.Service.Name}}Server
{{range $i := .Service.Methods}}
	{{$i.Name}}Endpoint    endpoint.Endpoint
{{end}}
}

// Endpoints
{{range $i := .Service.Methods}}
func (e Endpoints) {{$i.Name}}(ctx context.Context, in *{{GoName $i.RequestType.Name}}) (*{{GoName $i.ResponseType.Name}}, error) {
	response, err := e.{{$i.Name}}Endpoint(ctx, in)
	if err != nil {
		return nil, err
	}
	return response.(*{{GoName $i.ResponseType.Name}}), nil
}
{{end}}

// Make Endpoints
{{with $te := .}}
{{- range $i := $te.Service.Methods}}
func Make{{$i.Name}}Endpoint(s {{$te.Service.Name}}Server) endpoint.Endpoint {
	return func(ctx context.Context, request interface{}) (response interface{}, err error) {
		req := request.(*{{GoName $i.RequestType.Name}})
		v, err := s.{{$i.Name}}(ctx, req)
		if err != nil {
			return nil, err
		}
		return v, nil
	}
}
{{- end}}
{{end}}

// WrapAllExcept wraps each Endpoint field of struct Endpoints with a
// go-kit/kit/endpoint.Middleware.
// Use this for applying a set of middlewares to every endpoint in the service.
// Optionally, endpoints can be passed in by name to be excluded from being wrapped.
// WrapAllExcept(middleware, ""Status"", ""Ping"")
func (e *Endpoints) WrapAllExcept(middleware endpoint.Middleware, excluded ...string) {
	included := map[string]struct{}{
		{{- range $i := .Service.Methods}}
			""{{$i.Name}}"": {},
		{{- end}}
	}

	for _, ex := range excluded {
		if _, ok := included[ex]; !ok {
			panic(fmt.Sprintf(""Excluded endpoint '%s' does not exist; see middlewares/endpoints.go"", ex))
		}
		delete(included, ex)
	}

	for inc := range included {
		{{- range $i := .Service.Methods}}
			if inc == ""{{$i.Name}}"" {
				e.{{$i.Name}}Endpoint = middleware(e.{{$i.Name}}Endpoint)
			}
		{{- end}}
	}
}

// LabeledMiddleware will get passed the endpoint name when passed to
// WrapAllLabeledExcept, this can be used to write a generic metrics
// middleware which can send the endpoint name to the metrics collector.
type LabeledMiddleware func(string, endpoint.Endpoint) endpoint.Endpoint

// WrapAllLabeledExcept wraps each Endpoint field of struct Endpoints with a
// LabeledMiddleware, which will receive the name of the endpoint. See
// LabeldMiddleware. See method WrapAllExept for details on excluded
// functionality.
func (e *Endpoints) WrapAllLabeledExcept(middleware func(string, endpoint.Endpoint) endpoint.Endpoint, excluded ...string) {
	included := map[string]struct{}{
		{{- range $i := .Service.Methods}}
			""{{$i.Name}}"": {},
		{{- end}}
	}

	for _, ex := range excluded {
		if _, ok := included[ex]; !ok {
			panic(fmt.Sprintf(""Excluded endpoint '%s' does not exist; see middlewares/endpoints.go"", ex))
		}
		delete(included, ex)
	}

	for inc := range included {
		{{- range $i := .Service.Methods}}
			if inc == ""{{$i.Name}}"" {
				e.{{$i.Name}}Endpoint = middleware(""{{$i.Name}}"", e.{{$i.Name}}Endpoint)
			}
		{{- end}}
	}
}
{{if eq .Config.Transport ""all"" ""grpc"" }}
/************************************** GRPCServer ******************************************/

// MakeGRPCServer makes a set of endpoints available as a gRPC {{.Service.Name}}Server.
func MakeGRPCServer(endpoints Endpoints, options ...grpctransport.ServerOption) {{.Service.Name}}Server {
	serverOptions := []grpctransport.ServerOption{
		grpctransport.ServerBefore(GRPCMetadataToContext),
	}
	serverOptions = append(serverOptions, options...)
	// {{ ToLower .Service.Name }}
	return &grpcServer{
	{{range $i := .Service.Methods}}
		{{ToLower $i.Name}}: grpctransport.NewServer(
			endpoints.{{$i.Name}}Endpoint,
			DecodeGRPC{{$i.Name}}Request,
			EncodeGRPC{{$i.Name}}Response,
			serverOptions...,
		),
	{{- end}}
	}
}

// grpcServer implements the {{GoName .Service.Name}}Server interface
type grpcServer struct {
	Unimplemented{{.Service.Name}}Server
{{range $i := .Service.Methods}}
	{{ToLower $i.Name}}   grpctransport.Handler
{{- end}}
}

// Methods for grpcServer to implement {{GoName .Service.Name}}Server interface
{{range $i := .Service.Methods}}
func (s *grpcServer) {{GoName $i.Name}}(ctx context.Context, req *{{GoName $i.RequestType.Name}}) (*{{GoName $i.ResponseType.Name}}, error) {
	_, rep, err := s.{{ToLower $i.Name}}.ServeGRPC(ctx, req)
	if err != nil {
		return nil, err
	}
	return rep.(*{{GoName $i.ResponseType.Name}}), nil
}
{{end}}

// Server Decode
{{range $i := .Service.Methods}}
// DecodeGRPC{{$i.Name}}Request is a transport/grpc.DecodeRequestFunc that converts a
// gRPC {{ToLower $i.Name}} request to a user-domain {{ToLower $i.Name}} request. Primarily useful in a server.
func DecodeGRPC{{$i.Name}}Request(_ context.Context, grpcReq interface{}) (interface{}, error) {
	req := grpcReq.(*{{GoName $i.RequestType.Name}})
	return req, nil
}
{{end}}

// Server Encode
{{range $i := .Service.Methods}}
// EncodeGRPC{{$i.Name}}Response is a transport/grpc.EncodeResponseFunc that converts a
// user-domain {{ToLower $i.Name}} response to a gRPC {{ToLower $i.Name}} reply. Primarily useful in a server.
func EncodeGRPC{{$i.Name}}Response(_ context.Context, response interface{}) (interface{}, error) {
	resp := response.(*{{GoName $i.ResponseType.Name}})
	return resp, nil
}
{{end}}

// Helpers

func GRPCMetadataToContext(ctx context.Context, md metadata.MD) context.Context {
	for k, v := range md {
		if v != nil {
			// The key is added both in metadata format (k) which is all lower
			// and the http.CanonicalHeaderKey of the key so that it can be
			// accessed in either format
			ctx = context.WithValue(ctx, k, v[0])
			ctx = context.WithValue(ctx, http.CanonicalHeaderKey(k), v[0])
		}
	}

	return ctx
}

/************************************** GRPCClient ******************************************/

// NewGRPCClient returns an service backed by a gRPC client connection. It is the
// responsibility of the caller to dial, and later close, the connection.
func NewGRPCClient(conn *grpc.ClientConn, options ...grpctransport.ClientOption) ({{.Service.Name}}Server, error) {
	{{- with $te := .}}
		{{- with $pkgName := $te.PackageName}}
			{{- range $i := $te.Service.Methods}}
	var {{ToLower $i.Name}}Endpoint endpoint.Endpoint
	{
		{{ToLower $i.Name}}Endpoint = grpctransport.NewClient(
			conn,
			""{{$pkgName}}.{{$te.Service.Name}}"",
			""{{$i.Name}}"",
			EncodeGRPC{{$i.Name}}Request,
			DecodeGRPC{{$i.Name}}Response,
			{{GoName $i.ResponseType.Name}}{},
			options...,
		).Endpoint()
	}
			{{end}}
		{{end}}
	{{end}}

	return Endpoints{
	{{range $i := .Service.Methods -}}
		{{$i.Name}}Endpoint:    {{ToLower $i.Name}}Endpoint,
	{{end}}
	}, nil
}

// GRPC Client Decode
{{range $i := .Service.Methods}}
// DecodeGRPC{{$i.Name}}Response is a transport/grpc.DecodeResponseFunc that converts a
// gRPC {{ToLower $i.Name}} reply to a user-domain {{ToLower $i.Name}} response. Primarily useful in a client.
func DecodeGRPC{{$i.Name}}Response(_ context.Context, grpcReply interface{}) (interface{}, error) {
	reply := grpcReply.(*{{GoName $i.ResponseType.Name}})
	return reply, nil
}
{{end}}

// GRPC Client Encode
{{range $i := .Service.Methods}}
// EncodeGRPC{{$i.Name}}Request is a transport/grpc.EncodeRequestFunc that converts a
// user-domain {{ToLower $i.Name}} request to a gRPC {{ToLower $i.Name}} request. Primarily useful in a client.
func EncodeGRPC{{$i.Name}}Request(_ context.Context, request interface{}) (interface{}, error) {
	req := request.(*{{GoName $i.RequestType.Name}})
	return req, nil
}
{{end}}

// ContextValuesToGRPCMetadata is a grpctransport.ClientRequestFunc
func ContextValuesToGRPCMetadata(keys []string) grpctransport.ClientRequestFunc {
	return func(ctx context.Context, md *metadata.MD) context.Context {
		var pairs []string
		for _, k := range keys {
			if v, ok := ctx.Value(k).(string); ok {
				pairs = append(pairs, k, v)
			}
		}

		if pairs != nil {
			*md = metadata.Join(*md, metadata.Pairs(pairs...))
		}

		return ctx
	}
}
{{end}}
/************************************** HTTPServer ******************************************/

const contentType = ""application/json; charset=utf-8""

// MakeHTTPHandler returns a handler that makes a set of endpoints available
// on predefined paths.
func MakeHTTPHandler(endpoints Endpoints, options ...httptransport.ServerOption) http.Handler {
	{{- if .HTTPHelper.Methods}}
		serverOptions := []httptransport.ServerOption{
			httptransport.ServerBefore(HTTPHeadersToContext),
			httptransport.ServerErrorEncoder(errorEncoder),
			httptransport.ServerAfter(httptransport.SetContentType(contentType)),
		}
		serverOptions = append(serverOptions, options...)
	{{- end }}
	m := mux.NewRouter()

	{{range $method := .HTTPHelper.Methods}}
		{{range $binding := $method.Bindings}}
			m.Methods(""{{$binding.Verb | ToUpper}}"").Path(""{{$binding.PathTemplate}}"").Handler(httptransport.NewServer(
				endpoints.{{$method.Name}}Endpoint,
				DecodeHTTP{{$binding.Label}}Request,
				EncodeHTTPGenericResponse,
				serverOptions...,
			))
		{{- end}}
	{{- end}}
	return m
}

// ErrorEncoder writes the error to the ResponseWriter, by default a content
// type of application/json, a body of json with key ""error"" and the value
// error.Error(), and a status code of 500. If the error implements Headerer,
// the provided headers will be applied to the response. If the error
// implements json.Marshaler, and the marshaling succeeds, the JSON encoded
// form of the error will be used. If the error implements StatusCoder, the
// provided StatusCode will be used instead of 500.
func errorEncoder(_ context.Context, err error, w http.ResponseWriter) {
	body, _ := json.Marshal(errorWrapper{Error: err.Error()})
	if marshaler, ok := err.(json.Marshaler); ok {
		if jsonBody, marshalErr := marshaler.MarshalJSON(); marshalErr == nil {
			body = jsonBody
		}
	}
	w.Header().Set(""Content-Type"", contentType)
	if headerer, ok := err.(httptransport.Headerer); ok {
		for k := range headerer.Headers() {
			w.Header().Set(k, headerer.Headers().Get(k))
		}
	}
	code := http.StatusInternalServerError
	if sc, ok := err.(httptransport.StatusCoder); ok {
		code = sc.StatusCode()
	}
	w.WriteHeader(code)
	w.Write(body)
}

func errorDecoder(buf []byte) error {
	var w errorWrapper
	if err := json.Unmarshal(buf, &w); err != nil {
		const size = 8196
		if len(buf) > size {
			buf = buf[:size]
		}
		return fmt.Errorf(""response body '%s': cannot parse non-json request body"", buf)
	}

	return errors.New(w.Error)
}

type errorWrapper struct {
	Error string `json:""error""`
}

// httpError satisfies the Headerer and StatusCoder interfaces in
// package github.com/go-kit/kit/transport/http.
type httpError struct {
	error
	statusCode int
	headers    map[string][]string
}

func (h httpError) StatusCode() int {
	return h.statusCode
}

func (h httpError) Headers() http.Header {
	return h.headers
}

// Server Decode
{{range $method := .HTTPHelper.Methods}}
	{{- range $binding := $method.Bindings}}
	// DecodeHTTP{{$binding.Label}}Request is a transport/http.DecodeRequestFunc that
	// decodes a JSON-encoded {{ToLower $binding.Parent.Name}} request from the HTTP request
	// body. Primarily useful in a server.
	func DecodeHTTP{{$binding.Label}}Request(_ context.Context, r *http.Request) (interface{}, error) {
		defer r.Body.Close()
		var req {{GoName $binding.Parent.RequestType}}
		buf, err := ioutil.ReadAll(r.Body)
		if err != nil {
			return nil, errors.Wrapf(err, ""cannot read body of http request"")
		}
		if len(buf) > 0 {
			unmarshaller := protojson.UnmarshalOptions{
				AllowPartial:   true,
				DiscardUnknown: true,
			}
			if err = unmarshaller.Unmarshal(buf, &req); err != nil {
				const size = 8196
				if len(buf) > size {
					buf = buf[:size]
				}
				return nil, httpError{errors.Wrapf(err, ""request body '%s': cannot parse non-json request body"", buf),
					http.StatusBadRequest,
					nil,
				}
			}
		}

		pathParams := mux.Vars(r)
		_ = pathParams

		queryParams := r.URL.Query()
		_ = queryParams

		{{range $field := $binding.Fields}}
			{{if ne $field.Location ""body""}}
				{{$field.GenQueryUnmarshaler}}
			{{end}}
		{{end}}

		{{range $field := $binding.OneofFields}}
			{{if eq $field.Location ""query""}}
				{{$field.GenQueryUnmarshaler}}
			{{end}}
		{{end}}
		return &req, err
	}
	{{- end -}}
{{end}}

// EncodeHTTPGenericResponse is a transport/http.EncodeResponseFunc that encodes
// the response as JSON to the response writer. Primarily useful in a server.
func EncodeHTTPGenericResponse(_ context.Context, w http.ResponseWriter, response interface{}) error {
	marshaller := protojson.MarshalOptions{
		AllowPartial:    true,
		UseProtoNames:   true,
		UseEnumNumbers:  true,
		EmitUnpopulated: true,
	}
	buf, err := marshaller.Marshal(response.(proto.Message))
	if err != nil {
		return err
	}
	_, err = w.Write(buf)
	return err
}

// Helper functions

func HTTPHeadersToContext(ctx context.Context, r *http.Request) context.Context {
	for k := range r.Header {
		// The key is added both in http format (k) which has had
		// http.CanonicalHeaderKey called on it in transport as well as the
		// strings.ToLower which is the grpc metadata format of the key so
		// that it can be accessed in either format
		ctx = context.WithValue(ctx, k, r.Header.Get(k))
		ctx = context.WithValue(ctx, strings.ToLower(k), r.Header.Get(k))
	}

	// Tune specific change.
	// also add the request url
	ctx = context.WithValue(ctx, ""request-url"", r.URL.Path)
	ctx = context.WithValue(ctx, ""transport"", ""HTTPJSON"")

	return ctx
}

/************************************** HTTPClient ******************************************/

// NewHTTPClient returns a service backed by an HTTP server living at the remote
// instance. We expect instance to come from a service discovery system, so
// likely of the form ""host:port"".
func NewHTTPClient(instance string, options ...httptransport.ClientOption) ({{.Service.Name}}Server, error) {
	if !strings.HasPrefix(instance, ""http"") {
		instance = ""http://"" + instance
	}
	u, err := url.Parse(instance)
	if err != nil {
		return nil, err
	}
	_ = u

	{{if not .HTTPHelper.Methods -}}
		panic(""No HTTP Endpoints, this client will not work, define bindings in your proto definition"")
	{{- end}}

	{{range $method := .HTTPHelper.Methods}}
		{{ if $method.Bindings -}}
			{{ with $binding := index $method.Bindings 0 -}}
				var {{$binding.Label}}Endpoint endpoint.Endpoint
				{
					{{$binding.Label}}Endpoint = httptransport.NewClient(
						""{{$binding.Verb | ToUpper}}"",
						copyURL(u, ""{{$binding.BasePath}}""),
						EncodeHTTP{{$binding.Label}}Request,
						DecodeHTTP{{$method.Name}}Response,
						options...,
					).Endpoint()
				}
			{{- end}}
		{{- end}}
	{{- end}}

	return Endpoints{
	{{range $method := .HTTPHelper.Methods -}}
		{{ if $method.Bindings -}}
			{{ with $binding := index $method.Bindings 0 -}}
				{{$method.Name}}Endpoint:    {{$binding.Label}}Endpoint,
			{{end}}
		{{- end}}
	{{- end}}
	}, nil
}

func copyURL(base *url.URL, path string) *url.URL {
	next := *base
	next.Path = path
	return &next
}

// CtxValuesToSend configures the http client to pull the specified keys out of
// the context and add them to the http request as headers.  Note that keys
// will have net/http.CanonicalHeaderKey called on them before being send over
// the wire and that is the form they will be available in the server context.
func CtxValuesToSend(keys ...string) httptransport.ClientOption {
	return httptransport.ClientBefore(func(ctx context.Context, r *http.Request) context.Context {
		for _, k := range keys {
			if v, ok := ctx.Value(k).(string); ok {
				r.Header.Set(k, v)
			}
		}
		return ctx
	})
}


// HTTP Client Decode
{{range $method := .HTTPHelper.Methods}}
	// DecodeHTTP{{$method.Name}}Response is a transport/http.DecodeResponseFunc that decodes
	// a JSON-encoded {{GoName $method.ResponseType}} response from the HTTP response body.
	// If the response has a non-200 status code, we will interpret that as an
	// error and attempt to decode the specific error message from the response
	// body. Primarily useful in a client.
	func DecodeHTTP{{$method.Name}}Response(_ context.Context, r *http.Response) (interface{}, error) {
		defer r.Body.Close()
		buf, err := ioutil.ReadAll(r.Body)
		if err == io.EOF {
			return nil, errors.New(""response http body empty"")
		}
		if err != nil {
			return nil, errors.Wrap(err, ""cannot read http body"")
		}

		if r.StatusCode != http.StatusOK {
			return nil, errors.Wrapf(errorDecoder(buf), ""status code: '%d'"", r.StatusCode)
		}

		var resp {{GoName $method.ResponseType}}
		unmarshaller := protojson.UnmarshalOptions{
			AllowPartial:   true,
			DiscardUnknown: true,
		}
		if err = unmarshaller.Unmarshal(buf, &resp); err != nil {
			return nil, errorDecoder(buf)
		}

		return &resp, nil
	}
{{end}}

// HTTP Client Encode
{{range $method := .HTTPHelper.Methods}}
	{{range $binding := $method.Bindings -}}
	// EncodeHTTP{{$binding.Label}}Request is a transport/http.EncodeRequestFunc
	// that encodes a {{ToLower $binding.Parent.Name}} request into the various portions of
	// the http request (path, query, and body).
	func EncodeHTTP{{$binding.Label}}Request(_ context.Context, r *http.Request, request interface{}) error {
		strval := """"
		_ = strval
		req := request.(*{{GoName $binding.Parent.RequestType}})
		_ = req

		r.Header.Set(""transport"", ""HTTPJSON"")
		r.Header.Set(""request-url"", r.URL.Path)

		// Set the path parameters
		path := strings.Join([]string{
		{{- range $section := $binding.PathSections}}
			{{$section}},
		{{- end}}
		}, ""/"")
		u, err := url.Parse(path)
		if err != nil {
			return errors.Wrapf(err, ""couldn't unmarshal path %q"", path)
		}
		r.URL.RawPath = u.RawPath
		r.URL.Path = u.Path

		// Set the query parameters
		values := r.URL.Query()
		var tmp []byte
		_ = tmp
		{{- range $field := $binding.Fields }}
			{{- if eq $field.Location ""query""}}
				{{if and $field.Repeated $field.IsBaseType}}
					{{- if (Contains $field.GoType ""[]string"")}}
					values[""{{$field.QueryParamName}}""] = req.{{$field.CamelName}}
					{{- else}}
					for _, v := range req.{{$field.CamelName}} {
						values.Add(""{{$field.QueryParamName}}"", fmt.Sprint(v))
					}
					{{- end}}
				{{else if or (not $field.IsBaseType) $field.Repeated}}
					tmp, err = json.Marshal(req.{{$field.CamelName}})
					if err != nil {
						return errors.Wrap(err, ""failed to marshal req.{{$field.CamelName}}"")
					}
					strval = string(tmp)
					values.Add(""{{$field.QueryParamName}}"", strval)
				{{else}}
					{{/*如果是指针类型标量*/ -}}
					{{if $field.StarExpr}}
					if req.{{$field.CamelName}} !=nil {
						values.Add(""{{$field.QueryParamName}}"", fmt.Sprint(*req.{{$field.CamelName}}))
					}
					{{else}}
					values.Add(""{{$field.QueryParamName}}"", fmt.Sprint(req.{{$field.CamelName}}))
					{{end}}
				{{- end }}
			{{- end }}
		{{- end}}
		{{- range $oneof := $binding.OneofFields }}
			{{- if eq $oneof.Location ""query""}}
				{{- range $option := $oneof.Options }}
					{{if or (not $option.IsBaseType) $option.Repeated}}
						if val := req.Get{{$option.Name}}(); val != {{$option.ZeroValue}} {
							tmp, err = json.Marshal(req.Get{{$option.Name}}())
							if err != nil {
								return errors.Wrap(err, ""failed to marshal req.Get{{$option.Name}}()"")
							}
							strval = string(tmp)
							values.Add(""{{$option.QueryParamName}}"", strval)
						}
					{{else}}
						if val := req.Get{{$option.Name}}(); val != {{$option.ZeroValue}} {
							values.Add(""{{$option.QueryParamName}}"", fmt.Sprint(val))
						}
					{{- end }}
				{{- end }}
			{{- end }}
		{{- end}}

		r.URL.RawQuery = values.Encode()

		{{- if ne $binding.Verb ""get"" }}
		// Set the body parameters
		toRet := request.(*{{GoName $binding.Parent.RequestType}})
		{{- range $field := $binding.Fields -}}
			{{if eq $field.Location ""body""}}
				{{/* Only set the fields which should be in the body, so all
				others will be omitted due to emptiness */}}
				toRet.{{$field.CamelName}} = req.{{$field.CamelName}}
			{{end}}
		{{- end }}
		marshaler := protojson.MarshalOptions{
			AllowPartial:    true,
			UseProtoNames:   true,
			UseEnumNumbers:  true,
			EmitUnpopulated: true,
		}
		data, err := marshaler.Marshal(req)
		if err != nil {
			return errors.Wrapf(err, ""couldn't encode body as json %v"", toRet)
		}
		r.Body = ioutil.NopCloser(bytes.NewBuffer(data))
		{{- end }}
		return nil
	}
	{{- end}}
{{end}}
{{if eq .Config.Transport ""all"" ""nats"" }}
/************************************** NATSServer ******************************************/

// ServeNATS 
func ServeNATS(conn *nats.Conn, srv *natsServer) error {
{{with $te := .}}
	{{- range $i := $te.Service.Methods}}
		{{ToLower $i.Name}}Sub, err := conn.QueueSubscribe(""{{$te.Service.Name}}.{{$i.Name}}"", ""{{$te.Service.Name}}"", srv.{{$i.Name}}.ServeMsg(conn))
		if err != nil {
			return err
		}
		_ = {{ToLower $i.Name}}Sub
	{{end}}
	return nil
{{end}}
}

// MakeNATSServer makes a set of endpoints available as a NATS {{.Service.Name}}Server.
func MakeNATSServer(endpoints Endpoints, options ...natstransport.SubscriberOption) *natsServer {
	serverOptions := []natstransport.SubscriberOption{
		// grpctransport.ServerBefore(GRPCMetadataToContext),
	}
	serverOptions = append(serverOptions, options...)
	// {{ ToLower .Service.Name }}
	return &natsServer{
	{{range $i := .Service.Methods}}
		{{$i.Name}}: natstransport.NewSubscriber(
			endpoints.{{$i.Name}}Endpoint,
			DecodeNATS{{$i.Name}}Request,
			// EncodeNATS{{$i.Name}}Response,
			EncodeNATSGenericResponse,
			serverOptions...,
		),
	{{- end}}
	}
}

// natsServer implements the {{GoName .Service.Name}}Server interface
type natsServer struct {
{{range $i := .Service.Methods}}
	{{$i.Name}}   *natstransport.Subscriber
{{- end}}
}

// Server Decode
{{range $i := .Service.Methods}}
func DecodeNATS{{.Name}}Request(ctx context.Context, msg *nats.Msg) (interface{}, error) {
	var req {{GoName $i.RequestType.Name}}
	if err := json.Unmarshal(msg.Data, &req); err != nil {
		return nil, err
	}
	return &req, nil
}
{{end}}

// Server Encode

// EncodeNATSGenericResponse is a transport/nats.EncodeResponseFunc that encodes
// JSON object to the subscriber reply. Many JSON-over services can use it as
// a sensible default.
func EncodeNATSGenericResponse(ctx context.Context, reply string, nc *nats.Conn, response interface{}) error {
	return natstransport.EncodeJSONResponse(ctx, reply, nc, response)
}

/************************************** NATSClient ******************************************/

// NewNATSClient returns an service backed by a nats client connection. It is the
// responsibility of the caller to dial, and later close, the connection.
func NewNATSClient(conn *nats.Conn, options ...natstransport.PublisherOption) ({{.Service.Name}}Server, error) {
	{{- with $te := .}}
		{{- range $i := $te.Service.Methods}}
			var {{ToLower $i.Name}}Endpoint endpoint.Endpoint
			{
				{{ToLower $i.Name}}Endpoint = natstransport.NewPublisher(
					conn,
					""{{$te.Service.Name}}.{{$i.Name}}"",
					EncodeNATSGenericRequest,
					DecodeNATS{{$i.Name}}Response,
					options...,
				).Endpoint()
			}
		{{end}}
	{{end}}

	return Endpoints{
	{{range $i := .Service.Methods -}}
		{{$i.Name}}Endpoint:    {{ToLower $i.Name}}Endpoint,
	{{end}}
	}, nil
}

// NATS Client Decode
{{range $i := .Service.Methods}}
// DecodeNATS{{$i.Name}}Response is a transport/nats.DecodeResponseFunc that converts a
// nats.Msg to a user-domain {{ToLower $i.Name}} response. Primarily useful in a client.
func DecodeNATS{{$i.Name}}Response(ctx context.Context, msg *nats.Msg ) (interface{}, error) {
	// if err := json.Unmarshal(msg.Data, &errResponse); err != nil {
	// 	return nil, err
	// }
	// if errResponse.Error != nil && errResponse.Error.Code == ""_internal_"" {
	// 	return nil, errors.New(errResponse.Error.Message)
	// }
	var resp {{GoName $i.ResponseType.Name}}
	if err := json.Unmarshal(msg.Data, &resp); err != nil {
		return nil, err
	}
	return &resp, nil
}
{{end}}

// NATS Client Encode
// EncodeNATSGenericRequest is a transport/nats.EncodeRequestFunc that serializes the request as a
// JSON object to the Data of the Msg. Many JSON-over-NATS services can use it as
// a sensible default.
func EncodeNATSGenericRequest(ctx context.Context, msg *nats.Msg, request interface{}) error {
	return natstransport.EncodeJSONRequest(ctx, msg, request)
}
{{end}}
"%string.

(** gengokit/template/NAME-service/cmd/NAME/main.go.tmpl:1-50 *)
Definition cmd_server_text : string := "package main

import (
	""flag""
	""fmt""
	""os""
	""strings""

	""{{.ImportPath -}} /server""
)

var config server.Config

func init() {
	flag.StringVar(&config.DebugAddr, ""debug.addr"", "":5060"", ""Debug and metrics listen address"")
	flag.StringVar(&config.HTTPAddr, ""http.addr"", """", ""HTTP listen address"")
	flag.StringVar(&config.GRPCAddr, ""grpc.addr"", """", ""gRPC (HTTP) listen address"")
	flag.StringVar(&config.NATSAddr, ""nats.addr"", """", ""NATS listen address"")
	flag.BoolVar(&config.Debug, ""debug"", false, ""Debug mode"")

	// Use environment variables, if set. Flags have priority over Env vars.
	if debug := os.Getenv(""DEBUG""); debug != """" {
		config.Debug = ""true"" == strings.ToLower(debug)
	}
	if addr := os.Getenv(""DEBUG_ADDR""); addr != """" {
		config.DebugAddr = addr
	}
	if port := os.Getenv(""PORT""); port != """" {
		config.HTTPAddr = fmt.Sprintf("":%s"", port)
	}
	if addr := os.Getenv(""HTTP_ADDR""); addr != """" {
		config.HTTPAddr = addr
	}
	if addr := os.Getenv(""GRPC_ADDR""); addr != """" {
		config.GRPCAddr = addr
	}
	if addr := os.Getenv(""NATS_ADDR""); addr != """" {
		config.NATSAddr = addr
	}
}

func main() {
	// Update addresses if they have been overwritten by flags
	flag.Parse()

	if config.HTTPAddr == """" && config.GRPCAddr == """" && config.NATSAddr == """" {
		fmt.Println(""no server to run, serve addr must be set one of [http.addr|grpc.addr|nats.addr]"")		
	}
	server.Run(config)
}
"%string.

(** gengokit/template/NAME-service/cmd/NAME-client/main.go.tmpl:1-119 *)
Definition cmd_client_text : string := "package main

import (
	""context""
	""flag""
	""log""
	{{if eq .Config.Transport ""all"" ""nats"" }}
	""github.com/nats-io/nats.go""
	{{end}}

	pb ""{{.PBImportPath -}}""
	{{if eq .Config.Transport ""all"" ""grpc"" }}
	""google.golang.org/grpc""
	{{end}}
)

var (
	grpcAddr string
	httpAddr string
	natsAddr string
)

func init() {
	flag.StringVar(&grpcAddr, ""grpc.addr"", "":5040"", ""gRPC (HTTP) listen address"")
	flag.StringVar(&httpAddr, ""http.addr"", "":5050"", ""HTTP listen address"")
	flag.StringVar(&natsAddr, ""nats.addr"", "":4222"", ""NATS listen address"")
}

func main() {
	flag.Parse()
	{{with $te := . }}
	{{if eq $te.Config.Transport ""all"" ""grpc"" }}
	// Baron GRPC Client
	log.Println(""[GRPC.{{$te.Service.Name}}]"")
	pln()
	conn, err := grpc.Dial(
		grpcAddr,
		grpc.WithInsecure(),
		grpc.WithBlock(),
	)
	if err != nil {
		log.Fatal(err)
	}
	defer conn.Close()
	baronGRPCClient, err := pb.NewGRPCClient(conn)
	if err != nil {
		log.Fatal(err)
	}
	{{range $i := $te.Service.Methods}}
	// GRPC.{{$te.Service.Name}}.{{$i.Name}}
	{
		ctx := context.Background()
		var in pb.{{GoName $i.RequestType.Name}}
		out, err := baronGRPCClient.{{GoName $i.Name}}(ctx, &in)
		if err != nil {
			log.Fatalf(""[Baron.GRPCClient] {{$te.Service.Name}}.{{GoName $i.Name}} err=%v\n"", err)
		}
		log.Printf(""[Baron.GRPCClient] {{$te.Service.Name}}.{{GoName $i.Name}} result=%+v\n"", *out)
		pln()
	}
	{{end}}
	{{end}}

	{{if $te.HTTPHelper.Methods}}
	// Baron HTTP Client
	log.Println(""[HTTP][{{$te.Service.Name}}]"")
	pln()
	{{range $method := $te.HTTPHelper.Methods}}
	// HTTP.{{$te.Service.Name}}.{{$method.Name}}
	{
		ctx := context.Background()
		var in pb.{{GoName $method.RequestType}}
		baronHTTPClient, err := pb.NewHTTPClient(httpAddr)
		if err != nil {
			log.Fatal(err)
		}
		out, err := baronHTTPClient.{{GoName $method.Name}}(ctx, &in)
		if err != nil {
			log.Fatalf(""[Baron.HTTPClient] {{$te.Service.Name}}.{{GoName $method.Name}} err=%v\n"", err)
		}
		log.Printf(""[Baron.HTTPClient] {{$te.Service.Name}}.{{GoName $method.Name}} result=%+v\n"", *out)
		pln()
		}
	{{end}}
	{{end}}

	{{if eq $te.Config.Transport ""all"" ""nats""}}
	// Baron NATS Client
	log.Println(""[NATS.{{$te.Service.Name}}]"")
	pln()
	nc, err := nats.Connect(natsAddr)
	if err != nil {
		log.Fatal(err)
	}
	defer nc.Close()
	baronNATSClient, err := pb.NewNATSClient(nc)
	if err != nil {
		log.Fatal(err)
	}
	{{range $i := $te.Service.Methods}}
	// NATS.{{$te.Service.Name}}.{{$i.Name}}
	{
		ctx := context.Background()
		var in pb.{{GoName $i.RequestType.Name}}
		out, err := baronNATSClient.{{GoName $i.Name}}(ctx, &in)
		if err != nil {
			log.Fatalf(""[Baron.NATSClient] {{$te.Service.Name}}.{{GoName $i.Name}} err=%v\n"", err)
		}
		log.Printf(""[Baron.NATSClient] {{$te.Service.Name}}.{{GoName $i.Name}} result=%+v\n"", *out)
		pln()
	}
	{{end}}
	{{end}}

	{{end}}
}
func pln() {
	log.Println(""---------------------------------------------------------------------------------"")
}
"%string.

(** gengokit/template/NAME-service/server/endpoints.go.tmpl:1-15 *)
Definition server_endpoints_text : string := "package server

import (
	pb ""{{.PBImportPath -}}""
	""{{.ImportPath -}}/service""
)

// Endpoints application domain
func Endpoints() pb.Endpoints {
	svc := service.NewService()
	endpoints := NewEndpoints(svc)

	return endpoints
}

"%string.

(** gengokit/template/NAME-service/server/interrupt.go.tmpl:1-19 *)
Definition server_interrupt_text : string := "package server

import (
	""fmt""
	""os""
	""os/signal""
	""syscall""
)

// Interrupt server interrupt
func Interrupt(errc chan<- error) {
	c := make(chan os.Signal, 1)
	signal.Notify(c, syscall.SIGINT, syscall.SIGTERM)
	terminateError := fmt.Errorf(""%s"", <-c)

	// Place whatever shutdown handling you want here

	errc <- terminateError
}
"%string.

(** gengokit/template/NAME-service/server/server.go.tmpl:1-144 *)
Definition server_text : string := "// Code generated by baron. DO NOT EDIT.
// Rerunning baron will overwrite this file.
// Version: {{.Version}}
// Version Date: {{.VersionDate}}

package server

import (
	""log""
	""net""
	""net/http""
	""net/http/pprof""
	""runtime""

	{{if eq .Config.Transport ""all"" ""nats"" }}
	""github.com/nats-io/nats.go""
	{{end}}
	{{if eq .Config.Transport ""all"" ""grpc"" }}
	""google.golang.org/grpc""
	{{end}}

	pb ""{{.PBImportPath -}}""
	""{{.ImportPath -}}/service""
)

var (
	_ runtime.Error
	_ net.Error
)

// Config contains the required fields for running a server
type Config struct {
	HTTPAddr string
	DebugAddr string
	GRPCAddr string
	NATSAddr string
	Debug bool
}

// Run starts a new http server, gRPC server, and a debug server with the
// passed config and logger
func Run(cfg Config) {
	// Application domain
	endpoints := Endpoints()

	// Port domain
	errc := make(chan error)

	// Server Interrupt 
	go Interrupt(errc)

	// Debug listener
	if cfg.Debug {
		go func() {
			log.Println(""transport"", ""debug"", ""addr"", cfg.DebugAddr)

			m := http.NewServeMux()
			m.Handle(""/debug/pprof/"", http.HandlerFunc(pprof.Index))
			m.Handle(""/debug/pprof/cmdline"", http.HandlerFunc(pprof.Cmdline))
			m.Handle(""/debug/pprof/profile"", http.HandlerFunc(pprof.Profile))
			m.Handle(""/debug/pprof/symbol"", http.HandlerFunc(pprof.Symbol))
			m.Handle(""/debug/pprof/trace"", http.HandlerFunc(pprof.Trace))

			errc <- http.ListenAndServe(cfg.DebugAddr, m)
		}()
	}
	{{if .HTTPHelper.Methods}}
	// HTTP transport
	if cfg.HTTPAddr != """" {
		go func() {
			log.Println(""transport"", ""HTTP"", ""addr"", cfg.HTTPAddr)
			h := pb.MakeHTTPHandler(endpoints, HTTPServerOptions()...)
			errc <- http.ListenAndServe(cfg.HTTPAddr, h)
		}()
	}
	{{end}}
	{{if eq .Config.Transport ""all"" ""grpc"" }}
	// gRPC transport
	if cfg.GRPCAddr != """" {
		go func() {
			log.Println(""transport"", ""gRPC"",""addr"", cfg.GRPCAddr)
			ln, err := net.Listen(""tcp"", cfg.GRPCAddr)
			if err != nil {
				errc <- err
				return
			}

			srv := pb.MakeGRPCServer(endpoints, GRPCServerOptions()...)
			s := grpc.NewServer()
			pb.Register{{.Service.Name}}Server(s, srv)

			errc <- s.Serve(ln)
		}()
	}
	{{end}}
	{{if eq .Config.Transport ""all"" ""nats"" }}
	// NATS transport
	if cfg.NATSAddr != """" {
		go func() {
			log.Println(""transport"", ""NATS"",""addr"", cfg.NATSAddr)
			conn, err := nats.Connect(cfg.NATSAddr)
			if err != nil {
				errc <- err
				return
			}
			closeConn := func(c *nats.Conn) {
				c.Close()
			}
			runtime.SetFinalizer(conn, closeConn)

			srv := pb.MakeNATSServer(endpoints, NATSSubscriberOptions()...)
			err = pb.ServeNATS(conn, srv)
			if err != nil {
				errc <- err
				return
			}
		}()
	}
	{{end}}

	// Exit
	log.Println(""exit"", <-errc)
}

func NewEndpoints(svc pb.{{.Service.Name}}Server) pb.Endpoints {
	// Business domain
	svc = service.WrapService(svc)
	// Endpoint domain
	var (
	{{range $i := .Service.Methods -}}
		{{ToLower $i.Name}}Endpoint = pb.Make{{$i.Name}}Endpoint(svc)
	{{end}}
	)

	endpoints := pb.Endpoints{
	{{range $i := .Service.Methods -}}
		{{$i.Name}}Endpoint:    {{ToLower $i.Name}}Endpoint,
	{{end}}
	}
	// Wrap selected Endpoints with middlewares
	endpoints = service.WrapEndpoints(endpoints)

	return endpoints
}
"%string.

(** gengokit/template/NAME-service/server/wrapper.go.tmpl:1-40 *)
Definition server_wrapper_text : string := "package server

import (
	grpctransport ""github.com/go-kit/kit/transport/grpc""
	httptransport ""github.com/go-kit/kit/transport/http""
	natstransport ""github.com/go-kit/kit/transport/nats""
)

var (
	_ grpctransport.Server
	_ httptransport.Server
	_ natstransport.Subscriber
)

// GRPCServerOptions GRPC 服务传输选项
func GRPCServerOptions() []grpctransport.ServerOption {
	// default
	// serverOptions := []grpctransport.ServerOption{
	// 	grpctransport.ServerBefore(GRPCMetadataToContext),
	// }
	return nil
}

// HTTPServerOptions GRPC 服务传输选项
func HTTPServerOptions() []httptransport.ServerOption {
	// default
	// serverOptions := []httptransport.ServerOption{
	// 	httptransport.ServerBefore(pb.HTTPHeadersToContext),
	// 	httptransport.ServerErrorEncoder(errorEncoder),
	// 	httptransport.ServerAfter(httptransport.SetContentType(contentType)),
	// }
	return nil
}

// NATSSubscriberOptions NATS 订阅器选项
func NATSSubscriberOptions() []natstransport.SubscriberOption {
	// default none
	// options := []natstransport.SubscriberOption{}
	return nil
}
"%string.

(** gengokit/template/NAME-service/service/service.go.tmpl:1-24 *)
Definition service_text : string := "package service

import (
	""context""

	pb ""{{.PBImportPath -}}""
)

func NewService() *{{ToLower .Service.Name}}Service {
	return &{{ToLower .Service.Name}}Service{}
}

type {{ToLower .Service.Name}}Service struct {
	pb.Unimplemented{{.Service.Name}}Server
}

{{with $te := . }}
	{{range $i := $te.Service.Methods}}
		func (s *{{ToLower $te.Service.Name}}Service) {{$i.Name}}(ctx context.Context, in *pb.{{GoName $i.RequestType.Name}}) (*pb.{{GoName $i.ResponseType.Name}}, error){
			var resp pb.{{GoName $i.ResponseType.Name}}
			return &resp, nil
		}
	{{end}}
{{- end}}
"%string.

(** gengokit/template/NAME-service/service/service_methods.go.tmpl:1-8 *)
Definition service_methods_text : string := "{{ with $t := .}}
	{{range $i := .Methods}}
		func (s *{{ToLower $t.ServiceName}}Service) {{.Name}}(ctx context.Context, in *pb.{{GoName .RequestType.Name}}) (*pb.{{GoName .ResponseType.Name}}, error){
			var resp pb.{{GoName .ResponseType.Name}}
			return &resp, nil
		}
	{{end}}
{{- end}}
"%string.

(** gengokit/template/NAME-service/service/wrapper.go.tmpl:1-35 *)
Definition service_wrapper_text : string := "package service

import (
	pb ""{{.PBImportPath -}}""
)

// WrapEndpoints accepts the service's entire collection of endpoints, so that a
// set of middlewares can be wrapped around every middleware (e.g., access
// logging and instrumentation), and others wrapped selectively around some
// endpoints and not others (e.g., endpoints requiring authenticated access).
// Note that the final middleware wrapped will be the outermost middleware
// (i.e. applied first)
func WrapEndpoints(in pb.Endpoints) pb.Endpoints {

	// Pass a middleware you want applied to every endpoint.
	// optionally pass in endpoints by name that you want to be excluded
	// e.g.
	// in.WrapAllExcept(authMiddleware, ""Status"", ""Ping"")

	// Pass in a svc.LabeledMiddleware you want applied to every endpoint.
	// These middlewares get passed the endpoints name as their first argument when applied.
	// This can be used to write generic metric gathering middlewares that can
	// report the endpoint name for free.
	// github.com/teamlint/baron/_example/middlewares/labeledmiddlewares.go for examples.
	// in.WrapAllLabeledExcept(errorCounter(statsdCounter), ""Status"", ""Ping"")

	// How to apply a middleware to a single endpoint.
	// in.ExampleEndpoint = authMiddleware(in.ExampleEndpoint)

	return in
}

func WrapService(in pb.{{.Service.Name}}Server) pb.{{.Service.Name}}Server {
	return in
}
"%string.

(** gengokit/template/template.go:284-302, Asset and AssetString: None: no such asset *)
Definition asset_string (name : str) : option str :=
  mget [(BaronPath, T baron_text); (CmdServerPath, T cmd_server_text); (CmdClientPath, T cmd_client_text); (ServerEndpointsPath, T server_endpoints_text);
        (ServerInterruptPath, T server_interrupt_text); (ServerPath, T server_text); (ServerWrapperPath, T server_wrapper_text); (ServicePath, T service_text);
        (ServiceMethodsPath, T service_methods_text); (ServiceWrapperPath, T service_wrapper_text)] name.
