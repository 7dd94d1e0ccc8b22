{"id": "C01", "title": "Scanning a proto file always terminates and always makes progress", "statement": "NewSvcScanner returns for every input text; every unit it yields is non-empty and consumes at least one rune, so there are never more units than runes.", "quantifier": "every finite text (every sequence of runes) and every classification of non-ASCII runes", "why_tests_cant": "an endless loop shows only on the input that triggers it; tests run finitely many inputs", "anchors": ["svcdef/svcparse/scanner.go:BuildScanUnit", "svcdef/svcparse/scanner.go:NewSvcScanner"]}
{"id": "C02", "title": "Scanning is the inverse of writing units down", "statement": "If a file is the concatenation of lexical units (white-space runs, identifier runs, double-quoted strings with escapes, // comments ended by a newline, /* */ comments whose body has no '*', single symbols) in which no two adjacent units could merge, NewSvcScanner returns exactly those units, in order.", "quantifier": "every sequence of well-shaped, non-merging units of any length", "why_tests_cant": "round trip over an infinite set of files", "anchors": ["svcdef/svcparse/scanner.go:BuildScanUnit", "svcdef/svcparse/scanner.go:NewSvcScanner"]}
{"id": "C03", "title": "Scanner units are exactly the text, in order", "statement": "The concatenated unit values are always a subsequence of the file, and equal a prefix of the file (all of it, unless the last unit is unterminated) when no block comment contains a '*' other than its closing one. (The unrestricted lossless claim is false: a rune following an inner '*' is dropped and '**/' does not close the comment.)", "quantifier": "every input text", "why_tests_cant": "losing a rune depends on arbitrary comment contents", "anchors": ["svcdef/svcparse/scanner.go:BuildScanUnit"]}
{"id": "C04", "title": "Line numbers reported for units are right", "statement": "Every unit's LineNo is 1 plus the number of newlines in the file up to and including the end of that unit.", "quantifier": "every input text and every unit of it", "why_tests_cant": "must hold after any combination of reads and unreads of newlines", "anchors": ["svcdef/svcparse/scanner.go:RuneReader", "svcdef/svcparse/scanner.go:BuildScanUnit"]}
{"id": "C05", "title": "Brace depth and service-region flags follow the text", "statement": "For every unit, BraceLevel is the depth before the scan plus the number of '{' units minus the number of '}' units up to and including it; a unit is marked in-body exactly when a 'service' identifier followed by '{' opened a body that has not returned to depth 0, and in-definition exactly between such an identifier and the next '{'.", "quantifier": "every input text, every unit of it and every initial value of the scanner's package state", "why_tests_cant": "depth and nesting are unbounded", "anchors": ["svcdef/svcparse/scanner.go:BuildScanUnit"]}
{"id": "C06", "title": "Scanning one file does not depend on files scanned before", "statement": "If every earlier file left the braces balanced and no service header or body open, the units of a file are those obtained by scanning it first. (Without that condition the claim is false: withinBody, withinDef and braceLev are package globals that are never reset.)", "quantifier": "every list of earlier files and every file", "why_tests_cant": "depends on process history", "anchors": ["svcdef/svcparse/scanner.go:withinBody", "svcdef/svcparse/scanner.go:BuildScanUnit"]}
{"id": "C07", "title": "Un-reading units returns the scanner to where it was", "statement": "From any scanner reached by reads and un-reads and positioned after two or more units, reading and un-reading, and un-reading to an earlier position >= 1, restore position, brace level, flags and line number; un-reading at position 0 is an error that changes nothing. (Un-reading the very first unit is refuted: it panics.)", "quantifier": "every unit buffer, every position, every sequence of reads and un-reads", "why_tests_cant": "history dependent", "anchors": ["svcdef/svcparse/scanner.go:ReadUnit", "svcdef/svcparse/scanner.go:UnreadUnit", "svcdef/svcparse/scanner.go:UnReadToPosition"]}
{"id": "C08", "title": "The lexer emits tokens from service definitions only, and all of them", "statement": "For a file in which the word 'service' occurs as a unit only at the head of service definitions, the token values concatenated are exactly the text of the service definitions (from 'service' through the closing brace), with everything between them skipped; every token has the class its first rune dictates.", "quantifier": "every file that is an alternation of service-free text and closed service definitions", "why_tests_cant": "any length, any surrounding declarations", "anchors": ["svcdef/svcparse/lexer.go:NewTokenGroup", "svcdef/svcparse/scanner.go:FastForward"]}
{"id": "C09", "title": "The lexer terminates, and does not panic on files whose services are closed", "statement": "NewSvcLexer returns for every file whose every comment inside a service definition is followed by a later non-space, non-comment unit. (The unrestricted no-panic claim is false: a comment at the end of an unclosed service panics with EOF.)", "quantifier": "every unit buffer", "why_tests_cant": "a panic needs the one input that reaches it", "anchors": ["svcdef/svcparse/lexer.go:NewTokenGroup", "svcdef/svcparse/lexer.go:NewSvcLexer"]}
{"id": "C10", "title": "Adjacent comments form one comment token", "statement": "A maximal run of comment units separated by nothing or by newline-free white space inside a service becomes exactly one COMMENT token whose value is the run's text; a newline-containing white space or any other unit ends the run and stays unread.", "quantifier": "every run length and every position", "why_tests_cant": "unbounded runs", "anchors": ["svcdef/svcparse/lexer.go:NewTokenGroup"]}
{"id": "C11", "title": "Lexer rewind is exact", "statement": "For every lexer state reached by gets and un-gets, a successful GetToken followed by UnGetToken restores the position, UnGetToPosition reaches any earlier position, and re-reading returns the same tokens.", "quantifier": "every token buffer and every sequence of operations", "why_tests_cant": "history dependent", "anchors": ["svcdef/svcparse/lexer.go:GetToken", "svcdef/svcparse/lexer.go:UnGetToken", "svcdef/svcparse/lexer.go:UnGetToPosition"]}
{"id": "C12", "title": "Parsing a service always terminates", "statement": "ParseService (and so ParseMethod, ParseHttpBindings, ParseBindingFields) returns, with a service or an error, for every token buffer.", "quantifier": "every token buffer", "why_tests_cant": "non-termination on an untested token order cannot be excluded by examples", "anchors": ["svcdef/svcparse/parser.go:ParseService", "svcdef/svcparse/parser.go:ParseMethod", "svcdef/svcparse/parser.go:ParseHttpBindings", "svcdef/svcparse/parser.go:ParseBindingFields"]}
{"id": "C13", "title": "White space never changes what a service definition means", "statement": "ParseService returns the same service, or fails with the same kind of error, on two token buffers that differ only in WHITESPACE tokens.", "quantifier": "every pair of token buffers equal up to white space", "why_tests_cant": "infinitely many layouts", "anchors": ["svcdef/svcparse/parser.go:ParseService", "svcdef/svcparse/lexer.go:GetTokenIgnoreWhitespace"]}
{"id": "C14", "title": "What is written in a service definition is what is parsed", "statement": "For every service (name, rpcs, comments, request and response types, optional stream keyword, http option with fields, custom pattern, additional bindings) its written form parses back to that service, rpcs without an http option being left out.", "quantifier": "every service of any number of rpcs, bindings and fields", "why_tests_cant": "round trip over an infinite grammar", "anchors": ["svcdef/svcparse/parser.go:ParseService"]}
{"id": "C15", "title": "Every parsed method has at least one HTTP binding", "statement": "Every method returned by a successful ParseService has a non-empty list of HTTP bindings, a name, and request/response type names taken from identifier tokens of the file.", "quantifier": "every token buffer on which parsing succeeds", "why_tests_cant": "all inputs", "anchors": ["svcdef/svcparse/parser.go:ParseMethod", "svcdef/svcparse/parser.go:ParseHttpBindings"]}
{"id": "C16", "title": "Order of HTTP bindings", "statement": "The bindings of a method are its additional_bindings in the order written, followed by the binding of the option itself, which is therefore always the last; the generated HTTP client uses the first in this order.", "quantifier": "every option with any number of additional bindings", "why_tests_cant": "unbounded number of bindings", "anchors": ["svcdef/svcparse/parser.go:ParseHttpBindings", "gengokit/httptransport/httptransport.go:NewMethod"]}
{"id": "C17", "title": "Every request field has exactly one place in every binding", "statement": "After consolidation, the parameter list of every binding has exactly one entry per field of the request message, in field order, each located in path, body or query.", "quantifier": "every service, method, binding and request message", "why_tests_cant": "all combinations of fields and options", "anchors": ["svcdef/consolidate_http.go:createParams", "svcdef/consolidate_http.go:assembleHTTPParams", "svcdef/consolidate_http.go:paramLocation"]}
{"id": "C18", "title": "Where a field travels", "statement": "A field is a path parameter iff the first dotted component of some {...} in the binding's path is, CamelCased, the field's name; otherwise it is in the body iff the body option is '*' or names the field (literally or CamelCased); otherwise it is in the query.", "quantifier": "every field and every binding", "why_tests_cant": "all templates", "anchors": ["svcdef/consolidate_http.go:paramLocation", "svcdef/consolidate_http.go:getPathParams"]}
{"id": "C19", "title": "Which verb and path a binding has", "statement": "If the binding has a custom pattern, verb and path are its last kind and last path; otherwise they are the kind and value of the first field whose kind is get, put, post, delete or patch; otherwise both are empty.", "quantifier": "every binding", "why_tests_cant": "all field orders", "anchors": ["svcdef/consolidate_http.go:getVerb"]}
{"id": "C20", "title": "Path parameters are exactly the braced parts of the template", "statement": "For every template written as literal text without braces alternating with {name} parts (names free of '}' and newline), the path parameters found are exactly those names, in order.", "quantifier": "every template", "why_tests_cant": "unbounded templates", "anchors": ["svcdef/consolidate_http.go:getPathParams"]}
{"id": "C21", "title": "Consolidation touches exactly the methods named in the proto service", "statement": "assembleHTTPParams leaves every other method unchanged, changes nothing but the bindings of a named method, and fails iff some parsed method is not a method of the Go service or its request message is unknown.", "quantifier": "every service and every parsed service", "why_tests_cant": "all name sets", "anchors": ["svcdef/consolidate_http.go:assembleHTTPParams", "svcdef/consolidate_http.go:createParams"]}
{"id": "C22", "title": "Consolidation does not depend on the order of the proto files", "statement": "If at most one proto file contains a service definition and none fails to parse, the consolidated definition is the same for every iteration order of the file map. (False without the condition: a file failing with an 'optional' parse error ends consolidation for the files after it.)", "quantifier": "every permutation of every finite map of files", "why_tests_cant": "Go map order is random", "anchors": ["svcdef/consolidate_http.go:consolidateHTTP"]}
{"id": "C23", "title": "CamelCase of a proto identifier is an exported Go identifier", "statement": "For every non-empty proto identifier (dots allowed) GoCamelCase returns a non-empty Go identifier starting with an ASCII capital letter and containing only ASCII letters, digits and underscores.", "quantifier": "every proto identifier", "why_tests_cant": "all strings", "anchors": ["pkg/strs.go:GoCamelCase"]}
{"id": "C24", "title": "CamelCase is stable", "statement": "GoCamelCase applied to its own result changes nothing, for every proto identifier without a dot. (False with dots: '._a'. It is not injective: foo_bar and FooBar collide.)", "quantifier": "every dot-free identifier", "why_tests_cant": "all strings", "anchors": ["pkg/strs.go:GoCamelCase"]}
{"id": "C25", "title": "JSON name conversions", "statement": "JSONSnakeCase is the left inverse of JSONCamelCase on lower-snake-case identifiers whose every underscore is followed by a lower-case letter; JSONCamelCase leaves underscore-free names alone, never outputs an underscore, and JSONSnakeCase never outputs an ASCII capital.", "quantifier": "every such identifier", "why_tests_cant": "all strings", "anchors": ["pkg/strs.go:JSONCamelCase", "pkg/strs.go:JSONSnakeCase"]}
{"id": "C26", "title": "Sanitised names are legal Go identifiers", "statement": "GoSanitized returns a non-keyword Go identifier for every input string.", "quantifier": "every string", "why_tests_cant": "all strings", "anchors": ["pkg/strs.go:GoSanitized"]}
{"id": "C27", "title": "Binding labels within a method are distinct", "statement": "The labels (method name + English number of the index) of the bindings of one method are pairwise distinct, however many there are. (Distinctness across methods is false: method Foo's binding 10 and method FooOne's binding 0 are both FooOneZero.)", "quantifier": "every method name and every pair of binding indices", "why_tests_cant": "unbounded number of bindings", "anchors": ["gengokit/httptransport/httptransport.go:EnglishNumber", "gengokit/httptransport/httptransport.go:NewBinding"]}
{"id": "C28", "title": "Generated server recovers path parameters from a URL built by the template", "statement": "PathParams never fails on a URL with the same number of '/'-separated segments as the template; for every template and all '/'-free values it returns each parameter's value; a URL with another number of segments is an error.", "quantifier": "every template and every assignment of segment values", "why_tests_cant": "all urls", "anchors": ["gengokit/httptransport/embeddable_funcs.go:PathParams", "gengokit/httptransport/embeddable_funcs.go:BuildParamMap"]}
{"id": "C29", "title": "Generated client and server agree on query and path fields", "statement": "For every request and every binding whose verb is get, encoding by the generated client and decoding by the generated server gives back the request when fields are in path or query, path strings are non-empty and free of URL-special characters, and repeated strings do not have length 1. (Each exclusion is a refutation of the unrestricted claim.)", "quantifier": "every field list, every value, every binding", "why_tests_cant": "all values and field combinations", "anchors": ["gengokit/httptransport/get_source.go", "gengokit/template/NAME-service/baron/NAME.pb.baron.go.tmpl", "gengokit/httptransport/httptransport.go:createDecodeConvertFunc"]}
{"id": "C30", "title": "Bodies: what a non-GET request carries", "statement": "For every binding whose verb is not get, the generated client sends the whole request as the JSON body, and the server's decode returns the request again under the conditions of the path/query round trip.", "quantifier": "every request and every such binding", "why_tests_cant": "all values", "anchors": ["gengokit/template/NAME-service/baron/NAME.pb.baron.go.tmpl"]}
{"id": "C31", "title": "Type conversions generated for decoding are well typed", "statement": "For every non-optional scalar, enum and repeated field the assignment generated for the server's decode has the field's Go type. (For optional int32, uint32, float32 and enum fields it is refuted: the generated Go does not compile.)", "quantifier": "every field type", "why_tests_cant": "all types and containers", "anchors": ["gengokit/httptransport/httptransport.go:createDecodeTypeConversion", "gengokit/httptransport/httptransport.go:createDecodeConvertFunc"]}
{"id": "C32", "title": "Middleware wrapping is exact", "statement": "WrapAllExcept applies the middleware exactly once to each endpoint not excluded and never to an excluded one, whatever the map order; it panics, having changed nothing, iff an excluded name is unknown or repeated. The labelled variant passes the endpoint's own name.", "quantifier": "every endpoint set, every exclusion list, every map order", "why_tests_cant": "map order and exclusion sets are unbounded", "anchors": ["gengokit/template/NAME-service/baron/NAME.pb.baron.go.tmpl"]}
{"id": "C33", "title": "HTTP headers reach the context", "statement": "HTTPHeadersToContext stores the first value of every header under its canonical and its lower-cased name and never loses an unrelated context value; request-url and transport always hold the url and 'HTTPJSON'.", "quantifier": "every header map, every iteration order, every prior context", "why_tests_cant": "all header maps", "anchors": ["gengokit/template/NAME-service/baron/NAME.pb.baron.go.tmpl:HTTPHeadersToContext"]}
{"id": "C34", "title": "Errors survive the HTTP hop", "statement": "For every error returned by a service, the status code written is the error's own if it has one (else 500), and the client's decode of the response is an error carrying that message; a client decode never yields a nil response with a nil error.", "quantifier": "every error and every response", "why_tests_cant": "all errors", "anchors": ["gengokit/template/NAME-service/baron/NAME.pb.baron.go.tmpl:errorEncoder", "gengokit/template/NAME-service/baron/NAME.pb.baron.go.tmpl:errorDecoder"]}
{"id": "C35", "title": "Regeneration keeps the user's own code", "statement": "For every existing service file, every declaration that is not an exported function, and NewService, is kept unchanged and in its order.", "quantifier": "every Go file (as a list of declarations) and every service definition", "why_tests_cant": "all files", "anchors": ["gengokit/service/services.go:pruneDecls", "gengokit/service/services.go:Render"]}
{"id": "C36", "title": "Regeneration gives exactly one handler per rpc", "statement": "After rendering, for every previous file the exported functions other than NewService are exactly one handler per rpc of the service, each with the service's receiver.", "quantifier": "every previous file and every service", "why_tests_cant": "all files", "anchors": ["gengokit/service/services.go:pruneDecls", "gengokit/service/services.go:Render"]}
{"id": "C37", "title": "Regeneration keeps handler bodies", "statement": "The first handler of each still-existing rpc with the right receiver keeps its name, receiver and body; only the package-qualified types of its request and response change, to those of the rpc.", "quantifier": "every previous file", "why_tests_cant": "all files", "anchors": ["gengokit/service/services.go:pruneDecls", "gengokit/service/services.go:updateMethods", "gengokit/service/services.go:updateParams", "gengokit/service/services.go:updateResults"]}
{"id": "C38", "title": "Regeneration is idempotent", "statement": "Rendering a service file again with an unchanged service leaves its declarations unchanged.", "quantifier": "every previous file and service", "why_tests_cant": "all files", "anchors": ["gengokit/service/services.go:Render"]}
{"id": "C39", "title": "Exactly the expected files are generated", "statement": "GenerateService writes exactly the files of the template set (minus the client command when not asked for), each template to its own path, distinct paths for distinct templates, for every service name.", "quantifier": "every service name and configuration", "why_tests_cant": "all names", "anchors": ["gengokit/generator/gen.go:GenerateService", "gengokit/generator/gen.go:templatePathToActual"]}
{"id": "C40", "title": "User-owned files survive regeneration", "statement": "For every previous generation, the wrapper, middleware, interrupt and command files are written back with their previous content (formatted); the server runner is always the fresh template.", "quantifier": "every previous generation", "why_tests_cant": "all contents", "anchors": ["gengokit/generator/gen.go:generateResponseFile", "gengokit/service/server.go", "gengokit/service/cmd_server.go"]}
{"id": "C41", "title": "A failing generation writes nothing", "statement": "If any template fails to render, no file is created, truncated or changed but the .pb.baron.go file, which is written before; files outside the generated set (and the directories of old versions that are cleaned) are never touched, at any crash point; at a crash point each generated file is as it was or has a beginning of its new content. (Every run passes a point where the file is empty: the write is not atomic.)", "quantifier": "every configuration, every failing template, every crash point, every file system", "why_tests_cant": "crash points", "anchors": ["cmd/baron/main.go:generateCode", "cmd/baron/main.go:writeGenFile"]}
{"id": "C42", "title": "Only files in the same directory are accepted", "statement": "cleanProtofilePath succeeds iff all paths have the same directory, and then returns the absolute paths in order.", "quantifier": "every list of paths", "why_tests_cant": "all path lists", "anchors": ["cmd/baron/main.go:cleanProtofilePath"]}
{"id": "C43", "title": "Start never overwrites", "statement": "start.Do leaves every existing file as it is: it either writes one new file or fails.", "quantifier": "every file-system state and every name", "why_tests_cant": "all states", "anchors": ["internal/start/start.go:Do"]}
{"id": "C44", "title": "Names made by start are legal", "statement": "For every service name over letters, digits, spaces, '-' and '_' that starts with a letter, the package, service and file names produced are legal proto names and the starter file parses to one rpc with a GET binding.", "quantifier": "every such name", "why_tests_cant": "all names", "anchors": ["internal/start/start.go"]}
{"id": "C45", "title": "The server stops with an error some part of it reported", "statement": "In every schedule of the generated server's goroutines, Run returns only with one of the errors sent on its error channel, and can return as soon as any goroutine reports.", "quantifier": "every interleaving", "why_tests_cant": "schedules", "anchors": ["gengokit/template/NAME-service/server/server.go.tmpl:Run"]}
{"id": "C46", "title": "Field names come from the protobuf tag", "statement": "For every struct tag of the form protoc-gen-go writes (key:\"literal\" pairs; the protobuf literal is kind,number,cardinality,[packed,]name=NAME,...) the field's proto name is NAME, its Go name that of the struct field; a field without a protobuf entry has no proto name; the reading of a tag panics only for an entry of exactly four parts without an equals sign in the last.", "quantifier": "every tag", "why_tests_cant": "all tags", "anchors": ["svcdef/svcdef.go:NewField"]}
{"id": "C47", "title": "Types are resolved to the message or enum of that name", "statement": "In every definition New returns, the enum of a field's or method's type is the last enum with the name of the type, its message the last message with that name if no enum has it, and it has neither otherwise; of a map with pointer values that is said of the value type. (Refuted: map values of enum type are not linked; map values that are bytes or messages of another package lose their name; a request type of another package is taken for the local message of that name.)", "quantifier": "every definition", "why_tests_cant": "all definitions", "anchors": ["svcdef/resolvetypes.go"]}
{"id": "C48", "title": "Definitions built twice in a process are the same", "statement": "A second call of svcdef.New in a process on the same files gives the same definition if no file has oneofs; with oneofs it still succeeds, with the same enums and service, and its messages are all exported structs. (Refuted with oneofs: the package-global oneofs of the first call makes the option structs messages in the second.)", "quantifier": "every input and every process history", "why_tests_cant": "history dependent", "anchors": ["svcdef/svcdef.go:oneofs", "svcdef/svcdef.go:New"]}
{"id": "C49", "title": "Trimming an enum prefix only drops the prefix", "statement": "TrimEnumPrefix returns a suffix of the value name, never the empty string for a non-empty name; what it drops, underscores removed and lower-cased, is the prefix; and a name PREFIX_REST loses exactly the prefix and the underscores after it. EnumValueName and MapEntryName never contain an underscore.", "quantifier": "all ASCII names and prefixes", "why_tests_cant": "Holds for every pair of strings; interplay of underscores and partial matches has unboundedly many cases.", "anchors": ["pkg/strs.go: TrimEnumPrefix, EnumValueName, MapEntryName"]}
{"id": "C50", "title": "A generated binding has every parameter exactly once", "statement": "For every method and binding, the transport binding has the binding's path and verb; its fields are exactly the parameters that are no oneof and whose type has a name (so all but maps), in order and each with its own names, location and type; its oneofs are exactly the oneof parameters; and its base path is the path before the first '{'.", "quantifier": "every method, binding index and parameter list", "why_tests_cant": "parameter lists are unbounded and mix kinds arbitrarily", "anchors": ["gengokit/httptransport/httptransport.go:NewBinding", "gengokit/httptransport/httptransport.go:basePath"]}
{"id": "C51", "title": "Query text round-trips", "statement": "For every set of query values over bytes, the text a generated client puts into the URL is parsed by the server into the same values per key, in order; keys without a value disappear; the text is in key order, so it does not depend on map iteration.", "quantifier": "every map from byte strings to lists of byte strings", "why_tests_cant": "all keys and values, any byte", "anchors": ["gengokit/template/NAME-service/baron/NAME.pb.baron.go.tmpl:EncodeHTTP", "gengokit/template/NAME-service/baron/NAME.pb.baron.go.tmpl:DecodeHTTP"]}
{"id": "C52", "title": "The first matching route serves", "statement": "MakeHTTPHandler registers one route per binding of every method; a request is served by the first registered route (in definition order) whose upper-cased verb is the request's and whose template matches the path, and by none if there is no such route.", "quantifier": "every list of methods and bindings, every request", "why_tests_cant": "all route tables and paths", "anchors": ["gengokit/template/NAME-service/baron/NAME.pb.baron.go.tmpl:MakeHTTPHandler"]}
{"id": "C53", "title": "Endpoints are transparent", "statement": "Calling a service through the endpoint made for one of its methods gives exactly the service's answer: its response when it reports no error (even a nil response pointer), its error otherwise. The call panics iff the endpoint (as made by some middleware) returns neither a response nor an error.", "quantifier": "every service function, every endpoint, every request", "why_tests_cant": "all services and middlewares", "anchors": ["gengokit/template/NAME-service/baron/NAME.pb.baron.go.tmpl"]}
{"id": "C54", "title": "Context values sent over HTTP arrive", "statement": "A string value in the client's context under a key given to CtxValuesToSend (a header token; the last one listed of those that differ only in case) is in the server's context under the canonical and the lower-cased form of the key; other headers are untouched. (That it is found under the key itself is refuted.)", "quantifier": "every context, key list, prior headers and map order", "why_tests_cant": "all keys, contexts and orders", "anchors": ["gengokit/template/NAME-service/baron/NAME.pb.baron.go.tmpl:CtxValuesToSend", "gengokit/template/NAME-service/baron/NAME.pb.baron.go.tmpl:HTTPHeadersToContext"]}
{"id": "C55", "title": "Context values sent over gRPC arrive", "statement": "GRPCMetadataToContext makes the first value of each metadata entry available under its name and its canonical form, changes nothing else, and panics iff some entry is an empty non-nil slice. ContextValuesToGRPCMetadata appends to each name exactly the string values of the listed keys with that lower-cased name, in order; so the first one arrives at the server.", "quantifier": "every metadata, context, key list and map order", "why_tests_cant": "all maps and orders", "anchors": ["gengokit/template/NAME-service/baron/NAME.pb.baron.go.tmpl:GRPCMetadataToContext", "gengokit/template/NAME-service/baron/NAME.pb.baron.go.tmpl:ContextValuesToGRPCMetadata"]}
{"id": "C56", "title": "A call over HTTP does what the service does", "statement": "Calling a method of the generated HTTP client returns the service's response, or an error made of the status code and the service's error text, for every request the binding carries, every service and every route table whose earlier routes do not match; a request that no route matches is an error for the caller.", "quantifier": "every service, request, binding, route table", "why_tests_cant": "all services, requests and route tables", "anchors": ["gengokit/template/NAME-service/baron/NAME.pb.baron.go.tmpl:NewHTTPClient", "gengokit/template/NAME-service/baron/NAME.pb.baron.go.tmpl:MakeHTTPHandler", "gengokit/template/NAME-service/baron/NAME.pb.baron.go.tmpl:EncodeHTTPGenericResponse"]}
{"id": "C57", "title": "Running baron twice changes nothing", "statement": "If the Go tools round-trip (formatting is idempotent, the printed service file parses to what was printed), a second run on the same definition after a first run that finished also finishes and leaves every file of the disk with the content the first run gave it.", "quantifier": "every disk, service, map order and split of the writes", "why_tests_cant": "all disks and orders", "anchors": ["cmd/baron/main.go:main", "cmd/baron/main.go:readPreviousGeneration", "gengokit/generator/gen.go:GenerateGokit"]}
{"id": "C58", "title": "The files of a .proto file are its own", "statement": "The .pb.go, _grpc.pb.go and .pb.baron.go names are NAME.pb.go, NAME_grpc.pb.go and NAME.pb.baron.go for DIR/NAME.proto; distinct .proto files of a directory have distinct .pb.go and distinct _grpc.pb.go files, and baron's file is none of protoc's. (Refuted: the gRPC file of a.proto is the .pb.go file of a_grpc.proto.)", "quantifier": "every directory and names", "why_tests_cant": "all names", "anchors": ["internal/parsesvcname/parsesvcname.go:GetPBFileName", "internal/parsesvcname/parsesvcname.go:GetGRPCPBFileName", "cmd/baron/main.go:parseServiceDefinition"]}
{"id": "C59", "title": "A definition has the messages, enums and service of the files", "statement": "For every set of generated Go files of which at most one has oneofs, the definition's messages are the exported structs that are no oneof options, in order, each with its exported fields that do not begin with XXX_, their names, proto names and Go types; its enums are the int32 types; its service is the last interface NAMEServer not beginning with Unsafe, named NAME, with the exported methods and their request and response types; a oneof field has as options the first fields of the option structs, in order. (Refuted: a service whose name begins with Unsafe is not found.)", "quantifier": "every set of files", "why_tests_cant": "all files", "anchors": ["svcdef/svcdef.go:New", "svcdef/svcdef.go:NewMessage", "svcdef/svcdef.go:NewService"]}
{"id": "C60", "title": "Services with streaming methods are refused", "statement": "If any Server interface of the files has an exported method that does not take a context and a request pointer and return a response pointer first, New does not return a definition. (Refuted: the intention of the code to skip such methods.)", "quantifier": "every set of files", "why_tests_cant": "all files", "anchors": ["svcdef/svcdef.go:NewServiceMethod", "svcdef/svcdef.go:NewService"]}
{"id": "C61", "title": "The order in which files are visited does not matter", "statement": "If at most one file has oneofs, at most one interface is a Server and the files have the same package, definitions made by visiting the files in any two orders have the same messages up to order, the same enums up to order, the same service and package. (Refuted for two files with oneofs.)", "quantifier": "every permutation of the files (Go map order)", "why_tests_cant": "all map orders", "anchors": ["svcdef/svcdef.go:New"]}
{"id": "C62", "title": "Generated files are accepted", "statement": "New neither fails nor panics on files of the form protoc-gen-go and protoc-gen-go-grpc write (tags as in C46, map keys that are identifiers, unary methods, marker methods with pointer receivers), whatever earlier calls in the process left behind.", "quantifier": "every set of files of that form and every history", "why_tests_cant": "all files", "anchors": ["svcdef/svcdef.go:New"]}
{"id": "C63", "title": "The accepted service definitions are exactly a grammar", "statement": "ParseService succeeds exactly on the token sequences derivable in a fixed grammar (white space aside), returning the meaning the grammar gives them and stopping where the grammar says; the grammar is unambiguous; on every other token sequence it returns an error.", "quantifier": "every token buffer", "why_tests_cant": "exactness needs every accepted and every rejected input", "anchors": ["svcdef/svcparse/parser.go:ParseService", "svcdef/svcparse/parser.go:ParseMethod", "svcdef/svcparse/parser.go:ParseHttpBindings", "svcdef/svcparse/parser.go:ParseBindingFields"]}
{"id": "C64", "title": "Settings of the generated program: flag, then environment, then default", "statement": "For every environment and every command line the generated main program calls Run with, per setting, the value of the last flag given, else the environment variable (HTTP_ADDR before PORT), else the default; it stops instead exactly if the command line is not a sequence of its flags followed by operands, or a value of -debug is not a spelling of a boolean. (Refuted: DEBUG=1 in the environment does not mean what -debug=1 means; -debug false switches debug on and ignores what follows.)", "quantifier": "every environment and every command line", "why_tests_cant": "all combinations of flags, spellings and variables", "anchors": ["gengokit/template/NAME-service/cmd/NAME/main.go.tmpl:init", "gengokit/template/NAME-service/cmd/NAME/main.go.tmpl:main"]}
{"id": "C65", "title": "Where the generated service goes", "statement": "For every working directory, GOPATH, -svcout and service name: with no -svcout the service goes to NAME-service (lower case) in the working directory; a -svcout beginning with a dot or dot-dot element leads where it leads from the working directory; any other -svcout is followed from src in the first directory of GOPATH, staying below it unless it contains dot-dot elements; a -svcout ending in a slash gets NAME-service appended; every generated file is written at its own name below that directory, different files at different places; the program crashes on a -svcout exactly if GOPATH is empty and has no default. (Refuted: an absolute -svcout is not used as such but appended to GOPATH/src; with dot-dot elements the service leaves GOPATH/src.)", "quantifier": "every working directory, GOPATH value, -svcout text, service name and generated file", "why_tests_cant": "all path texts, with dots, empty elements and repeated slashes", "anchors": ["cmd/baron/main.go:parseInput", "cmd/baron/main.go:parseSVCOut", "cmd/baron/main.go:main"]}
{"id": "C66", "title": "The generated decoder accepts only well-formed parameters", "statement": "For every request from any client, when the generated server's request decoder returns a request: a single scalar or enum parameter has exactly the value its text in the path (or first query value) denotes for that type, so a text that denotes no value of the type is refused; a repeated scalar given several times is the list of what the texts denote; of a oneof at most one option was given in the query, and that option is set, and none given leaves what the body had. For the parameter types protoc-gen-go writes the decoder always returns a request or an error. (Refuted: a single text that is no JSON list given for a repeated string is refused too - its error is kept and later overwritten, so the request is accepted with an empty list.)", "quantifier": "every service, binding, path and query text and body, sent by any client", "why_tests_cant": "all texts of all parameters, in all combinations", "anchors": ["gengokit/httptransport/httptransport.go:createDecodeConvertFunc", "gengokit/httptransport/httptransport.go:GenQueryUnmarshaler", "gengokit/template/NAME-service/baron/NAME.pb.baron.go.tmpl:DecodeHTTP"]}
{"id": "C67", "title": "The names the generated transport file declares compile", "statement": "For every service with exported Go names, any number of bindings and any choice of transports: every name the generated file NAME.pb.baron.go declares, in the package, in Endpoints, grpcServer, natsServer and the client and server constructors, is an identifier declared once in its scope exactly if the service has a method; the methods differ, also without regard to case when gRPC or NATS is generated; none is a Go keyword in lower case when gRPC is generated; none is another's name followed by Endpoint; none is WrapAllExcept, WrapAllLabeledExcept or Unimplemented<Service>Server; the labels of the bindings differ, which they do when no method has more than ten bindings; and no message has a name of the file. (Refuted without these: GetX with Getx, Select, Foo with FooEndpoint, WrapAllExcept, a service without methods, a message Endpoints, Foo with eleven bindings and FooOne.)", "quantifier": "every service definition, set of messages and choice of transports", "why_tests_cant": "all combinations of method names", "anchors": ["gengokit/template/NAME-service/baron/NAME.pb.baron.go.tmpl", "gengokit/httptransport/httptransport.go:NewBinding"]}
{"id": "C68", "title": "The variables of a generated request decoder compile", "statement": "For every binding of a method whose Go name cannot be taken for the end Str, StrArr, OK or CountSet: the variables at the top of its request decoder are identifiers declared once exactly if the Go names of its path parameters and of the options of its query oneofs differ, and those of the oneofs; the block of a query parameter declares its variables once; no variable of the decoder hides an imported package, nor a type it names that ends in neither the method's name nor one of these words. (Refuted: a method Set with a path parameter foo_count and a oneof foo; path parameters a_b and aB; a method Status with a field order of the enum OrderStatus, whose variable hides the type.)", "quantifier": "every method, binding and set of parameters", "why_tests_cant": "all combinations of method and field names", "anchors": ["gengokit/httptransport/httptransport.go:GenQueryUnmarshaler", "gengokit/httptransport/httptransport.go:NewBinding", "gengokit/template/NAME-service/baron/NAME.pb.baron.go.tmpl:DecodeHTTP"]}
{"id": "C69", "title": "What the client reports for any answer that is no success", "statement": "For every response whose status is not 200, whatever its body: the generated client returns an error that begins with the status; it continues with the text of the last string member named error (in any case of letters) of a JSON object body, or nothing if there is none or the body is null, and otherwise, if the body is no JSON text or such a member is neither string nor null, with the first 8196 characters of the body. A status 200 whose body is no response is an error too. (Refuted: the report of an error member that is a number is not that error but says that the body is no JSON; a JSON body without error gives an empty text.)", "quantifier": "every status and body, from any server or proxy", "why_tests_cant": "all texts", "anchors": ["gengokit/template/NAME-service/baron/NAME.pb.baron.go.tmpl:errorDecoder", "gengokit/template/NAME-service/baron/NAME.pb.baron.go.tmpl:DecodeHTTP"]}
{"id": "C70", "title": "A call of the generated gRPC or NATS client reaches its own method", "statement": "For every service and method, a call of the generated gRPC client reaches that method of a server of the service exactly if the package of the .proto file is named like the Go package and the service and the method are named in CamelCase; while the Go names of the methods differ it never reaches another method of the service. Over NATS a request goes to exactly one of the processes that have a service of that name with that method, and is handled as that method. (Refuted: with a dotted package or none, no gRPC call ever reaches the service; next to a service named like the Go package, that one is called; over NATS services of one name in different packages get each other's requests.)", "quantifier": "every package, service and method name, every set of registered services and running processes", "why_tests_cant": "all names and all deployments", "anchors": ["gengokit/template/NAME-service/baron/NAME.pb.baron.go.tmpl:NewGRPCClient", "gengokit/template/NAME-service/baron/NAME.pb.baron.go.tmpl:ServeNATS", "gengokit/template/NAME-service/baron/NAME.pb.baron.go.tmpl:NewNATSClient", "svcdef/svcdef.go:New"]}
{"id": "C71", "title": "What a call over NATS returns", "statement": "For every service and request without a set oneof whose fields JSON takes there and back, the service is called with the same field values and a response likewise arrives with the same field values. (Refuted, for every service: an error of the service arrives as an empty response without an error, unless the response type has a field named err, which then holds the text of the error; a request with a set oneof never reaches the service and gives an empty response without an error; a response with a set oneof is an error for the caller.)", "quantifier": "every service, request, response and error", "why_tests_cant": "all messages and services", "anchors": ["gengokit/template/NAME-service/baron/NAME.pb.baron.go.tmpl:DecodeNATS", "gengokit/template/NAME-service/baron/NAME.pb.baron.go.tmpl:MakeNATSServer", "gengokit/template/NAME-service/baron/NAME.pb.baron.go.tmpl:NewNATSClient"]}
{"id": "C72", "title": "Where the calls of the generated HTTP client go", "statement": "For an instance host or host:port that does not begin with http, every method with an HTTP binding is called with the verb of its first binding at http://host:port, and a method without one has a nil endpoint; for http://… and https://… likewise with that scheme and host, and a path in the instance is dropped, while its query becomes part of every call. (Refuted: with a host whose name begins with http, e.g. httpbin.org:80, the constructor succeeds and no call is ever sent; with a scheme in upper case the scheme is taken for the host. The constructor of a service without HTTP methods always panics.)", "quantifier": "every instance of these forms, every service", "why_tests_cant": "all instances and services", "anchors": ["gengokit/template/NAME-service/baron/NAME.pb.baron.go.tmpl:NewHTTPClient", "gengokit/template/NAME-service/baron/NAME.pb.baron.go.tmpl:copyURL"]}
{"id": "C73", "title": "From the .proto file to the routes of the server", "statement": "For every service written in a proto file (in any of the accepted spellings, among other files without a service) and every set of Go files protoc makes of it, a run of baron finds the service's name and makes its definition without an error or panic (New is called twice in the process, the second time with the oneofs of the first, each time in any order of the files); the definition has the service's name and exactly its rpcs in order, and the routes of the generated server are, one for one and in order, the bindings written in the rpcs' http options: each with the rpc's method, the written verb and path, and one place for each visible field of the request struct. For any input and any process state, every binding of a definition was parsed from one of the texts, and the helper is made from every definition without a panic. (Refuted: an rpc with an http option whose request is of another package, like google.protobuf.Empty, makes New panic.)", "quantifier": "every service, spelling, set of other proto files and their order, Go files", "why_tests_cant": "all files", "anchors": ["svcdef/svcdef.go:New", "svcdef/consolidate_http.go:consolidateHTTP", "gengokit/httptransport/httptransport.go:NewHelper", "gengokit/httptransport/templates/server.go:ServerDecodeTemplate", "cmd/baron/main.go:main", "internal/parsesvcname/parsesvcname.go:FromPaths"]}
{"id": "C74", "title": "What a command line of baron means", "statement": "A command line is accepted exactly when it is a sequence of flags (--flag, --flag=value, --flag value, clusters of shorthands whose last may have a value joined, after = or in the next word) and arguments, perhaps with -- and any words after it; then each flag has the last value said (or its default), and the arguments keep their order, wherever the flags stand. baron then refuses the line (exit status 2), or prints help, or its version, or writes a new .proto file, or complains that there is no file, or generates from the arguments, by that precedence. (Refuted: that a transport must be one of the documented ones; that a single dash can introduce a long flag: -svcout DIR FILE writes a new .proto file; that --help helps with an unknown flag on the line.)", "quantifier": "every list of arguments", "why_tests_cant": "all command lines", "anchors": ["cmd/baron/main.go:main", "cmd/baron/main.go:init"]}
{"id": "C75", "title": "What protoc is asked, and which Go files it leaves", "statement": "For .proto files of one directory, baron asks protoc for exactly those files in the order given, with imports looked for in their directory, then for each element of GOPATH below its src and in baron's copy of googleapis; so an import is the first of those files that exists. If GeneratePBDotGo reports no error, every NAME.proto has its NAME.pb.go, and those with a service their NAME_grpc.pb.go, in the output directory under the names by which the rest of baron looks for them, and no other file changed; if it reports an error no file changed; and it reports none if the programs exist, the files compile and no two outputs collide. (Refuted: that this holds in a directory with a colon in its name; that a file with another extension is found again.)", "quantifier": "all directories (without colon or equals sign), file names, GOPATHs, disks, protoc compilers", "why_tests_cant": "all directories, names and protoc outcomes", "anchors": ["internal/execprotoc/execprotoc.go:GeneratePBDotGo", "internal/execprotoc/execprotoc.go:protoc", "internal/execprotoc/execprotoc.go:getProtocOutput"]}
{"id": "C76", "title": "A whole run of baron", "statement": "Started with .proto files of one directory, a run of baron ends in one of three ways: having changed no files but the .pb.go and _grpc.pb.go files of its arguments; or with a non-zero exit status, having changed no more than these and the .pb.baron.go file of the first argument; or with status zero, having generated the whole service: every file of the service is there, server.go and .pb.baron.go are those of the templates for a definition whose every HTTP route is written in one of the .proto files, stale files of the service are gone, and no other file on the disk has changed. If protoc or a plugin is missing or fails, the status is not zero. If the tools are there and the files compile, every run is of the third kind, and the definition has exactly the rpcs and routes of the service written in the .proto file; the files of the user are as they were (but for gofmt), and service.go keeps the user's code. (Refuted: that status zero means that a service was generated: a directory in no Go package, no temporary directory, a .proto file that protoc accepts and baron's parser does not; that with two services the directory is named after the one whose code it has; that what an earlier run left is not read.)", "quantifier": "all directories, arguments, GOPATHs, disks, behaviours of protoc and the Go tools, orders of map iteration", "why_tests_cant": "all disks, tools and map orders, and every file of the disk", "anchors": ["cmd/baron/main.go:main", "cmd/baron/main.go:parseInput", "cmd/baron/main.go:parseServiceDefinition", "cmd/baron/main.go:generateBaronCode", "cmd/baron/main.go:openFiles", "internal/parsesvcname/parsesvcname.go:FromPaths"]}
{"id": "C77", "title": "Every template renders", "statement": "For every service definition whose HTTP helper can be made, with any transport, import paths and version, each of the nine template files that baron renders for a service is parsed and executed by text/template without an error, and so is the template of the methods added to service.go, for any service name and methods, and the templates of the decoding code of every field and oneof. So no run of baron fails in a template: in a world where the tools are there (C76) the whole service is generated.", "quantifier": "all definitions, options, service names, methods, bindings, fields and oneofs", "why_tests_cant": "all definitions; every field that a template reads must exist with a type that fits its use, on every path through its conditions and loops", "anchors": ["gengokit/gengokit.go:ApplyTemplateFromPath", "gengokit/gengokit.go:ApplyTemplate", "gengokit/gengokit.go:NewData", "gengokit/httptransport/httptransport.go:ApplyTemplate", "gengokit/httptransport/httptransport.go:GenQueryUnmarshaler", "gengokit/template/NAME-service", "gengokit/service/services.go:applyServiceMethodsTempl"]}
{"id": "C78", "title": "What the generated transport file says", "statement": "The file baron/NAME.pb.baron.go rendered for any definition has, as source text: a MakeHTTPHandler with one route for every binding of every method, in order, with its verb, path, decoder and endpoint, and no others; for every binding one decoder (body, then the code of the fields in path and query, then of the oneofs) and one encoder (path sections joined, then query, then, unless the verb is get, the body fields); an HTTP client that calls the first binding of each method; for every method its endpoint, constructor and client method, and both wrappers over all of them; with transport all or grpc (nats) the gRPC (NATS) server and client with every method under its own name, and otherwise nothing of them; imports of exactly the packages named in C65. All names that the routes and the client use are declared in it.", "quantifier": "all definitions, methods, bindings, fields, oneofs, transports and import paths", "why_tests_cant": "the text must be right for every definition: the template has loops within loops and conditions on every level", "anchors": ["gengokit/template/NAME-service/baron/NAME.pb.baron.go.tmpl", "gengokit/gengokit.go:ApplyTemplateFromPath", "gengokit/httptransport/types.go:Binding"]}
{"id": "C79", "title": "A list in one query value", "statement": "A repeated scalar field in the query may be given by one value: as a JSON array, with white space and nulls (which are zeros), or as its elements with commas between them and no brackets. The server reads the elements in their order, strings with commas, brackets and escaped quotes inside included.", "quantifier": "all scalar types, lists, white space, requests and bindings", "why_tests_cant": "all lists and all texts of strings, and a second attempt with brackets added that must not be taken for the first", "anchors": ["gengokit/httptransport/httptransport.go:createDecodeConvertFunc"]}
{"id": "C80", "title": "The text of a request decoder is a Go function that decodes", "statement": "For every binding of every method, the generated file holds a function DecodeHTTP<label>Request whose text, split into tokens and read as Go, is a function that, called with any HTTP request, puts the path, query and oneof parameters into the request message as the decoder model says: which variable is read, how it is parsed and converted, where the value goes, when an error is returned; it gives an error when the body cannot be read; and it is well formed Go (each variable is declared before it is used and once per scope, and no variable hides a type or function).", "quantifier": "all methods, parameters of every Go type (scalar, repeated, enum, message, oneof options), requests, libraries of conversions, and any layout go/format chooses", "why_tests_cant": "the text depends on the names and types of an arbitrary definition, and the function on an arbitrary request", "anchors": ["gengokit/httptransport/httptransport.go:createDecodeConvertFunc","gengokit/httptransport/httptransport.go:createDecodeTypeConversion","gengokit/template/NAME-service/baron/NAME.pb.baron.go.tmpl","gengokit/httptransport/types.go"]}
{"id": "C81", "title": "The text of a request encoder is a Go function that encodes", "statement": "For every binding of every method whose oneof options in the query are scalars, the generated file holds a function EncodeHTTP<label>Request whose text, split into tokens and read as Go, is a function that, called with any request message, writes the path, the query and (unless the verb is get) the body that the encoder model says, sets the transport and request-url headers, and fails exactly when the model does (a path url.Parse refuses, a value JSON cannot write). If an option in the query is an enum or a message, the text compares it with nil or 0, which Go rejects, and no call of it sends anything.", "quantifier": "all methods, paths, parameters of every Go type, messages, base paths and libraries of conversions", "why_tests_cant": "the text depends on the names and types of an arbitrary definition, and the function on an arbitrary message", "anchors": ["gengokit/template/NAME-service/baron/NAME.pb.baron.go.tmpl", "gengokit/httptransport/httptransport.go:getZeroValue", "gengokit/httptransport/types.go:PathSections"]}
{"id": "C82", "title": "The texts of client encoder and server decoder carry a request", "statement": "For every binding of every method, the generated file holds the texts of an encoder and of a decoder which, read as Go, round trip: what the encoder puts into a request for a message whose values the transport carries is matched by the binding's own route, and the decoder makes the same message of it, without an error; for get from path and query alone, for other verbs also from the body.", "quantifier": "all methods, path templates, parameters of every carried type, messages, libraries, base paths, and any layout go/format chooses", "why_tests_cant": "two texts that depend on an arbitrary definition have to agree on every message", "anchors": ["gengokit/template/NAME-service/baron/NAME.pb.baron.go.tmpl", "gengokit/httptransport/httptransport.go:createDecodeConvertFunc", "gengokit/httptransport/httptransport.go:createDecodeTypeConversion", "gengokit/httptransport/types.go:PathSections"]}
{"id": "C83", "title": "The text of the service file", "statement": "The service file baron writes when there is none is, read as Go, package service with exactly these declarations: the imports of context and of the message package as pb, NewService, a service type that embeds pb.Unimplemented<Service>Server, and for each rpc of the definition, in order, one method with the receiver, parameters and results of pb.<Service>Server and a body that returns an empty response. When the file exists, the text that is added behind the kept code is exactly one such method for each rpc without a handler, and changes no declaration before it; so the declarations of the file are those that merging promises.", "quantifier": "all services, rpc names, message names and import paths; all existing files and subsets of rpcs that are added", "why_tests_cant": "the text depends on an arbitrary definition and an arbitrary existing file", "anchors": ["gengokit/template/NAME-service/service/service.go.tmpl", "gengokit/template/NAME-service/service/service_methods.go.tmpl", "gengokit/service/services.go:Render", "gengokit/service/services.go:applyServiceMethodsTempl"]}
{"id": "C84", "title": "The declarations of the generated transport file", "statement": "The file baron/NAME.pb.baron.go that baron generates is, read as Go, a sequence of declarations with matching brackets. They put into the package exactly the documented names, import exactly the documented packages, and give Endpoints, grpcServer and natsServer their fields and methods; under the naming rules no scope has a name twice. Each binding has its request decoder and encoder among the declarations, and the bodies of these functions do what the models of decoding and encoding say.", "quantifier": "all services, methods, bindings, parameters, transports, versions and dates, and any layout go/format chooses for the code of parameters", "why_tests_cant": "the text depends on an arbitrary definition; a missing brace, quote or newline in one combination of branches breaks the whole file", "anchors": ["gengokit/template/NAME-service/baron/NAME.pb.baron.go.tmpl", "gengokit/httptransport/httptransport.go:NewHelper", "gengokit/generator/gen.go:GenerateServiceFile"]}
{"id": "C85", "title": "The generated packages fit together", "statement": "In a newly generated project the files of package server, of package service and of the two main programs are, read as Go, well-bracketed files of their package, with the imports that are written in them; no file has an imported name twice or one that the package also declares, every import is used, every name taken from an imported package (the message package with baron's file, service, server, the standard library, go-kit, gRPC, NATS) is declared there and exported, and every function called by a plain name exists. NewEndpoints makes one endpoint for each rpc with its constructor and puts it into its field. The server's program sets every field of server.Config. Package service fits exactly when the service has an rpc, and the client program exactly when there is an rpc and a transport to call it; the variables of NewEndpoints are distinct exactly when no two rpc names differ only in case.", "quantifier": "all services, rpcs, bindings, transports and import paths (safe in string literals), versions and dates", "why_tests_cant": "the files are rendered from an arbitrary definition with conditions on transports, and names must agree across all of them", "anchors": ["gengokit/template/NAME-service/server/server.go.tmpl", "gengokit/template/NAME-service/server/endpoints.go.tmpl", "gengokit/template/NAME-service/server/wrapper.go.tmpl", "gengokit/template/NAME-service/service/service.go.tmpl", "gengokit/template/NAME-service/cmd/NAME/main.go.tmpl", "gengokit/template/NAME-service/cmd/NAME-client/main.go.tmpl"]}
{"id": "C86", "title": "The texts of the generated server do what is claimed of it", "statement": "The files server/server.go, server/interrupt.go and cmd/NAME/main.go that baron generates are, read as Go, programs whose settings and executions are those of C45 and C64: for every environment and command line the program's init and flag.Parse give the configuration of C64 (flags, then environment, then defaults) or exit with usage; Run starts Interrupt and, under the conditions written in the text, the debug, HTTP, gRPC and NATS goroutines; no other statement in their bodies sends to the error channel, returns, or starts a goroutine; each listens at (or connects to) its own configured address and serves the handler or server made from the endpoints; every execution of these goroutines is one of C45 and conversely. So the process has the wanted goroutines only, returns only with a value one of them reported, and can always return once one has.", "quantifier": "all services, methods, transports, import paths and stamps; all environments, command lines and schedules", "why_tests_cant": "the text is rendered with any combination of transports, and the executions are all interleavings for all settings", "anchors": ["gengokit/template/NAME-service/server/server.go.tmpl", "gengokit/template/NAME-service/server/interrupt.go.tmpl", "gengokit/template/NAME-service/cmd/NAME/main.go.tmpl"]}
{"id": "C87", "title": "The endpoint and context functions of the generated file do what is claimed of them", "statement": "The file baron/NAME.pb.baron.go that baron generates has, read as Go, these functions, and running them (for every order in which Go visits a map) has the effects claimed in C32, C33, C53, C54 and C55: a method of Endpoints calls the endpoint in the field of its own name and returns its response, its error, or panics on a nil response without an error; Make<Method>Endpoint returns a function that calls that method of the service and returns its response or its error; WrapAllExcept and WrapAllLabeledExcept panic exactly if a name is excluded twice or is not a method, and otherwise wrap every endpoint that is not excluded exactly once (with its own name) and leave the others; HTTPHeadersToContext, CtxValuesToSend and, with gRPC, GRPCMetadataToContext and ContextValuesToGRPCMetadata compute the context, headers and metadata of C33, C54 and C55.", "quantifier": "all services, methods, transports; all endpoints, services, middlewares, excluded names, headers, metadata, contexts and map orders", "why_tests_cant": "the functions are text rendered from the definition, and maps are visited in any order", "anchors": ["gengokit/template/NAME-service/baron/NAME.pb.baron.go.tmpl: Endpoints methods, Make*Endpoint, WrapAllExcept, WrapAllLabeledExcept, HTTPHeadersToContext, CtxValuesToSend, GRPCMetadataToContext, ContextValuesToGRPCMetadata"]}
{"id": "C88", "title": "The HTTP answer functions of the generated file do what is claimed of them", "statement": "The file baron/NAME.pb.baron.go that baron generates has, read as Go, the functions errorEncoder, errorDecoder, EncodeHTTPGenericResponse, the methods of httpError and, for each method with an HTTP binding, DecodeHTTP<Method>Response, and running them has the effects claimed in C34, C56 and C69: for every error the encoder sends its own status (else 500), content type and headers, and its JSON form or its text, and panics exactly if the status has not three digits; for every response the generic encoder answers 200 with the message as protojson writes it (partial messages allowed, proto names, enum numbers, unpopulated fields) or writes nothing and returns the error; for every status and body the client's decoder returns the message read with protojson (partial allowed, unknown fields dropped), or no message and an error with the text C69 gives, or the error of reading the body.", "quantifier": "all services; all errors, headers, responses, statuses, bodies, protojson behaviours and map orders", "why_tests_cant": "all errors and bodies; the decoders are text rendered from the definition", "anchors": ["gengokit/template/NAME-service/baron/NAME.pb.baron.go.tmpl: errorEncoder, errorDecoder, httpError, EncodeHTTPGenericResponse, DecodeHTTP*Response"]}
{"id": "C89", "title": "The gRPC and NATS wiring of the generated file connects each method with its own endpoint", "statement": "The file baron/NAME.pb.baron.go that baron generates has, read as Go, the functions MakeGRPCServer, NewGRPCClient, the methods of grpcServer, MakeNATSServer, ServeNATS, NewNATSClient and those that decode and encode; for every service whose method names differ also in lower case: the server that MakeGRPCServer returns runs for each method the endpoint in that method's field, with a context given first to GRPCMetadataToContext and then to the caller's options, and returns its response or its error; the client that NewGRPCClient returns calls for each method the path /package.Service/Method and returns the response in that method's response type, or the error, so that over a connection that reaches that method a call returns what the method's endpoint returns; ServeNATS subscribes the methods in order, each to Service.Method in the group Service, until one is refused, whose error it returns; each subscription and each method of the NATS client answers as C71 says.", "quantifier": "every service, endpoint, option list, context, request, response, error, connection", "why_tests_cant": "all services, endpoints and messages", "anchors": ["gengokit/template/NAME-service/baron/NAME.pb.baron.go.tmpl:MakeGRPCServer", "gengokit/template/NAME-service/baron/NAME.pb.baron.go.tmpl:NewGRPCClient", "gengokit/template/NAME-service/baron/NAME.pb.baron.go.tmpl:ServeNATS", "gengokit/template/NAME-service/baron/NAME.pb.baron.go.tmpl:MakeNATSServer", "gengokit/template/NAME-service/baron/NAME.pb.baron.go.tmpl:NewNATSClient"]}
{"id": "C90", "title": "The HTTP wiring of the generated file: a call of the generated client is answered by the method it names", "statement": "The file baron/NAME.pb.baron.go that baron generates has, read as Go, the functions MakeHTTPHandler, NewHTTPClient and copyURL. For every service whose methods and binding labels differ: the handler that MakeHTTPHandler returns gives a request to the endpoint of the method with the first binding that has its verb and path, with that binding's decoder, the file's error encoder and response encoder, the JSON content type, and after these the caller's options, and any other request is not found; NewHTTPClient returns an error if the address is no URL, panics if no method has a binding, and otherwise returns endpoints: that of a method sends requests with the verb, the path and the encoder of the method's first binding to the host of the address, and reads answers with that method's decoder, and a method without bindings has none. Run by go-kit with the decoders, encoders and answer functions of the same file, a call of a client's method over a network that brings its requests to such a handler gives what C56 says of a call: the service's response, its error, or an error of encoding or decoding.", "quantifier": "every service, endpoint, option list, address, request, response, error, order of headers", "why_tests_cant": "all services, requests, answers and addresses", "anchors": ["gengokit/template/NAME-service/baron/NAME.pb.baron.go.tmpl:MakeHTTPHandler", "gengokit/template/NAME-service/baron/NAME.pb.baron.go.tmpl:NewHTTPClient", "gengokit/template/NAME-service/baron/NAME.pb.baron.go.tmpl:copyURL"]}
{"id": "C91", "title": "The functions of the generated file keep Go's rules for names", "statement": "For every service that keeps the naming rules of C67 (at least one method; methods that differ, also without regard to case if there is gRPC or NATS; binding labels that differ; names apart from those protoc generates), every function of baron/NAME.pb.baron.go other than the request decoders and encoders, read as Go, keeps the rules that the Go compiler checks for names: every name it uses is declared by Go, an import of the file, the package or an enclosing block; no block declares a name twice, and := declares a new variable; every variable is used; no composite literal gives a key or field twice. Conversely, if the functions keep these rules then the service has a method, the methods differ (also without regard to case if there is gRPC or NATS), and so do the labels of their first bindings.", "quantifier": "every service, transport setting and list of names that protoc generates", "why_tests_cant": "all services and names", "anchors": ["gengokit/template/NAME-service/baron/NAME.pb.baron.go.tmpl:WrapAllExcept", "gengokit/template/NAME-service/baron/NAME.pb.baron.go.tmpl:MakeGRPCServer", "gengokit/template/NAME-service/baron/NAME.pb.baron.go.tmpl:NewGRPCClient", "gengokit/template/NAME-service/baron/NAME.pb.baron.go.tmpl:NewHTTPClient", "gengokit/template/NAME-service/baron/NAME.pb.baron.go.tmpl:ServeNATS"]}
{"id": "C92", "title": "The generated request encoders keep Go's rules for names", "statement": "For every service and every binding of it, the function EncodeHTTP...Request of baron/NAME.pb.baron.go, read as Go, keeps the rules that the Go compiler checks for names: every name it uses is declared by Go, an import of the file, the package or an enclosing block; no block declares a name twice, and := declares a new variable; every variable is used; no composite literal gives a key twice. This needs no rule for the names of fields, oneofs, options or path parameters: it holds for each list of them, if protoc generated the request types.", "quantifier": "every service, binding, field, oneof and path", "why_tests_cant": "all bindings", "anchors": ["gengokit/template/NAME-service/baron/NAME.pb.baron.go.tmpl:EncodeHTTP", "gengokit/httptransport/httptransport.go:getZeroValue"]}
{"id": "C93", "title": "The generated request decoders keep Go's rules for names", "statement": "For every service and every binding of it, the function DecodeHTTP...Request of baron/NAME.pb.baron.go, read as Go, keeps the rules that the Go compiler checks for names: every name it uses is declared by Go, an import of the file, the package or an enclosing block; no block declares a name twice, and := declares a new variable; every variable is used; no composite literal gives a key twice. This asks that the Go names of path parameters and options differ, and those of oneofs; that the method's name and these names with Str, StrArr, OK or CountSet do not run into each other; that no path parameter is a list of scalars; that the options of oneofs in the query are scalars or enums. The last two are needed: with a list of scalars in the path the decoder reads a variable that nothing declares, with a message option it has a line that is no Go, and the file does not compile.", "quantifier": "every service, binding, parameter, oneof and option", "why_tests_cant": "all bindings", "anchors": ["gengokit/template/NAME-service/baron/NAME.pb.baron.go.tmpl:DecodeHTTP", "gengokit/httptransport/httptransport.go:GenQueryUnmarshaler", "gengokit/httptransport/httptransport.go:createDecodeConvertFunc"]}
{"id": "C94", "title": "Every spelling of a query string is read alike", "statement": "A generated server reads a query string as RFC 3986 and HTML forms say: parts between &, key=value or a key alone, where + is a space, %XY with hex digits of either case is a byte and any other byte is itself; a part that is empty, has a semicolon or a bad escape says nothing, and does not spoil the others. Every query string says exactly one list of pairs, and the values of a key are read in that order. Requests with the same body and path values, whose query strings say the same pairs in the same order, are decoded alike, however a client spells them.", "quantifier": "every query string, request, binding and parameter", "why_tests_cant": "all strings", "anchors": ["gengokit/template/NAME-service/baron/NAME.pb.baron.go.tmpl:DecodeHTTP", "gengokit/httptransport/httptransport.go:GenQueryUnmarshaler"]}
