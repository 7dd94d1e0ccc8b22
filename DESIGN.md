# DESIGN — a Rocq (Coq 8.16.1) model of teamlint/baron

## 1. What is modelled and how

Everything lives in `rocq/theories` (logical name `Verif`), standard library only.

* Text is `list N` (one `N` per rune; for the byte-indexed helpers of `pkg/strs.go` one per
  byte - those loops only look at ASCII, so both readings agree).
* A Go function becomes a total Gallina function returning the new state and its results;
  an error is a value, a panic is an explicit value (never a default).
* A `for {}` loop becomes structural recursion, or recursion on explicit fuel with a
  distinguished out-of-fuel result; theorems show that result is unreachable with the fuel the
  model supplies (that *is* the termination property).
* Go maps are association lists; "for range map" ranges over any permutation.
* Package-level variables are explicit state threaded through.
* Unicode tables (`unicode.IsLetter/IsDigit/IsSpace`), the Go formatter, float formatting and
  similar externals are Section variables (generalised at the end of the section, so they are
  hypotheses visible in the theorem's type), with a concrete instance for the examples.
* Goroutines/channels are a labelled transition relation.

Layers. Each module `X` consists of `X.v` (the model; every definition cites the file and lines it
models and says what it simplifies), `XSpec.v` (the vocabulary of the statements, independent of the
model's helpers), `XProofs*.v`, and `PropX.v` (theorems, refutations of tempting stronger claims,
non-vacuity `Example`s, `Print Assumptions`).

| files | model of |
|---|---|
| `GoStr.v`, `GoMap.v`, `SplitJoin.v`, `Decimals.v` | the parts of Go's `strings`, `strconv`, maps used |
| `Scanner.v`, `ScanRun.v` | `svcdef/svcparse/scanner.go` |
| `Lexer.v`, `LexRun.v` | `svcdef/svcparse/lexer.go` |
| `Unquote.v` | `strconv.Unquote` for double-quoted literals |
| `Parser.v`, `GrammarSpec.v` | `svcdef/svcparse/parser.go`, and an independent grammar of what it accepts |
| `Strs.v` | `pkg/strs.go`, `pkg/types.go` |
| `SvcTypes.v`, `Svcdef.v` | `svcdef/svcdef.go`, `svcdef/resolvetypes.go`, over the declarations `go/ast` would give |
| `Consolidate.v` | `svcdef/consolidate_http.go` |
| `NewDef.v` | `svcdef.New` as a whole |
| `Cmdline.v` | the flags of `cmd/baron/main.go`, pflag's reading of the command line, what `main` does with it |
| `Protoc.v` | `internal/execprotoc/execprotoc.go`: the arguments for protoc, protoc's reading of them, virtual names, the names of the outputs |
| `Main.v` | `cmd/baron/main.go` main, parseInput, parseServiceDefinition, openFiles, `internal/parsesvcname`: a whole run, put together from Cmdline, Paths, Protoc, NewDef and Generator |
| `Template.v`, `Assets.v`, `Render.v` | text/template (lexer, parser, executor) for the constructs in use; the ten files of `gengokit/template/NAME-service` byte for byte; what they read: `gengokit/gengokit.go` Data, NewData, ApplyTemplate, `httptransport/types.go`, the source text made by `httptransport.go` (createDecodeConvertFunc, createDecodeTypeConversion, PathSections, GenQueryUnmarshaler) |
| `TextSpec.v`, `TextFile.v` | nothing new of the code: the text of baron/NAME.pb.baron.go as functions of names (specification), and as the sequence of pieces that `Template.v` executes to |
| `GoLex.v`, `GoLang.v` | nothing of the code: a specification of a fragment of Go, its tokens (strings, comments, automatic semicolons) and the meaning of statements over block scopes (redeclared and undeclared variables are compile errors; unused ones are not modelled; text outside the fragment has no meaning). `DecoderProg.v` is the syntax tree of a generated decoder and the tokens it is written with |
| `GoEncode.v` | nothing of the code: the meaning of the statements that encoders are made of (values of fields by their Go types, getters of oneof options, comparisons that Go allows, url.Values, errors); what Go rejects, or a panic, has no meaning. `EncoderProg.v` is the syntax tree of a generated encoder |
| `GoDecls.v` | nothing of the code: the declarations of a Go file, read off its tokens. `FileNest.v`, `FileText.v`, `FileHead.v`, `FileGrpc.v`, `FileNats.v`, `FileHttp.v`, `FileAll.v`: the tokens of the pieces of the text of baron/NAME.pb.baron.go (TextFile.v) and what they declare (C84) |
| `TextOthers.v`, `TextOthersProofs.v` | the texts of the nine other templates (`service/*`, `server/*`, `cmd/*`), made from the templates and proved to be what executing them gives. `GoUse.v`, `HandlerText.v`: nothing of the code: qualified identifiers, calls and imports of Go source, and the tokens of a function declaration. `FileService.v`: proofs of C83 |
| `GoPackage.v` | nothing of the code: when files of a Go package fit together and into the packages they import. `FileOthers.v`, `FileOthers2.v`, `FileOthers3.v`, `FileOthers4.v`: declarations, imports, qualified names and calls of the files of server/, service/ and cmd/ (C85) |
| `GoServer.v` | nothing of the code: a fragment of Go for settings (flags, environment, config) and for goroutines that report to a channel; its tokens and its executions. `ServerProg.v`: server/server.go.tmpl (Run), server/interrupt.go.tmpl and cmd/NAME/main.go.tmpl as programs of this fragment; `PropServerText.v`: the texts are these programs, and these do what `Server.v` says (C86) |
| `GoGlue.v` | nothing of the code: a fragment of Go for small functions over library values (calls, assertions, range loops, function literals); its tokens and what its programs do, for any library. `GlueProg.v`: the endpoint and context functions of baron/NAME.pb.baron.go.tmpl as programs of this fragment; `PropGlue.v`: the text has them, and they do what `Middleware.v` and `Context.v` say (C87); `PropAnswer.v`: likewise the functions that answer over HTTP and read answers, against `ErrorHop.v` (C88) `WireProg.v`: the functions that make servers and clients for gRPC and NATS (`WireGrpc.v`, `WireNats.v`: go-kit as a library, and the runs). `HttpProg.v`: the functions that make the HTTP handler and client (`WireHttp.v`: gorilla/mux and go-kit as a library, and the runs; `HttpKit.v`: what go-kit does with handlers and endpoints; `PropHttpWire.v`: a whole call, against `ErrorHop.v`, C90). `GoScope.v`: Go's rules for names in this fragment; `PropScope.v`: the functions keep them (C91); `ScopeFree.v`: so every variable they use and do not declare is known outside. `GoBlocks.v`: the same rules for the fragment of `GoLang.v`; `PropBlocks.v`: the request encoders keep them (C92); `BlocksDec.v`, `PropDecoderNames.v`: so do the request decoders (C93). `BlocksFree.v`: in code that keeps the rules, every variable used and not declared there is known outside (for C92, C93); `NeedsDec.v`: what C93's hypotheses are needed for. |
| `HttpTransport.v`, `HttpTypes.v` | `gengokit/httptransport/*.go`; a checker for the types of the conversions it writes |
| `Url.v` | `net/url` query escaping, `url.Values`, path escaping |
| `GenHttp.v` | the meaning of the generated HTTP client encoder, server decoder and router |
| `Middleware.v` | generated endpoints, `WrapAllExcept`, `WrapAllLabeledExcept`, middleware |
| `Context.v` | generated HTTP-header / gRPC-metadata context codecs, `textproto` canonical keys |
| `Json.v`, `JsonSpec.v` | `encoding/json` for values (grammar specified independently) |
| `ErrorHop.v` | the generated HTTP client/server hop including errors |
| `Rpc.v` | the generated gRPC and NATS clients and servers |
| `Client.v` | the generated HTTP client constructor, with `net/url.Parse` |
| `Wiring.v` | the names and scopes of the generated transport file |
| `Server.v` | the generated `main`: flags, environment, `Run` as a transition system |
| `Handler.v` | `gengokit/service/services.go` (merging handlers into existing code) |
| `Generator.v` | `gengokit/generator/gen.go`, the writing half of `cmd/baron/main.go` |
| `Paths.v` | `path/filepath` on Unix; `parseInput`, `parseSVCOut` of `cmd/baron/main.go` |
| `Start.v` | `internal/start` |
| `Decode*.v` | the server decoder on requests from any client |

## 2. Plan per property

| property | model | proof |
|---|---|---|
| C01 | BuildScanUnit over a zipper reader, fuel = runes left | each successful unit consumes >= 1 rune; induction on fuel |
| C02 | same | one lemma per unit shape, induction on the unit list |
| C03 | same | per-unit: consumed text = value, or value is a subsequence of it |
| C04 | same | reader invariant: line = 1 + newlines before the cursor |
| C05 | same | a separate fold over unit values is the specification |
| C06 | scanner globals threaded through a list of files | state after a balanced file is the initial one; witness for the refutation |
| C07 | SvcScanner with position | invariant: flags = those of the unit before the position |
| C08-C10 | NewTokenGroup, NewSvcLexer | induction over units; separate region specification |
| C11 | SvcLexer | position algebra |
| C12 | the four parse functions on fuel | every loop consumes a token |
| C13 | same | simulation between token streams equal up to white space |
| C14 | same + a printer specification | induction on the syntax tree |
| C15, C16 | same | inversion of success |
| C17-C21 | Consolidate | induction on field / binding lists, separate relational specs |
| C22 | consolidateHTTP over a permutation | permutation argument; witness for the refutation |
| C23-C26 | Strs | induction on the string, with loop invariant on previous character |
| C27 | EnglishNumber | decimal digits are injective, digit names are uniquely decodable at capitals |
| C28 | PathParams, BuildParamMap | split/join lemmas |
| C29-C31 | GenCode | per-field encode/decode round trips, disjointness of query keys; mini type checker for conversions |
| C32-C34 | Generated | induction over map order, lookup-level specs |
| C35-C38 | Handler | declarations as records; filter/permutation lemmas |
| C39-C43 | Generator | list of writes over an abstract file system |
| C44 | Start | character classes + parser model |
| C45 | Run as transition system | invariant over all schedules |
| C46-C48 | Svcdef | string splitting; fold over definitions; threaded global |
| C49 | Strs | induction on the name; characterisation of prefix tables |
| C50 | HttpTransport | the field loop against a relational specification |
| C51 | Url, GenHttp | inverse of escaping; sortedness of the encoded keys |
| C52 | GenHttp | induction over the routes |
| C53 | Middleware | unfolding of the generated endpoints over arbitrary services |
| C54, C55 | Context | canonical keys are idempotent; lookup-level specification of headers and metadata |
| C56 | ErrorHop | composition of C29, C52, C54 and the response codec |
| C57 | Generator | the second run reads what the first wrote; formatter idempotence is a hypothesis |
| C58 | Generator | suffix arithmetic on file names |
| C59-C62 | Svcdef | folds over the declarations; invariants of the loops |
| C63 | Parser, GrammarSpec | soundness and completeness of the parser for the grammar |
| C64 | Server | model of package `flag`; case analysis of the sources |
| C65 | Paths | `Clean` specified by walking a path; composition |
| C66 | GenHttp | inversion of the decoder on arbitrary requests |
| C67, C68 | Wiring | scopes as name lists; injectivity of the name schemes |
| C69 | Json, ErrorHop | the JSON reader accepts exactly the grammar; error decoding for any answer |
| C70, C71 | Rpc | dispatch on full names/subjects; JSON of structs there and back |
| C72 | Client | `url.Parse` on the forms of an instance |
| C73 | NewDef | composition of C14, C21, C22, C46, C59, C62 and C50; invariants for "nothing else" |
| C74 | Cmdline | an equivalence with a grammar of command lines: soundness by induction on the line, completeness by induction on the items, the options as a fold |
| C75 | Protoc | the arguments are read back by induction over GOPATH and the files; virtual names of files in the first directory; the outputs as a fold of writes to distinct paths |
| C76 | Main | the composition of C62/C63 (files), C73 (definition), C75 (protoc) and the paths; runs are a relation, since the disk and map orders are |
| C77 | Template, Assets, Render | a type checker for templates, proved sound by induction over nodes and operands, then run on all template texts by computation |
| C78 | TextSpec, TextFile | the parsed template is executed symbolically, node by node, into 52 pieces of text; slices of their concatenation are the texts of TextSpec |
| C79 | GenHttp, ListSpec | induction over the elements; the reader of JSON arrays is run on the texts of ListSpec |
| C80 | GoLex, GoLang, DecoderProg | the tokens of the text are computed piece by piece (the lexer is a fold, so texts compose); the program they spell is run symbolically under a scope invariant, field by field, and meets `decode_request` |
| C81 | GoLex, GoLang, GoEncode, EncoderProg | as C80: the text has the tokens of a tree, and the tree is run under an invariant of the variables (values, tmp, strval, err), field by field, and meets `encode_request`; an option that is no scalar stops it |
| C82 | as C80, C81, GenHttp | C80 and C81 give the two texts; C29 and C30 say that the models they meet are inverse |
| C83 | TextOthers (texts of service.go.tmpl and service_methods.go.tmpl), Handler (first_file, template_handler), HandlerText (a declaration of Handler.v as tokens) | lexing of the text piece by piece; induction over the rpcs; added text starts a line, so it adds its own tokens |
| C84 | TextFile (text of the file), GoLex, GoDecls (declarations: split at semicolons outside brackets; names, imports, fields, methods) | the 52 pieces of the text are lexed one by one (FileText: a piece that starts a line adds its own tokens), each is whole declarations or a bracketed loop; FileNest: brackets of the C80/C81 programs match |
| C85 | TextOthers (texts), GoUse (p.x, f(..), imports), GoPackage (what fits) | each text is lexed piece by piece and split into declarations; the names used are collected piece by piece (GoUseProofs: a piece that ends in a closed token adds its own), loops by induction; then list inclusion in the names of C84 and of the other files |
| C86 | ServerProg (the programs), GoServer (tokens, executions), Server (C45, C64) | the declarations of C85's reading are compared with the tokens of the programs; settings by cases on the environment and induction on the arguments; executions by a simulation in both directions (a goroutine's place in its body against its pc) |
| C87 | GlueProg (the functions), GoGlue (tokens, runs), Middleware (C32, C53), Context (C33, C54, C55) | the declarations of C84's reading are compared with the tokens of the functions (FileHead, FileHttp, FileGrpc); runs by computation, range loops by induction on what they visit |
| C88 | GlueProg (the functions), GoGlue, ErrorHop (C34, C56, C69) | as C87; the response writer, protojson and errors as a library in PropAnswer; runs statement by statement, the loop over headers by induction |
| C89 | WireProg (the functions), GoGlue, Rpc (C70, C71) | as C87; go-kit's gRPC and NATS transports as libraries in WireGrpc and WireNats, which run the file's own decoders and encoders by name; the rows of methods by induction |
| C90 | HttpProg (the functions), GoGlue, GenHttp, Client, ErrorHop | as C89; gorilla/mux and go-kit's HTTP transport as libraries in WireHttp and HttpKit, which run the file's own decoders, encoders and answer functions by name; routes and endpoints by induction over methods and bindings |
| C91 | GoScope (specification of Go's name rules), GlueProg, WireProg, HttpProg | each function checked for any outer names, rows for methods by induction (variables, fields, keys); the outer names are those of C84, the local ones differ by C67; the converse by reading the check backwards |
| C92 | GoBlocks (specification), EncoderProg | the check of the encoder's tree for any binding: code of a field declares nothing in its block, by cases over the kinds of fields; the rest by computation |
| C93 | GoBlocks (specification), DecoderProg | the check of the decoder's tree: each kind of conversion, fields, options and oneofs by induction with the names at the top of the function, which differ by C68; the two refutations by computation for any outer names; that every such parameter does so (`NeedsDec.v`): the statement in question is found in the tree, and the names in its scope are listed |
| C94 | Url (ParseQuery, unescape), GenHttp.decode_request | spellings as an inductive relation, equal to unescape by induction over the length; parts by split and join; values of a key by induction over the pairs |

## 3. Trusted base

1. **Coq's kernel** (8.16.1). No plugins, no `Admitted`, no axioms of our own, no functors or module
   types, no kernel check switched off.
2. **Assumptions.** `Print Assumptions` stands under the theorems in the `Prop*.v` files and answers
   `Closed under the global context` for every theorem listed in `MANIFEST.json`. `vcheck` lists seven
   constants `Coq.ssr.ssrunder.Under_rel.*`: they belong to Coq's own standard library (opaque fields of
   a module type of ssreflect) and no theorem here rests on them.
3. **The reading of Go** recorded in the comment of every definition: what a line of /repo does when it
   runs. Where an external package is involved, one of two things happens:
   * it is *modelled* (and so the model is trusted to say what the package does): parts of `strings`,
     `strconv` (`Unquote`, `ParseInt`/`ParseUint`/`ParseBool`, `Itoa`), `unicode` tables restricted to what the scanner asks,
     `path/filepath` on Unix, `net/url` escaping and `Parse` (no userinfo, brackets or escapes in the
     authority), `encoding/json` (values, struct members, `omitempty`, interfaces), `textproto` canonical
     keys, `flag` (five flags), gorilla/mux matching for templates with at most one `{name}` per path part,
     go-kit's HTTP, gRPC and NATS servers and clients, grpc-go's dispatch by full method name;
   * or it is a *parameter* of the theorem (a universally quantified function, with what is asked of it as
     a hypothesis in the statement): `unicode.IsLetter/IsDigit/IsSpace/IsUpper`, float formatting,
     protojson of nested messages, the Go formatter, parser and printer (`go_tools`), the service
     implementation, the network.

## 4. What is not modelled

* Log output, terminal prompts, colours, doc comments copied into generated code, timestamps.
* `go/parser`, `go/format`, `golang.org/x/tools/go/packages`, the `protoc` binaries and its plugins: they
  appear as parameters or as the data they would return.
* Text template *execution* for the parts of the template that have no branches; the model states what
  the generated text means when it runs, definition by definition, citing the template's lines.
* Timeouts, cancellation, partial reads and lost messages on the network; HTTP/2 and TLS.
* Limits of `encoding/json` on nesting depth; integer overflow of line counters.
* `docs/`, `third_party/`, `config/` and the example and test services (`_example`, `_test`).

## 5. Wrong programs

`seeded/LOG.jsonl` has one line per seeded bug: the definition edited, the edit, the claim it breaks, the
theorems that failed and those that were tightened because they did not.
