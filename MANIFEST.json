{
 "claims": [
  {
   "property": "C01",
   "status": "proved",
   "theorems": [
    "c01_scan_total"
   ],
   "note": "For every text and every package state."
  },
  {
   "property": "C02",
   "status": "proved",
   "theorems": [
    "c02_scan_roundtrip"
   ],
   "note": ""
  },
  {
   "property": "C03",
   "status": "proved",
   "theorems": [
    "c03_units_are_the_text",
    "c03_lossless",
    "c03_lossless_refuted",
    "c03_star_star_refuted"
   ],
   "note": "The unrestricted lossless claim is refuted by witnesses; the restricted one is proved."
  },
  {
   "property": "C04",
   "status": "proved",
   "theorems": [
    "c04_line_numbers"
   ],
   "note": ""
  },
  {
   "property": "C05",
   "status": "proved",
   "theorems": [
    "c05_region_flags"
   ],
   "note": "Declarative reading of the flags in ScannerSpec.v."
  },
  {
   "property": "C06",
   "status": "proved",
   "theorems": [
    "c06_history_independent",
    "c06_history_refuted"
   ],
   "note": "Proved for closed earlier files; refuted in general."
  },
  {
   "property": "C07",
   "status": "proved",
   "theorems": [
    "c07_unread_restores",
    "c07_unread_to_restores",
    "c07_unread_at_start",
    "c07_unread_first_refuted"
   ],
   "note": "Un-reading the first unit panics (refuted part)."
  },
  {
   "property": "C08",
   "status": "proved",
   "theorems": [
    "c08_service_tokens",
    "c08_tokenized_unique"
   ],
   "note": ""
  },
  {
   "property": "C09",
   "status": "proved",
   "theorems": [
    "c09_lexer_total",
    "c09_no_panic_refuted"
   ],
   "note": "Panic only for a comment run dangling inside a service; that panic exists."
  },
  {
   "property": "C10",
   "status": "proved",
   "theorems": [
    "c10_comment_runs"
   ],
   "note": ""
  },
  {
   "property": "C11",
   "status": "proved",
   "theorems": [
    "c11_unget_restores",
    "c11_unget_to_position",
    "c11_ops_safe",
    "c11_unget_eof_refuted"
   ],
   "note": ""
  },
  {
   "property": "C12",
   "status": "proved",
   "theorems": [
    "c12_parse_service_total",
    "c12_parser_total",
    "c12_service_word_unchecked"
   ],
   "note": ""
  },
  {
   "property": "C13",
   "status": "proved",
   "theorems": [
    "c13_whitespace_irrelevant"
   ],
   "note": ""
  },
  {
   "property": "C14",
   "status": "proved",
   "theorems": [
    "c14_parse_written",
    "c14_parse_text",
    "c14_plain_literal",
    "c14_literal_value",
    "c14_field_called_service_refuted",
    "c14_second_option_refuted",
    "c14_leading_dot_refuted",
    "c14_other_option_refuted",
    "c14_comment_leaks_refuted"
   ],
   "note": "Source form: one http option per rpc; forms outside it that protoc accepts are refuted."
  },
  {
   "property": "C15",
   "status": "proved",
   "theorems": [
    "c15_methods_from_file",
    "c15_every_method_bound"
   ],
   "note": ""
  },
  {
   "property": "C16",
   "status": "proved",
   "theorems": [
    "c16_binding_order"
   ],
   "note": ""
  },
  {
   "property": "C17",
   "status": "proved",
   "theorems": [
    "c17_one_place"
   ],
   "note": ""
  },
  {
   "property": "C18",
   "status": "proved",
   "theorems": [
    "c18_location"
   ],
   "note": ""
  },
  {
   "property": "C19",
   "status": "proved",
   "theorems": [
    "c19_verb_and_path"
   ],
   "note": ""
  },
  {
   "property": "C20",
   "status": "proved",
   "theorems": [
    "c20_path_params",
    "c20_template"
   ],
   "note": ""
  },
  {
   "property": "C21",
   "status": "proved",
   "theorems": [
    "c21_assemble",
    "c21_consolidated_unique",
    "c21_others_unchanged",
    "c21_error",
    "c21_panic",
    "c21_no_panic_refuted"
   ],
   "note": "The Go method names are distinct (a Go interface cannot repeat one). A request type from another package is a nil-pointer panic."
  },
  {
   "property": "C22",
   "status": "proved",
   "theorems": [
    "c22_order_irrelevant",
    "c22_order_refuted",
    "c22_state_leaks_refuted"
   ],
   "note": ""
  },
  {
   "property": "C23",
   "status": "proved",
   "theorems": [
    "c23_camel_is_exported_ident",
    "c23_leading_dot_refuted"
   ],
   "note": ""
  },
  {
   "property": "C24",
   "status": "proved",
   "theorems": [
    "c24_camel_stable",
    "c24_dotted_refuted",
    "c24_injective_refuted"
   ],
   "note": ""
  },
  {
   "property": "C25",
   "status": "proved",
   "theorems": [
    "c25_snake_inverts_camel",
    "c25_camel_no_underscore",
    "c25_camel_keeps_plain",
    "c25_snake_no_upper",
    "c25_inverse_refuted"
   ],
   "note": ""
  },
  {
   "property": "C26",
   "status": "proved",
   "theorems": [
    "c26_sanitized_is_ident",
    "c26_sanitized_keeps_ident"
   ],
   "note": "Hypothesis: U+FFFD is not a letter."
  },
  {
   "property": "C27",
   "status": "proved",
   "theorems": [
    "c27_english",
    "c27_digits",
    "c27_injective",
    "c27_labels",
    "c27_across_methods",
    "c27_clash"
   ],
   "note": "labels of one method are distinct; across methods they clash only when one name extends the other by number words, and then they do (c27_clash)"
  },
  {
   "property": "C28",
   "status": "proved",
   "theorems": [
    "c28_path_params",
    "c28_never_panics",
    "c28_round_trip",
    "c28_empty_value_lost",
    "c28_literals_ignored"
   ],
   "note": "exact result for every URL and template; round trip for non-empty slash-free values; the empty last value is an error and literal parts are not compared"
  },
  {
   "property": "C29",
   "status": "proved",
   "theorems": [
    "c29_get_round_trip",
    "c29_path_empty",
    "c29_path_slash",
    "c29_path_dots",
    "c29_path_question",
    "c29_path_percent",
    "c29_mixed_part",
    "c29_lone_string",
    "c29_lone_string_json",
    "c29_nil_message",
    "c29_oneof_zero",
    "c29_get_body_lost",
    "c29_map_lost",
    "c29_optional_path",
    "c29_path_cut",
    "c29_path_hash",
    "c29_double_slash"
   ],
   "note": "round trip for every binding and every request whose fields are carried (GenHttpSpec.carried); each exclusion is refuted by a concrete request. Library codecs (floats, JSON of messages) are parameters."
  },
  {
   "property": "C30",
   "status": "proved",
   "theorems": [
    "c30_body_round_trip",
    "c30_body",
    "c30_bad_body"
   ],
   "note": "protojson is a parameter that has to take the request there and back"
  },
  {
   "property": "C31",
   "status": "proved",
   "theorems": [
    "c31_assignments",
    "c31_optional_int32_broken",
    "c31_optional_enum_broken",
    "c31_oneof_scalars",
    "c31_oneof_enum_broken",
    "c31_oneof_message_broken",
    "c31_oneof_assignments",
    "c31_oneof_message_assignment_broken"
   ],
   "note": "iff: exactly the optional int32/uint32/float32/enum fields get an ill-typed assignment; enum and message options of a oneof get an ill-typed comparison"
  },
  {
   "property": "C32",
   "status": "proved",
   "theorems": [
    "c32_labeled",
    "c32_total",
    "c32_except",
    "c32_compose"
   ],
   "note": "every iteration order of the map"
  },
  {
   "property": "C33",
   "status": "proved",
   "theorems": [
    "c33_headers",
    "c33_canonical",
    "c33_reserved",
    "c33_unrelated",
    "c33_order_free"
   ],
   "note": "for headers as the HTTP server delivers them (canonical names); a header named Transport or Request-Url is not available under its lower-cased name (shown)"
  },
  {
   "property": "C34",
   "status": "proved",
   "theorems": [
    "c34_status",
    "c34_text",
    "c34_custom",
    "c34_never_nothing",
    "c34_success",
    "c34_headers",
    "c34_header_lost",
    "c34_refuted_200",
    "c34_refuted_204",
    "c34_refuted_json",
    "c34_refuted_utf8"
   ],
   "note": "proved with the exclusions shown necessary by the refuted theorems"
  },
  {
   "property": "C35",
   "status": "proved",
   "theorems": [
    "regeneration_keeps_own_code",
    "first_file_own_code",
    "regenerated_file",
    "exported_helpers_removed_refuted"
   ],
   "note": "Own code (non-functions, unexported functions, NewService) is kept unchanged and in order. Exported helpers of the user are not own code in this sense: they are removed (refuted companion)."
  },
  {
   "property": "C36",
   "status": "proved",
   "theorems": [
    "one_handler_per_rpc",
    "regeneration_does_not_panic",
    "regeneration_deterministic",
    "grouped_parameters_panic_refuted"
   ],
   "note": "For distinct exported rpc names other than NewService. Baron panics on a handler whose two parameters share one type group (refuted companion); sufficient condition for no panic proved."
  },
  {
   "property": "C37",
   "status": "proved",
   "theorems": [
    "first_handler_kept",
    "regenerated_file"
   ],
   "note": "Name, receiver, body and doc comment kept; types renamed as specified by retyped; missing rpcs get a template handler, after everything else."
  },
  {
   "property": "C38",
   "status": "proved",
   "theorems": [
    "regeneration_idempotent",
    "newservice_rpc_refuted"
   ],
   "note": "Given that the Go names of the request and response types are fixed by GoCamelCase (protoc's names are); an rpc called NewService gets one more handler each time (refuted companion)."
  },
  {
   "property": "C39",
   "status": "proved",
   "theorems": [
    "generated_files",
    "distinct_paths",
    "generation_succeeds"
   ],
   "note": "Template engine, parser, printer and formatter are parameters; exact set of paths, each once, for every template order."
  },
  {
   "property": "C40",
   "status": "proved",
   "theorems": [
    "previous_files_read",
    "user_files_kept",
    "runner_fresh",
    "service_file_merged",
    "user_files_survive",
    "service_file_survives",
    "broken_service_file_fails"
   ],
   "note": "From the directory tree through readPreviousGeneration to the bytes on the disk."
  },
  {
   "property": "C41",
   "status": "proved",
   "theorems": [
    "failed_run_touches_nothing",
    "only_generated_touched",
    "crash_leaves_beginning",
    "finished_run",
    "not_crash_safe",
    "failed_run_writes_baron_file"
   ],
   "note": "Negative companions: the write is not atomic, and .pb.baron.go is written before the service is rendered."
  },
  {
   "property": "C42",
   "status": "proved",
   "theorems": [
    "accepted_iff_same_directory",
    "rejected_iff",
    "abs_dir_spec"
   ],
   "note": "filepath.Abs is a parameter; filepath.Dir of clean absolute paths."
  },
  {
   "property": "C43",
   "status": "proved",
   "theorems": [
    "c43_never_overwrites",
    "c43_existing_refused",
    "c43_exit_code",
    "c43_only_one_file",
    "c43_second_run",
    "c43_succeeds",
    "c43_race_refuted",
    "c43_failed_write_refuted"
   ],
   "note": "Other processes' interference is explicit: what they create between Stat and Create is overwritten (refuted)."
  },
  {
   "property": "C44",
   "status": "proved",
   "theorems": [
    "c44_names_legal",
    "c44_suffix",
    "c44_starter_parses",
    "c44_service_refuted",
    "c44_bare_suffix_refuted",
    "c44_suffix_refuted",
    "c44_distinct_refuted"
   ],
   "note": "The package name must differ from \"service\" (refuted otherwise)."
  },
  {
   "property": "C45",
   "status": "proved",
   "theorems": [
    "c45_starts_the_wanted",
    "c45_returns_reported",
    "c45_can_return",
    "c45_report_kept",
    "c45_one_value",
    "c45_signal_always",
    "c45_nothing_to_serve_refuted",
    "c45_nats_ends_quietly_refuted",
    "c45_others_never_quiet"
   ],
   "note": "Every schedule of the goroutines Run starts; what net/http, gRPC and NATS return, and when, is left open. Refuted expectations: Run comes back when there is nothing to serve, or when its only transport is NATS and ends."
  },
  {
   "property": "C46",
   "status": "proved",
   "theorems": [
    "field_protobuf_name",
    "field_name_of_tag",
    "field_no_name",
    "field_name_panic",
    "struct_tag_get_spec"
   ],
   "note": ""
  },
  {
   "property": "C47",
   "status": "proved",
   "theorems": [
    "definition_links",
    "enum_map_not_linked",
    "foreign_map_value_lost",
    "bytes_map_value_lost",
    "foreign_request_misread"
   ],
   "note": "Proved with the limits the code has; the refutations are theorems too."
  },
  {
   "property": "C48",
   "status": "proved",
   "theorems": [
    "second_call_same",
    "second_call_contents",
    "second_call_differs"
   ],
   "note": ""
  },
  {
   "property": "C49",
   "status": "proved",
   "theorems": [
    "c49_trim_is_suffix",
    "c49_trim_not_empty",
    "c49_trim_drops_prefix",
    "c49_trim_complete",
    "c49_names_no_underscore",
    "c49_enum_value_words",
    "c49_map_entry_words"
   ],
   "note": "ASCII names."
  },
  {
   "property": "C50",
   "status": "proved",
   "theorems": [
    "c50_binding",
    "c50_base_path",
    "c50_methods"
   ],
   "note": ""
  },
  {
   "property": "C51",
   "status": "proved",
   "theorems": [
    "c51_query",
    "c51_sorted"
   ],
   "note": ""
  },
  {
   "property": "C52",
   "status": "proved",
   "theorems": [
    "c52_first_match",
    "c52_routes"
   ],
   "note": "the router's matching itself (mux_match) is modelled for templates with at most one {name} per part"
  },
  {
   "property": "C53",
   "status": "proved",
   "theorems": [
    "c53_transparent",
    "c53_panic",
    "c53_call"
   ],
   "note": ""
  },
  {
   "property": "C54",
   "status": "proved",
   "theorems": [
    "c54_header",
    "c54_other",
    "c54_hop",
    "c54_refuted"
   ],
   "note": ""
  },
  {
   "property": "C55",
   "status": "proved",
   "theorems": [
    "c55_panic",
    "c55_metadata",
    "c55_sent",
    "c55_hop"
   ],
   "note": ""
  },
  {
   "property": "C56",
   "status": "proved",
   "theorems": [
    "c56_get",
    "c56_body",
    "c56_not_found",
    "c56_refused"
   ],
   "note": "protojson and the network are parameters"
  },
  {
   "property": "C57",
   "status": "proved",
   "theorems": [
    "rerun_changes_nothing",
    "run_exists"
   ],
   "note": "go_tools states what is asked of the formatter, parser and printer."
  },
  {
   "property": "C58",
   "status": "proved",
   "theorems": [
    "proto_file_names",
    "proto_files_distinct",
    "grpc_name_clash_refuted"
   ],
   "note": ""
  },
  {
   "property": "C59",
   "status": "proved",
   "theorems": [
    "definition_contents",
    "definition_oneofs",
    "unsafe_service_missed"
   ],
   "note": ""
  },
  {
   "property": "C60",
   "status": "proved",
   "theorems": [
    "only_unary",
    "streams_fail",
    "streams_not_skipped"
   ],
   "note": ""
  },
  {
   "property": "C61",
   "status": "proved",
   "theorems": [
    "walk_order",
    "two_oneof_files"
   ],
   "note": "Both walks are assumed to succeed."
  },
  {
   "property": "C62",
   "status": "proved",
   "theorems": [
    "generated_accepted"
   ],
   "note": ""
  },
  {
   "property": "C63",
   "status": "proved",
   "theorems": [
    "c63_accepts_exactly",
    "c63_rejects_exactly",
    "c63_meaning_unique",
    "c63_written_form"
   ],
   "note": "grammar in GrammarSpec.v"
  },
  {
   "property": "C64",
   "status": "proved",
   "theorems": [
    "c64_settings",
    "c64_debug_words_refuted",
    "c64_debug_false_refuted",
    "c64_switch_off"
   ],
   "note": "Includes a model of package flag for the five flags."
  },
  {
   "property": "C65",
   "status": "proved",
   "theorems": [
    "c65_local_svcout",
    "c65_gopath_svcout",
    "c65_gopath_below",
    "c65_gopath_below_refuted",
    "c65_absolute_svcout_refuted",
    "c65_no_svcout",
    "c65_crash_iff",
    "c65_gopath_list",
    "c65_files",
    "c65_files_apart",
    "c65_clean_means",
    "c65_join_means",
    "c65_gopath_any"
   ],
   "note": "Includes a model of filepath.Clean, Join, Abs, Split and SplitList on Unix."
  },
  {
   "property": "C66",
   "status": "proved",
   "theorems": [
    "c66_scalar",
    "c66_refused",
    "c66_repeated",
    "c66_oneof",
    "c66_two_options",
    "c66_runs",
    "c66_repeated_strings_refuted"
   ],
   "note": "The server half of the HTTP transport, for requests from any client (C29 is the round trip with the generated client). JSON and float text codecs are parameters."
  },
  {
   "property": "C67",
   "status": "proved",
   "theorems": [
    "c67_names_compile",
    "c67_ten_bindings",
    "c67_case_refuted",
    "c67_keyword_refuted",
    "c67_reserved_refuted",
    "c67_empty_refuted",
    "c67_eleven_refuted"
   ],
   "note": "The declared names of the template's scopes; what protoc-gen-go declares is a parameter."
  },
  {
   "property": "C68",
   "status": "proved",
   "theorems": [
    "c68_decoder_scope",
    "c68_query_scope",
    "c68_local_shape",
    "c68_imports_visible",
    "c68_types_visible",
    "c68_set_refuted",
    "c68_camel_refuted",
    "c68_hidden_type_refuted"
   ],
   "note": "Names and scopes only; other reasons for the Go compiler to refuse the decoder are not modelled."
  },
  {
   "property": "C69",
   "status": "proved",
   "theorems": [
    "c69_json",
    "c69_one_meaning",
    "c69_written",
    "c69_error_in",
    "c69_report",
    "c69_bad_success",
    "c69_number_refuted",
    "c69_empty_refuted"
   ],
   "note": "The JSON grammar is specified independently in JsonSpec.v; the model of encoding/json is proved to read exactly it. Nesting depth limit of encoding/json (10000) and byte (not rune) count of the limit not modelled."
  },
  {
   "property": "C70",
   "status": "proved",
   "theorems": [
    "c70_grpc",
    "c70_grpc_no_other",
    "c70_grpc_dotted_refuted",
    "c70_grpc_stray_refuted",
    "c70_grpc_lower_refuted",
    "c70_nats",
    "c70_nats_package_refuted"
   ],
   "note": "grpc-go's dispatch, protoc-gen-go-grpc's registered names and NATS queue groups are modelled from their documentation."
  },
  {
   "property": "C71",
   "status": "proved",
   "theorems": [
    "c71_response",
    "c71_error_lost",
    "c71_error_field",
    "c71_oneof_lost",
    "c71_oneof_response_lost",
    "c71_refused",
    "c71_null",
    "c71_unwritable"
   ],
   "note": "encoding/json of the types of single fields is a parameter; its handling of structs, member names, omitempty and interfaces is modelled, as is go-kit's NATS transport. Timeouts and lost messages are not."
  },
  {
   "property": "C72",
   "status": "proved",
   "theorems": [
    "c72_host_port",
    "c72_scheme",
    "c72_path_dropped",
    "c72_http_host_refuted",
    "c72_upper_refuted",
    "c72_no_methods",
    "c72_query_kept"
   ],
   "note": "net/url's Parse is modelled except authorities with users, brackets or escapes; which requests net/http sends is modelled from its documentation."
  },
  {
   "property": "C73",
   "status": "proved",
   "theorems": [
    "c73_routes",
    "c73_baron",
    "c73_nothing_else",
    "c73_helper_total",
    "c73_foreign_request_panics"
   ],
   "note": "composes C01-C22, C46, C62 and C50; Go files are read as declaration lists (go/parser is not modelled)."
  },
  {
   "property": "C74",
   "status": "proved",
   "theorems": [
    "c74_meaning",
    "c74_one_meaning",
    "c74_action",
    "c74_anywhere",
    "c74_transport_checked_refuted",
    "c74_test_word_passed_over",
    "c74_single_dash_refuted",
    "c74_switch_takes_no_word",
    "c74_help_first_refuted",
    "c74_words"
   ],
   "note": "pflag v1.0.5 is modelled from its source as known (it is not in /repo); the messages are not modelled."
  },
  {
   "property": "C75",
   "status": "proved",
   "theorems": [
    "c75_request",
    "c75_imports",
    "c75_outputs",
    "c75_no_error",
    "c75_names",
    "c75_colon_refuted",
    "c75_extension_refuted"
   ],
   "note": "protoc's reading of its command line and naming of outputs are modelled from their documentation; what it compiles is a parameter."
  },
  {
   "property": "C76",
   "status": "proved",
   "theorems": [
    "c76_outcomes",
    "c76_generates",
    "c76_runs",
    "c76_protoc_fails",
    "c76_no_package_silent",
    "c76_no_temp_silent",
    "c76_refused_proto_silent",
    "c76_two_services_refuted",
    "c76_old_grpc_read_refuted",
    "c76_zero",
    "c76_silent"
   ],
   "note": "protoc, go/parser and packages.Load are parameters, and so are the templates (C77 puts the real ones in); the log, file modes and empty directories are not modelled."
  },
  {
   "property": "C77",
   "status": "proved",
   "theorems": [
    "c77_files",
    "c77_methods",
    "c77_decoders",
    "c77_ready"
   ],
   "note": "text/template (lexer, parser, executor) is modelled for the constructs that the templates use; the ten template texts are in Assets.v byte for byte; strings.Title and format.Source are not modelled."
  },
  {
   "property": "C78",
   "status": "proved",
   "theorems": [
    "c78_server",
    "c78_decoder",
    "c78_client",
    "c78_response",
    "c78_encoder",
    "c78_endpoints",
    "c78_methods",
    "c78_wrap",
    "c78_grpc",
    "c78_nats",
    "c78_declared",
    "c78_endpoint_declared",
    "c78_transports",
    "c78_imports"
   ],
   "note": "The text is that before go/format; TextSpec.v has the texts as functions of names; the code of single fields is a parameter of the decoder here."
  },
  {
   "property": "C79",
   "status": "proved",
   "theorems": [
    "c79_decoded",
    "c79_list"
   ],
   "note": "json.Unmarshal of a slice of scalars is modelled in GenHttp.v; unescaping the inside of a JSON string and reading a float are parameters."
  },
  {
   "property": "C80",
   "status": "proved",
   "theorems": [
    "c80_decoder",
    "case_decoder"
   ],
   "note": "Go is the fragment specified in GoLex.v (tokens) and GoLang.v (scopes, values); go/format may change the layout only (hypothesis lays_out)."
  },
  {
   "property": "C81",
   "status": "proved",
   "theorems": [
    "c81_encoder",
    "c81_other_option",
    "case_encoder",
    "case_enum_option"
   ],
   "note": "Go is the fragment specified in GoLex.v, GoLang.v (syntax) and GoEncode.v (meaning). The second theorem is about a defect: the client of a method with an enum or message option in the query does not compile."
  },
  {
   "property": "C82",
   "status": "proved",
   "theorems": [
    "c82_round_trip",
    "case_round_trip"
   ],
   "note": "Composes C80 and C81 with C29 and C30; the server reads an empty body when the client sends none."
  },
  {
   "property": "C83",
   "status": "proved",
   "theorems": [
    "c83_first",
    "c83_added",
    "c83_again",
    "c83_handlers",
    "c83_case"
   ],
   "note": "Connects Handler.v (C35-C38), which works on declarations, with the texts of the templates. How the Go printer writes the kept declarations is a hypothesis of c83_again."
  },
  {
   "property": "C84",
   "status": "proved",
   "theorems": [
    "c84_declarations",
    "c84_names",
    "c84_decoders",
    "c84_encoders",
    "c84_case"
   ],
   "note": "Whole-file version of C67, C78, C80 and C81. Go's lexer and declaration syntax are specified in GoLex.v and GoDecls.v. Names of packages whose import has no name: package_name in PropGoFile.v."
  },
  {
   "property": "C85",
   "status": "proved",
   "theorems": [
    "c85_server",
    "c85_service",
    "c85_main",
    "c85_client",
    "c85_config",
    "c85_endpoints",
    "c85_case"
   ],
   "note": "First generation of a project (an existing service.go is C83). What is meant by fitting is in GoPackage.v: clauses, scopes, imports, qualified names, calls; types of expressions are not checked. GoPackage.outside lists what outside packages are taken to declare."
  },
  {
   "property": "C86",
   "status": "proved",
   "theorems": [
    "c86_settings",
    "c86_run",
    "c86_process",
    "c86_case"
   ],
   "note": "Connects Server.v (C45, C64) with the texts of the templates. The programs and their meaning are in GoServer.v; net/http, gRPC, NATS and signals may do anything, as in C45."
  },
  {
   "property": "C87",
   "status": "proved",
   "theorems": [
    "c87_endpoints",
    "c87_wrap",
    "c87_http",
    "c87_grpc",
    "c87_case"
   ],
   "note": "Connects Middleware.v and Context.v (C32, C33, C53-C55) with the text of the template. The programs and their meaning are in GoGlue.v; what net/http, context and metadata do is as in Context.v."
  },
  {
   "property": "C88",
   "status": "proved",
   "theorems": [
    "c88_errors",
    "c88_response",
    "c88_client",
    "c88_case"
   ],
   "note": "Connects ErrorHop.v (C34, C56, C69) with the text of the template. net/http's ResponseWriter, protojson and the error packages are a library stated in PropAnswer.v; deferred calls are not looked at."
  },
  {
   "property": "C89",
   "status": "proved",
   "theorems": [
    "c89_grpc",
    "c89_grpc_call",
    "c89_nats",
    "c89_case"
   ],
   "note": "Connects Rpc.v (C70, C71) and the endpoints of C87 with the text of the template. What go-kit does with what it is given (decode, endpoint, encode; path; encoding/json by C71's model) is stated in WireGrpc.v and WireNats.v. That what the client asks for reaches the method is a hypothesis of c89_grpc_call; when it does is C70."
  },
  {
   "property": "C90",
   "status": "proved",
   "theorems": [
    "c90_text",
    "c90_handler",
    "c90_client",
    "c90_server",
    "c90_hop",
    "c90_case"
   ],
   "note": "Connects GenHttp.v, Client.v and ErrorHop.v (C27-C31, C54-C56, C72) with the text of the template: routes, options, decoders (C84), answers (C88). What gorilla/mux and go-kit's transport/http do with what they are given is stated in WireHttp.v (dispatch) and HttpKit.v (kit_serve, kit_call). c90_server and c90_hop are for handlers and clients without options of the caller, and ask of each binding what C84 and C66 ask (names that do not collide, decodable parameter types)."
  },
  {
   "property": "C91",
   "status": "proved",
   "theorems": [
    "c91_text",
    "c91_functions",
    "c91_free",
    "c91_needs",
    "c91_case",
    "c91_case_refuted"
   ],
   "note": "C67 compares lists of names (Wiring.v); this checks the programs that the text of the file is (C87-C90): uses, blocks and literals. Go's rules are in GoScope.v. Types, methods and fields of imported packages are not checked, and the request decoders and encoders have their own fragment (C68, C84)."
  },
  {
   "property": "C92",
   "status": "proved",
   "theorems": [
    "c92_encoders",
    "c92_free",
    "c92_case"
   ],
   "note": "Checks the program that the text of the encoder is (C81, C84) against Go's rules in GoBlocks.v. Types, methods and fields of imported packages are not checked."
  },
  {
   "property": "C93",
   "status": "proved",
   "theorems": [
    "c93_decoders",
    "c93_free",
    "c93_case",
    "c93_list_refuted",
    "c93_message_refuted",
    "c93_list_needs",
    "c93_message_needs",
    "c93_needs_cases"
   ],
   "note": "Checks the program that the text of the decoder is (C80, C84) against Go's rules in GoBlocks.v; C68 compares the lists of names only. Types, methods and fields of imported packages are not checked."
  },
  {
   "property": "C94",
   "status": "proved",
   "theorems": [
    "c94_spelling",
    "c94_query",
    "c94_same",
    "c94_case"
   ],
   "note": "net/url's ParseQuery is modelled in Url.v; the specification (spells, pair_of, query_says) is at the head of PropQuery.v. That the decoders of the generated text do what decode_request says is C80/C84."
  }
 ]
}