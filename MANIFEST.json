{
 "claims": [
  {
   "property": "C01",
   "status": "proved",
   "theorems": [
    "C01_strings",
    "C01_path_params_exact"
   ],
   "note": "Full claim, for every string. What is recorded of each parameter besides its name is that it is a string (C01_strings)."
  },
  {
   "property": "C02",
   "status": "proved",
   "theorems": [
    "C02_rewrite_exact",
    "C02_rewrite_identity"
   ],
   "note": "Full claim, for every string and rewriting function."
  },
  {
   "property": "C03",
   "status": "proved",
   "theorems": [
    "C03_documented_paths_distinct",
    "C03_not_injective_outside_gin"
   ],
   "note": "For every pair of paths in gin's path language; outside that language a merging pair is exhibited."
  },
  {
   "property": "C04",
   "status": "partial",
   "theorems": [
    "C04_templates_declared_refuted",
    "C04_templates_declared_partial",
    "C04_colon_paths_declared_partial"
   ],
   "note": "Refuted for catch-all parameters (the template reads {x*}, the parameter x, not required); proved for paths without catch-all."
  },
  {
   "property": "C05",
   "status": "partial",
   "theorems": [
    "C05_split_lossless",
    "C05_function_recovered",
    "C05_package_recovered_refuted",
    "C05_package_recovered_partial",
    "C05_package_name"
   ],
   "note": "Split is lossless and the function name is always recovered. The package path is recovered exactly when the linker escapes nothing in it; refuted for paths such as gopkg.in/yaml.v3. The name of the package is the last element of its path (C05_package_name)."
  },
  {
   "property": "C06",
   "status": "proved",
   "theorems": [
    "C06_created_exact",
    "C06_created_succeeds",
    "C06_failure_keeps_prefix"
   ],
   "note": "Full claim; the relative-path computation is an arbitrary partial function."
  },
  {
   "property": "C07",
   "status": "proved",
   "theorems": [
    "C07_components_first_wins",
    "C07_components_unique",
    "C07_components_complete",
    "C07_history",
    "C07_add_again_no_change"
   ],
   "note": "Full claim, for every history of additions."
  },
  {
   "property": "C08",
   "status": "partial",
   "theorems": [
    "C08_returns_complete",
    "C08_returns_prefix",
    "C08_returns_unique_refuted",
    "C08_returns_dropped_iff_partial"
   ],
   "note": "Completeness and order are proved; uniqueness is refuted, and the exact condition for dropping an addition is proved."
  },
  {
   "property": "C09",
   "status": "proved",
   "theorems": [
    "C09_replace_first_match"
   ],
   "note": "Full claim."
  },
  {
   "property": "C10",
   "status": "partial",
   "theorems": [
    "C10_again_refuted",
    "C10_doubling_partial",
    "C10_again_partial"
   ],
   "note": "Refuted: a second analysis doubles query parameters. Proved: exactly what a second analysis adds (everything but path parameters, comments, ids and components); identical for handlers that only answer, with one return type."
  },
  {
   "property": "C11",
   "status": "proved",
   "theorems": [
    "C11_unquote",
    "C11_keys",
    "C11_quoted_value",
    "C11_lookup_exact",
    "C11_usable_bindings"
   ],
   "note": "Full claim for every non-empty field name and every tag string; reflect.StructTag.Lookup and strconv.Unquote are modelled. strconv.Unquote accepts exactly the interpreted string literals of the language, with the value the language gives them (C11_unquote, against a separate grammar with UTF-8); the keys are exactly the six binding tags (C11_keys)."
  },
  {
   "property": "C12",
   "status": "partial",
   "theorems": [
    "C12_encoder_name_refuted",
    "C12_yaml_default_refuted",
    "C12_encoder_name_partial"
   ],
   "note": "Refuted for values starting with '-,' and for YAML tags without a name; proved for all other tags."
  },
  {
   "property": "C13",
   "status": "proved",
   "theorems": [
    "C13_content_types_back",
    "C13_known_or_no_binding",
    "C13_unknown_no_binding"
   ],
   "note": "Full claim."
  },
  {
   "property": "C14",
   "status": "proved",
   "theorems": [
    "C14_tags_exact",
    "C14_order_independent"
   ],
   "note": "Full claim, for all iteration orders at both levels."
  },
  {
   "property": "C15",
   "status": "partial",
   "theorems": [
    "C15_distinct_names_refuted",
    "C15_suffix_package_refuted",
    "C15_distinct_names_partial"
   ],
   "note": "Refuted: three packages x/types/errors collide, and so do a package and one whose path ends like it. Proved when packages with the same last element all first differ at the same position and the names hold no dots."
  },
  {
   "property": "C16",
   "status": "partial",
   "theorems": [
    "C16_naming_completes_refuted",
    "C16_naming_completes_partial"
   ],
   "note": "Refuted: a group with one path shorter than the common end of two others panics. Proved for every other group, every iteration order and every earlier state."
  },
  {
   "property": "C17",
   "status": "partial",
   "theorems": [
    "C17_same_service_again",
    "C17_history_free_refuted",
    "C17_history_free_partial"
   ],
   "note": "Repeating a service is stable in every order. Independence of earlier documents is refuted (stale entries of the global map); proved for every tag a component is registered under."
  },
  {
   "property": "C18",
   "status": "partial",
   "theorems": [
    "C18_references_resolve_refuted",
    "C18_references_resolve_partial",
    "C18_uniform_tags_resolve_partial"
   ],
   "note": "Refuted (embedded untagged field next to a tagged one, answered as XML). Proved for every service whose components are covered, in particular when the fields of each struct have the same tags."
  },
  {
   "property": "C19",
   "status": "partial",
   "theorems": [
    "C19_order_independent_refuted",
    "C19_same_name_refuted",
    "C19_order_independent_partial"
   ],
   "note": "Refuted for two embedded fields and for two fields shown under one name. Proved otherwise; sort.Slice need not be stable."
  },
  {
   "property": "C20",
   "status": "partial",
   "theorems": [
    "C20_routes_documented_refuted",
    "C20_routes_documented_partial",
    "C20_nothing_else",
    "C20_paths_exact"
   ],
   "note": "Refuted for TRACE. Proved for all other methods; nothing else is documented; the paths are exactly the routes' paths."
  },
  {
   "property": "C21",
   "status": "partial",
   "theorems": [
    "C21_headers",
    "C21_statuses_exact",
    "C21_status_keys_distinct",
    "C21_responses_described_refuted",
    "C21_responses_described_partial",
    "C21_no_other_content",
    "C21_one_described"
   ],
   "note": "Statuses are exact. Schemas: refuted when two types share status and content type; proved otherwise; no other content appears. Response headers are exact. With types sharing status and content type, the content is that of one of them."
  },
  {
   "property": "C22",
   "status": "partial",
   "theorems": [
    "C22_bodies_described_refuted",
    "C22_bodies_described_partial",
    "C22_no_other_body",
    "C22_one_described"
   ],
   "note": "Refuted: form fields read one by one overwrite each other. Proved when content types differ; no other body appears. With bodies sharing a content type, the content is that of one of them."
  },
  {
   "property": "C23",
   "status": "partial",
   "theorems": [
    "C23_styles",
    "C23_bound_query_partial",
    "C23_query_only",
    "C23_sorted",
    "C23_parameters_documented",
    "C23_nothing_else_refuted",
    "C23_bound_query_refuted",
    "C23_exact_partial"
   ],
   "note": "Sorting and presence of every named parameter are proved in full; 'nothing else' is refuted for bound parameters and proved without them. Styles are proved; for bound query structs without embedded fields every shown field is documented, and nothing else is."
  },
  {
   "property": "C24",
   "status": "partial",
   "theorems": [
    "C24_schema_exists",
    "C24_hidden_never_leak",
    "C24_visible_shown_refuted",
    "C24_properties_exact_partial"
   ],
   "note": "Existence and absence of leaks in full. Showing every visible field is refuted for unbound anonymous structs and proved otherwise."
  },
  {
   "property": "C25",
   "status": "partial",
   "theorems": [
    "C25_mappings_refuted",
    "C25_mappings_partial",
    "C25_memo_transparent"
   ],
   "note": "Refuted for mappings given after the first lookup (memo); proved for all histories in which the options come first."
  },
  {
   "property": "C26",
   "status": "proved",
   "theorems": [
    "C26_info_and_server",
    "C26_refused_without_config",
    "C26_config_kept"
   ],
   "note": "Full claim."
  },
  {
   "property": "C27",
   "status": "partial",
   "theorems": [
    "C27_type_analysis_terminates_refuted",
    "C27_finite_types_terminate_partial",
    "C27_terminates_iff_finite_partial",
    "C27_unregistered_terminates",
    "C27_answer_stable"
   ],
   "note": "Refuted: a linked list type is analysed for ever. Proved to end exactly on the types that do not contain themselves, and always when components are not registered."
  },
  {
   "property": "C28",
   "status": "partial",
   "theorems": [
    "C28_reachable_named_types_registered_refuted",
    "C28_reachable_named_types_registered_partial",
    "C28_registered_description_is_own_partial",
    "C28_registered_description_is_own_refuted",
    "C28_only_reachable_registered"
   ],
   "note": "Refuted: a slice type of elements from another package is registered under that package; of two local types with the same name only the first is described. Proved for all other named types; nothing unreachable is registered."
  },
  {
   "property": "C29",
   "status": "partial",
   "theorems": [
    "C29_struct_fields",
    "C29_element_types_recorded_refuted",
    "C29_own_type_recorded_refuted",
    "C29_array_has_schema_refuted",
    "C29_value_field_partial",
    "C29_slice_field_partial",
    "C29_array_field_partial",
    "C29_map_field_partial",
    "C29_schema_refers_to_element_partial"
   ],
   "note": "Refuted: slices of slices lose the inner element type, types named like a built-in lose their package, arrays have no schema. Proved: the exact field for values, slices, arrays and maps of built-in or package types, and the schema refers to the element's component. Struct fields are exactly the exported ones, with tags and embedding."
  },
  {
   "property": "C30",
   "status": "partial",
   "theorems": [
    "C30_recorded_partial",
    "C30_recorded_refuted",
    "C30_data_refuted"
   ],
   "note": "Refuted: calls inside arguments of builtins, conversions and function values are lost, and c.Data never succeeds. Proved: for handlers whose other calls can be resolved, the route is exactly the events of the tree and its helpers, in order."
  },
  {
   "property": "C31",
   "status": "partial",
   "theorems": [
    "C31_terminates_refuted",
    "C31_terminates_partial",
    "C31_fuel_irrelevant"
   ],
   "note": "Refuted: a recursive helper is followed for ever. Proved to end whenever no chain of context-passing calls is infinite, with any custom functions and failures. The fuel of the model is shown not to matter: all amounts that are enough give the same result."
  },
  {
   "property": "C32",
   "status": "partial",
   "theorems": [
    "C32_no_crash_refuted",
    "C32_crash_refuted",
    "C32_others_kept_partial",
    "C32_nothing_lost_partial",
    "C32_wrong_file_refuted"
   ],
   "note": "Refuted: a context method with an argument that cannot be evaluated panics the run; a helper in another package that ends at a call that is not followed makes the later calls fail. Proved: all other failing calls lose only themselves; nothing recorded before is lost."
  },
  {
   "property": "C33",
   "status": "proved",
   "theorems": [
    "C33_positions",
    "C33_ith",
    "C33_first_failure",
    "C33_callback_not_run"
   ],
   "note": "Full claim."
  },
  {
   "property": "C34",
   "status": "partial",
   "theorems": [
    "C34_targets",
    "C34_characters",
    "C34_literal_partial",
    "C34_literal_refuted",
    "C34_raw",
    "C34_raw_refuted",
    "C34_constant",
    "C34_constant_plain",
    "C34_constants_collide",
    "C34_constant_refuted",
    "C34_constant_cut",
    "C34_constant_fixed",
    "C34_bool",
    "C34_nothing_made_up",
    "C34_selector_refuted",
    "C34_variable_partial",
    "C34_variable_crash",
    "C34_variable_refuted"
   ],
   "note": "Interpreted literals: exact iff no escapes (iff proved). Raw literals and string constants: the recorded name always differs (proved for all, except constants whose quoted form exceeds 72 runes, which can collide); variables followed to their literal; refuted: escapes, raw strings, constants, variables without values crash, selectors depend on map order. Also proved: what is recorded for a long constant (its quoted form cut at 69 characters; one such constant is recorded as itself), for booleans, and that nothing is recorded that does not come from a literal or constant the source leads to. Which expressions name a place is exact (C34_targets). The cut is made by characters: on any UTF-8 text runes are counted and taken by code points (C34_characters)."
  },
  {
   "property": "C35",
   "status": "partial",
   "theorems": [
    "C35_no_temporary_partial",
    "C35_headers_refuted",
    "C35_main_header_lost_refuted",
    "C35_only_packages",
    "C35_fields_kept",
    "C35_in_place",
    "C35_idempotent",
    "C35_others_untouched",
    "C35_run_partial"
   ],
   "note": "Refuted: Clean skips request and response headers, so a header struct of the main package keeps the temporary path and is then left out of the document. Proved for components, path and query parameters, bodies and return types at any depth; only packages (and substituted types) change, nothing is lost or moved, and cleaning again changes nothing. C35_run_partial says it of the service after a run that ends well (Parse or CompleteParse), with the temporary path the run itself found."
  },
  {
   "property": "C36",
   "status": "partial",
   "theorems": [
    "C36_duration_partial",
    "C36_duration_enum_refuted",
    "C36_error_kept",
    "C36_error_refuted"
   ],
   "note": "Refuted twice: time.Duration is documented as an integer with the single allowed value 1, and a field of type error is never substituted (its name is empty), so its schema is empty. Proved: the component of time.Duration always gets type integer."
  },
  {
   "property": "C37",
   "status": "partial",
   "theorems": [
    "C37_nil_input",
    "C37_first_failure",
    "C37_complete_first_failure",
    "C37_nothing_to_do",
    "C37_teardown_refuted"
   ],
   "note": "Proved with any number of inputs and outputs, any phase outcome and any operating system failure: a run is its steps up to the first that fails, whose result it returns, and the announced events are a prefix of the expected ones. Refuted only for tear-down, whose failure to remove the directory is not returned. A nil function or router in the first input crashes the creation of routes (C37_nil_input)."
  },
  {
   "property": "C38",
   "status": "partial",
   "theorems": [
    "C38_loaded_partial",
    "C38_caching_keeps_service",
    "C38_failed_load",
    "C38_custom_types_refuted",
    "C38_enum_refuted",
    "C38_text_refuted",
    "C38_loaded_exact",
    "C38_numbers",
    "C38_numbers_exact"
   ],
   "note": "Refuted three times: the custom type mapping is cached but not restored, integers of enumerations come back as floating point numbers, and text that is not UTF-8 is changed. Proved for every service whose data JSON carries, with a JSON cache and any loader looking at the same place: inputs (modes), outputs (modes and configuration), configuration, routes and components come back as they were and the rest of the loader is kept. Proved for all services, contents and failures: a load that does not succeed changes nothing, and no load touches a file. YAML caches are not covered. Numbers of enumerations come back as the nearest number a float64 holds, and unchanged if it holds them (C38_numbers, C38_numbers_exact). Without failures, with a JSON cache, the loaded parts are those cached exactly if JSON carries the data (C38_loaded_exact)."
  },
  {
   "property": "C39",
   "status": "partial",
   "theorems": [
    "C39_states_partial",
    "C39_success",
    "C39_refuted"
   ],
   "note": "Refuted: caching removes the old file first, so there are moments with no cache and with an empty one. Proved for every service, tree and failing call: at every moment the place holds the old state, nothing, an empty file, the new state, or what a failing write left, and nothing else in the tree is touched; after success the new state is there. Removal is taken to be atomic."
  },
  {
   "property": "C40",
   "status": "partial",
   "theorems": [
    "C40_exact",
    "C40_default",
    "C40_yaml_never",
    "C40_refuted"
   ],
   "note": "Refuted: a cache at a path with any other ending is written but cannot be read. Proved exactly: without failing calls what was cached can be loaded if and only if the path ends in .json, .yaml or .yml, the default path always can, and a service with inputs or outputs can never be cached as YAML (marshalling its functions panics)."
  },
  {
   "property": "C41",
   "status": "partial",
   "theorems": [
    "C41_same_output_partial",
    "C41_custom_types_refuted",
    "C41_custom_functions_refuted",
    "C41_azure_never"
   ],
   "note": "Partial: for services with Gin inputs and JSON and OpenAPI outputs whose texts are UTF-8, without custom types or custom functions and with the cache at its usual place, if a whole run succeeds then the set-up with the cache and the command line after it succeed (in an environment without faults that answers alike) and leave the same tree outside .astra. Refuted for custom types and custom functions, which are not loaded from the cache, and for Azure outputs, which the command line never rebinds."
  },
  {
   "property": "C42",
   "status": "partial",
   "theorems": [
    "C42_rebound",
    "C42_succeeds_partial",
    "C42_built_in",
    "C42_azure_refuted",
    "C42_azure_never"
   ],
   "note": "Refuted: an Azure output is never rebound (the test of its directory is inverted). Proved exactly for which services rebinding succeeds - gin inputs, JSON and OpenAPI outputs with a non-empty path - and that it then gives in order the same modes, paths and generators with everything else unchanged."
  },
  {
   "property": "C43",
   "status": "partial",
   "theorems": [
    "C43_outside_unchanged",
    "C43_complete_outside_unchanged",
    "C43_restored",
    "C43_cached",
    "C43_refuted",
    "C43_gitignore_kept",
    "C43_gitignore_written"
   ],
   "note": "Refuted: a file the user keeps in a directory named .astra is removed by a successful run. Proved for every sane tree (plain names) and every service, whatever fails: at no moment does anything change outside the places of the outputs, the cache and astra's own directory; after a successful run without operating system failures, where .astra did not exist, the tree is as before but for the outputs, and with caching but for the outputs, .astra, its .gitignore and the cache (Azure outputs left aside). Without operating system failures and with the directory kept (cache or command line), a .gitignore found in it is the same at every moment of a run, successful or not, and where there was none a successful run leaves one that ignores everything."
  },
  {
   "property": "C44",
   "status": "partial",
   "theorems": [
    "C44_later_succeeds_partial",
    "C44_refuted",
    "C44_azure_blocked"
   ],
   "note": "Partial: after any number of runs of services with the cache at its usual place and no Azure output, each failed, broken off at any moment or successful, a run that succeeds on the tree from before them succeeds and leaves the same outside .astra but for the documents of the others. Refuted for Azure outputs: the temporary directory of a failed run makes every later run with an Azure output fail."
  },
  {
   "property": "C45",
   "status": "partial",
   "theorems": [
    "C45_own_place_partial",
    "C45_directory_kept",
    "C45_refuted",
    "C45_neighbours_refuted"
   ],
   "note": "Refuted: an Azure output directory given as empty or a dot removes the whole working directory, and other files in the configured directory are removed too. Proved for every sane tree, at every moment and whatever fails: a JSON or OpenAPI output changes only its own file and never replaces a directory; an Azure output changes only what is at or below its configured directory and the temporary directory .astra/azure."
  },
  {
   "property": "C46",
   "status": "partial",
   "theorems": [
    "C46_converted_partial",
    "C46_form_exists",
    "C46_refuted",
    "C46_constraint",
    "C46_no_constraint"
   ],
   "note": "Refuted: in /:x/:a the text :a is found inside the constraint already written for x, so the second parameter stays unconverted. Proved for every path gin accepts whose later required parameter names are not the beginning of the constraint text alpha (with further parameters of types without a constraint): the result is the path with each parameter in its braced form and nothing else changed. Parameters of the other constrained types are not covered: path parameters found in a path are always strings. For a single parameter of any type the constraint is the one of its type (C46_constraint, C46_no_constraint). Which requests the result serves is C80."
  },
  {
   "property": "C47",
   "status": "proved",
   "theorems": [
    "C47_functions",
    "C47_clash_reported",
    "C47_succeeds",
    "C47_shared_handler",
    "C47_rename"
   ],
   "note": "Proved for every service with a working directory, whatever calls fail: an error, or below the output directory exactly that directory, one distinct folder per route and in it the one file with the methods and the converted path (the conversion itself is C46), and no temporary directory left. Shared or empty handler names are always reported; success is proved when nothing is in the way. Renaming succeeds exactly when source and target allow it (C47_rename)."
  },
  {
   "property": "C48",
   "status": "partial",
   "theorems": [
    "C48_json",
    "C48_openapi_partial",
    "C48_openapi_first",
    "C48_azure",
    "C48_same_place_partial",
    "C48_moves",
    "C48_refuted",
    "C48_between_json",
    "C48_between_azure",
    "C48_between_openapi_partial",
    "C48_generations",
    "C48_generations_openapi_partial",
    "C48_end_json_partial",
    "C48_end_openapi_partial"
   ],
   "note": "Proved for any number of successful calls in a row of the function of one output: JSON writes the same results, OpenAPI the document of the first call in the same format (under the conditions of C19, whatever the map orders of each call), Azure the same folders at the same place. The exact place of the file of each call is proved: the same one when the working directory is given as the current one, never the same one when it is given from the root on, as by default; so the full statement is refuted. The same is proved with calls of other outputs in between, in any order and with anything happening to the files meanwhile (C48_between_*), every OpenAPI output writing the one document of the first call, and for whole runs of generation, with or without a cache (C48_generations*), where what is stated is the file right after the call that writes it. It is there at the end of the run too, without a cache and an Azure output and unless a later output writes the same file (C48_end_*)."
  },
  {
   "property": "C49",
   "status": "partial",
   "theorems": [
    "C49_built",
    "C49_stable",
    "C49_others_partial",
    "C49_refuted"
   ],
   "note": "Proved for every sequence of calls on any builders: when building fails, the last value set of every field, the defaults of host and base path; validation is idempotent. Only calls on other builders leave a built configuration alone: a later call on its own builder changes it (refuted), because Build gives the builder's own pointer."
  },
  {
   "property": "C50",
   "status": "partial",
   "theorems": [
    "C50_result",
    "C50_any_order_partial",
    "C50_commute",
    "C50_logger_refuted"
   ],
   "note": "Proved for every list of options: the value of every setting of the service and the logger, and that only the order among options about one thing matters. Refuted for a log level and a logger, which are different options but do not commute. The custom type options are maps with distinct keys; the input and output options are those of inputs/ and outputs/."
  },
  {
   "property": "C51",
   "status": "partial",
   "theorems": [
    "C51_found",
    "C51_added",
    "C51_same",
    "C51_distinct",
    "C51_path_partial",
    "C51_path_ends",
    "C51_refuted",
    "C51_get",
    "C51_files",
    "C51_loaded",
    "C51_imports"
   ],
   "note": "Proved for every history of AddPackage, FindOrAdd and Get: a path is found exactly when it or one below it was added, different paths have different packages, nothing found is lost, loading happens once and records each import at the package of its path. The reported path is the path unless it ends in a slash (refuted witness). Locking, documentation and types of packages are not modelled. Also proved: which path is loaded (the first loader that answers), from the cache or the disk, and that the imports of a loaded package lead to the packages of the paths between the quotes."
  },
  {
   "property": "C52",
   "status": "partial",
   "theorems": [
    "C52_copies",
    "C52_succeeds",
    "C52_clause",
    "C52_renamed_partial",
    "C52_text_refuted",
    "C52_gap_refuted",
    "C52_import_path",
    "C52_import_partial",
    "C52_import_refuted",
    "C52_other_mod_refuted"
   ],
   "note": "Proved for every successful copy, whatever the working directory contains: exactly the Go files are copied, with every occurrence of the text package main replaced and nothing outside changed; success without failing calls; the import path always ends in .astra/astramain. That this is the package clause and nothing else holds when the text occurs nowhere besides (refuted otherwise, and for other white space), and the import path is the module path when go.mod declares it on its first line and no later .mod file follows (refuted otherwise)."
  },
  {
   "property": "C53",
   "status": "partial",
   "theorems": [
    "C53_enum_in_schema",
    "C53_enum_values_complete_refuted",
    "C53_enum_values_sound_refuted",
    "C53_enum_values_partial",
    "C53_component_enum_values_partial"
   ],
   "note": "Refuted: iota constants are missed and octal literals misread. Proved for constants with an explicit type and plain literal values, up to the registered component. The schema carries the recorded values."
  },
  {
   "property": "C54",
   "status": "partial",
   "theorems": [
    "C54_white_space",
    "C54_schema_description",
    "C54_properties_undescribed",
    "C54_property_description_refuted",
    "C54_comment_text_refuted",
    "C54_comment_text_partial",
    "C54_component_comment",
    "C54_field_comment",
    "C54_field_comment_refuted"
   ],
   "note": "Refuted: a text beginning with // loses it and comments on fields of type error are dropped. Proved: all other text is trimmed only; components and fields carry the comment found for them. Schema descriptions are the components' comments; descriptions of properties are never written. White space is exactly that of Unicode, in UTF-8 (C54_white_space)."
  },
  {
   "property": "C55",
   "status": "partial",
   "theorems": [
    "C55_type_analysis_no_panic_refuted",
    "C55_analysable_types_succeed_partial",
    "C55_finite_analysable_types_succeed_partial"
   ],
   "note": "Refuted: a struct embedding a type of its own package panics. Proved to succeed on every analysable finite type."
  },
  {
   "property": "C56",
   "status": "partial",
   "theorems": [
    "C56_declining_refuted",
    "C56_declining_partial"
   ],
   "note": "Refuted: parameters declared before declining shift those of the built-in method. Proved for functions that decline without declaring."
  },
  {
   "property": "C57",
   "status": "partial",
   "theorems": [
    "C57_base",
    "C57_each_route_partial",
    "C57_each_route_refuted"
   ],
   "note": "Refuted for two routes with the same path and method. Proved for distinct routes, including what happens at the first failing route. The file of a handler is found by the last element of its path (C57_base)."
  },
  {
   "property": "C58",
   "status": "partial",
   "theorems": [
    "C58_inline_refuted",
    "C58_inline_partial"
   ],
   "note": "Refuted: two literals on one line are both recorded. Proved for a literal alone on its line at any depth."
  },
  {
   "property": "C59",
   "status": "partial",
   "theorems": [
    "C59_decimal_partial",
    "C59_constant_partial",
    "C59_octal",
    "C59_octal_refuted",
    "C59_prefixed"
   ],
   "note": "Decimal literals and int constants exact for the whole range of int64; refuted for octal literals (documented as another code) and prefixed ones (generation fails)."
  },
  {
   "property": "C60",
   "status": "partial",
   "theorems": [
    "C60_byte_refuted",
    "C60_bytes_refuted",
    "C60_nested_refuted",
    "C60_file_refuted",
    "C60_array_refuted",
    "C60_value_partial",
    "C60_property_partial"
   ],
   "note": "Refuted for bytes and runes, byte slices, nested slices, array values and types named like astra's own words (file). Proved, for values and for struct properties, for built-in and named types, pointers, slices, maps, and (properties) arrays of these."
  },
  {
   "property": "C61",
   "status": "partial",
   "theorems": [
    "C61_optional_refuted",
    "C61_optional_partial",
    "C61_required_refuted",
    "C61_required_partial"
   ],
   "note": "Refuted: omitempty after another option is missed, and rules such as required_if count as required. Proved exactly what is recognised: omitempty as first option; the word required in a non-empty validation tag."
  },
  {
   "property": "C62",
   "status": "partial",
   "theorems": [
    "C62_one_directory_partial",
    "C62_sticky",
    "C62_refuted"
   ],
   "note": "Proved when all loads in the process so far used the same working directory and disk; refuted otherwise, because the cache is keyed by the path alone."
  },
  {
   "property": "C63",
   "status": "partial",
   "theorems": [
    "C63_results_partial",
    "C63_routes_documented_partial",
    "C63_removed_refuted"
   ],
   "note": "Proved from the routers to the file, with any number of inputs and outputs, for services without custom functions (with them: C85) whose routers together have no route twice, for methods other than TRACE, and if nothing later in the run (a later output, the cache, the directory of astra) is at the file's place. Refuted for a document in the directory of astra, which the run removes. C63_results_partial is the same for a JSON output: its file holds exactly the routes served and not denied, nothing of the temporary main package outside headers, and with one Gin input the results of the analysis with nothing changed but packages."
  },
  {
   "property": "C64",
   "status": "partial",
   "theorems": [
    "C64_handlers_told_partial"
   ],
   "note": "Proved under the same conditions with one Gin input (for several see C84), for handlers that S_Parse.documents describes (every context call has arguments that can be evaluated). Request bodies and schemas of responses are left to C21, C22 and C24."
  },
  {
   "property": "C65",
   "status": "partial",
   "theorems": [
    "C65_untagged_refuted",
    "C65_list_refuted",
    "C65_other_tag_refuted",
    "C65_responses_partial",
    "C65_bodies_partial",
    "C65_one_tag_partial"
   ],
   "note": "Refuted: a struct without tags, or a named slice or map, has one schema for all tags, the one written last (YAML), so the fields of types with JSON tags lose their type; and a struct with equal JSON and XML names leads to the XML names of a field. Proved at every depth, recursive types included, for services whose schema names are distinct (the condition of C15) and components that are faithful: they have a schema under the tag, no two fields shown under one name, and where one schema serves several tags so does that of each type inside (C65_one_tag_partial: in particular with one tag throughout). Missing: header, query and path parameters of struct types; elements of slices of slices have no schema to compare (C60)."
  },
  {
   "property": "C66",
   "status": "partial",
   "theorems": [
    "C66_followed_partial",
    "C66_methods_not_followed",
    "C66_method_refuted",
    "C66_values_not_followed",
    "C66_import_refuted",
    "C66_variable_refuted",
    "C66_version_refuted"
   ],
   "note": "Refuted: a method is not followed, or is followed into a function of a package that has the name of the variable; with imports a \".../b\" and b \".../c\", b.F is followed into the package called a; a package whose name is not the last element of its path is not found. Proved for functions of packages, called by their name or through the only import the name could stand for."
  },
  {
   "property": "C67",
   "status": "partial",
   "theorems": [
    "C67_found_partial",
    "C67_none",
    "C67_unnamed",
    "C67_unnamed_refuted",
    "C67_error_refuted"
   ],
   "note": "Refuted: a *gin.Context parameter without a name, or a pointer to error among the parameters before the context, panics. Proved for named contexts and parameters other than pointers to types without a package."
  },
  {
   "property": "C68",
   "status": "partial",
   "theorems": [
    "C68_type_partial",
    "C68_never_other_partial",
    "C68_described_partial",
    "C68_unsupported",
    "C68_index_refuted",
    "C68_builtin_refuted",
    "C68_panic_refuted",
    "C68_named_pointer_refuted"
   ],
   "note": "Refuted: index, parenthesised and binary expressions and conversions have no type; functions named new, make or len are taken for the builtins; what a named pointer type points to is taken for the named type. Proved for names, selections, literals, composite literals and calls, with *, & and signs; and no other expression of those specified gets a wrong type (C68_never_other_partial), given that new, make and len are the builtins. Missing: function literals, slices, type assertions and index expressions of generics are not in the specification of static types."
  },
  {
   "property": "C69",
   "status": "partial",
   "theorems": [
    "C69_comment_found",
    "C69_no_comment",
    "C69_text_partial",
    "C69_text_exists",
    "C69_description_partial",
    "C69_operation_partial",
    "C69_local_refuted"
   ],
   "note": "Refuted: a type declared in a function is described by the comment of the type of the package with its name. Proved for types of packages and for handlers, the text not beginning with // (C54) and without outer spaces. Every group of comments has exactly one text (C69_text_exists). Comments of fields are C54 and C78."
  },
  {
   "property": "C70",
   "status": "partial",
   "theorems": [
    "C70_documents_partial",
    "C70_route_partial",
    "C70_method_refuted",
    "C70_document_partial"
   ],
   "note": "Refuted: what a method of a controller documents, called with the context, is missing from the route. Proved for sources in which the context is passed to functions of packages only (C66), statuses are decimal literals or constants, names are string literals without escapes or variables that stand for them, values are of the forms of C68, no c.Data, no custom functions, and nothing is documented in the arguments of builtins, conversions and function values (C30). The document written by a whole run tells the same, for one Gin input (C70_document_partial)."
  },
  {
   "property": "C71",
   "status": "partial",
   "theorems": [
    "C71_document_partial",
    "C71_array_refuted",
    "C71_nested_refuted",
    "C71_bytes_refuted"
   ],
   "note": "Refuted: an array sent has no content in its response, the lists in a map of lists have no items, bytes are described as a list. Proved for one Gin input, sources as in C70, no earlier document, and types that are transparent: structs of tagged fields (of built-in and named types, any, pointers to these, and lists, arrays and maps of these; embedded named types), named built-in types, named lists and maps of built-in types, and mapped types such as time.Time. If values of several types are sent with one status in one encoding, one of them is described. Forms: C74. Missing: nested lists and maps; structs without names; generic types."
  },
  {
   "property": "C72",
   "status": "partial",
   "theorems": [
    "C72_queries_partial",
    "C72_required_refuted",
    "C72_embedded_refuted",
    "C72_default_refuted"
   ],
   "note": "Refuted: a member tagged as required is documented as optional, a struct with an embedded field is left out altogether, and so is a parameter read with c.DefaultQuery. Proved (both directions) for one Gin input, sources as in C70, no earlier document, and bound types that are transparent (C71) structs with a name and without embedded fields. A name asked for several times has several parameters."
  },
  {
   "property": "C73",
   "status": "partial",
   "theorems": [
    "C73_headers_partial",
    "C73_bound_refuted"
   ],
   "note": "Refuted: the members of a struct that headers are read into are not documented, a header without a name is. Proved (both directions) for one Gin input, sources as in C70 and no earlier document, for headers read by name and headers set."
  },
  {
   "property": "C74",
   "status": "partial",
   "theorems": [
    "C74_forms_partial",
    "C74_fields_refuted",
    "C74_array_refuted"
   ],
   "note": "Refuted: of several fields of a form one is documented, and a list is documented as a text. Proved for one Gin input, sources as in C70, no earlier document: a text or file that is the only field, or the whole form read into a struct (transparent types as in C71); nothing is made up in any case."
  },
  {
   "property": "C75",
   "status": "partial",
   "theorems": [
    "C75_json_partial",
    "C75_wellformed",
    "C75_injective_partial",
    "C75_run_partial",
    "C75_bytes_refuted",
    "C75_float_refuted"
   ],
   "note": "Strings that are no UTF-8 are refuted (U+FFFD is written), and so is telling the values 1 and 1.0 of an enumeration apart. Otherwise proved for every generated document, from the grammar of RFC 8259; how Go writes a float64 is a parameter; the text in YAML is not modelled."
  },
  {
   "property": "C76",
   "status": "partial",
   "theorems": [
    "C76_valid_partial",
    "C76_text_partial",
    "C76_paths_partial",
    "C76_needed",
    "C76_no_routes_refuted",
    "C76_silent_refuted",
    "C76_twice_refuted",
    "C76_nameless_refuted",
    "C76_lists_refuted",
    "C76_catch_all_refuted",
    "C76_umlaut_refuted",
    "C76_same_handler_refuted",
    "C76_twins_refuted"
   ],
   "note": "Proved for sound routes, components and mappings (S_Valid.v) with references that resolve. Without, the claim is false, as nine generated documents show: no routes, no answers, a parameter read twice, headers bound to a struct, lists of lists, catch-all paths, type names not in ASCII, one handler for two routes, and paths that differ in a template's name. C76_needed proves for all runs that most of the conditions on routes are necessary. The formats of URLs and e-mail addresses are not looked at."
  },
  {
   "property": "C77",
   "status": "partial",
   "theorems": [
    "C77_linear",
    "C77_got",
    "C77_nodes",
    "C77_edges",
    "C77_progress",
    "C77_ends",
    "C77_served",
    "C77_package",
    "C77_race_partial",
    "C77_loaded_partial",
    "C77_refuted_package",
    "C77_refuted_cache",
    "C77_refuted_files",
    "C77_refuted_early"
   ],
   "note": "Order of calls, nodes, absence of deadlock, termination, no race on the tree and the content of packages are proved for all interleavings. Absence of any data race and that each file is recorded once are proved when one goroutine at most loads packages (the _partial theorems); with two they are false, as four executions show (Get does not take the lock): races on the package and on the cache, a file recorded twice, Get returning before the files are there. Interleavings are sequentially consistent. The tool itself starts no goroutines; the manager is a library with a lock."
  },
  {
   "property": "C78",
   "status": "partial",
   "theorems": [
    "C78_outermost",
    "C78_comment_partial",
    "C78_later_lost",
    "C78_embedded_lost",
    "C78_embedded_fails",
    "C78_own_package",
    "C78_refuted_later",
    "C78_refuted_panic",
    "C78_refuted_other",
    "C78_refuted_other_panic"
   ],
   "note": "Proved: the lookup finds exactly the outermost node that begins at the position (C78_outermost). Proved in part: the first name of a declaration has its comment, if the type of the field is of the package of the struct (C78_comment_partial). The rest of the statement is false and the failures are characterised for all inputs: later names of a declaration never have the comment (C78_later_lost), nor embedded types behind a star or of other packages (C78_embedded_lost), and a struct that embeds an exported type of its own package by its name is never described (C78_embedded_fails: field.Names[0] of a field without names panics). Witnesses: C78_refuted_later, C78_refuted_panic, C78_refuted_other (a comment of an unrelated field of another package), C78_refuted_other_panic (a struct without embedded types, because of another package). C78_own_package says exactly which fields are found as fields without a name in their own package."
  },
  {
   "property": "C79",
   "status": "partial",
   "theorems": [
    "C79_taken_partial",
    "C79_fresh_lost",
    "C79_refuted"
   ],
   "note": "Proved for custom functions that change the route they are given: the recorded route is the changes of the calls they take, in the order of the source, and the other calls are documented as without them (C79_taken_partial). False for custom functions that answer by a route of their own, although the code says that route is used instead: for every such function, call and route, the answer, the arguments of the call and everything recorded after it are lost (C79_fresh_lost; witness C79_refuted)."
  },
  {
   "property": "C80",
   "status": "partial",
   "theorems": [
    "C80_served_partial",
    "C80_refuted"
   ],
   "note": "Refuted: the path parameters of a route are strings, and strings are given the constraint alpha, so that /items/42 is served by gin and not by the function (C80_refuted). Proved for routes without a catch-all that are converted as in C46: the function serves exactly the requests gin serves in which every parameter consists of letters (C80_served_partial). Missing: routes with a catch-all, and Azure comparing letters in either case."
  },
  {
   "property": "C81",
   "status": "partial",
   "theorems": [
    "C81_json_partial",
    "C81_wellformed",
    "C81_injective_partial",
    "C81_order",
    "C81_run_partial",
    "C81_bytes_refuted",
    "C81_float_refuted"
   ],
   "note": "Strings that are no UTF-8 are refuted (U+FFFD is written), and so is telling the values 1 and 1.0 of an enumeration apart. Otherwise proved for all routes and components whose maps have each key once, from the grammar of RFC 8259: the text says them and no others up to the order of maps, which does not matter (C81_order); also for the file a run leaves. How Go writes a float64 is a parameter."
  },
  {
   "property": "C82",
   "status": "partial",
   "theorems": [
    "C82_cache",
    "C82_verbatim",
    "C82_injective_partial",
    "C82_run",
    "C82_names_refuted"
   ],
   "note": "One JSON text in UTF-8 that says the data loading is modelled to give: proved for every service and any bytes in its strings, also for a run of Cache and LoadCache. Every name once and no other reading is proved for maps whose keys stay distinct as text, and, the latter, without numbers in enumerations; keys that differ only in bytes that are no text are a counterexample (C82_names_refuted). That LoadCache decodes the text to that data is a modelled fact about encoding/json. YAML caches have no text level."
  },
  {
   "property": "C83",
   "status": "proved",
   "theorems": [
    "C83_function",
    "C83_run"
   ],
   "note": "Proved for all methods and routes: the text says the two bindings and exactly these methods and this route, with U+FFFD for bytes that are no text; for a run, every file below the output directory."
  },
  {
   "property": "C84",
   "status": "partial",
   "theorems": [
    "C84_told_partial",
    "C84_once_refuted"
   ],
   "note": "The claim is false: every Gin input analyses the routes of all inputs, so with two of them each query parameter and header is listed twice (C84_once_refuted). Proved instead, for any number of inputs, what each operation says: ids, comments, statuses and path parameters as with one router, and every parameter read by name as many times as there are Gin inputs. Conditions as for C64."
  },
  {
   "property": "C85",
   "status": "partial",
   "theorems": [
    "C85_routes_partial",
    "C85_told_partial",
    "C85_results_partial",
    "C85_moved_refuted"
   ],
   "note": "Proved for custom functions that leave method, path, file, line and handler of the route they are given alone, for any number of inputs, under the conditions of C63: the operations are exactly the routes offered, and each says the route that the changes told in the source make (C79). Refuted otherwise: if a custom function changes the path, the document loses everything recorded for the route. A JSON output holds each route in full (C85_results_partial); in an OpenAPI document no response or request body is made up, and the schemas are left to C21, C22 and C24."
  },
  {
   "property": "C86",
   "status": "partial",
   "theorems": [
    "C86_valid_partial",
    "C86_source_partial",
    "C86_needed",
    "C86_several",
    "C86_refuted",
    "C86_two_refuted"
   ],
   "note": "Refuted: a handler that does not answer (C86_refuted), and sound routers given as two inputs, whose parameters are listed twice (C86_two_refuted); see also C76. Proved with one Gin input and no earlier document, for routers with plain paths (no catch-all, no parameter twice, no two paths that differ in the names of parameters only), handlers that answer with statuses from 100 to 599 and read each parameter once by name, distinct operation ids and components that can be documented (C18), or, as a condition on the source, types of what handlers send and receive that can be documented (C86_source_partial); the document, and its bytes in JSON if its texts are UTF-8, are then valid. Conversely a valid document means that the handlers answer, with such statuses, read each parameter once and by name, and have distinct ids, that their paths have no catch-all and no parameter twice (handlers that bind nothing), and that no two paths differ in the names of parameters only (C86_needed). With several inputs no document is valid if a handler reads a parameter by name and binds nothing (C86_several)."
  }
 ]
}