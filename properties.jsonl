{"id": "C01", "title": "Path parameters are read off a route path exactly", "statement": "For every route path, the path parameters recorded for the route are exactly the ':name' and '*name' pieces of the path, left to right, each with the name that follows the marker up to the next '/', marked required for ':' and optional for '*'; no piece is missed, split or invented.", "quantifier": "every byte string used as a route path, of any length, with any number of parameters, including empty segments and markers in odd places", "why_tests_cant": "The scanner runs on unbounded strings; tests try a handful of well-formed paths.", "anchors": ["utils/pathParams.go: ExtractParamsFromPath", "inputs/gin/parseRoute.go:72"]}
{"id": "C02", "title": "Path template rewriting changes only the parameters", "statement": "Rewriting a path replaces exactly the parameter pieces reported by the extraction, passes each replaced piece's name and kind to the rewriting function, keeps every other byte and the order, and is the identity when the rewriting function gives back the original piece.", "quantifier": "every path string and every rewriting function", "why_tests_cant": "Holds for an arbitrary function argument and arbitrary strings.", "anchors": ["utils/pathParams.go: MapPathParams", "outputs/openapi/generate.go:33-39"]}
{"id": "C03", "title": "Two routes of one router never collide on one documented path", "statement": "If two registered gin paths differ, the paths they are documented under in the OpenAPI document differ, so one never silently overwrites the other.", "quantifier": "every pair of gin route paths (at most one wildcard marker per segment, no braces)", "why_tests_cant": "Injectivity over an infinite set of strings.", "anchors": ["outputs/openapi/generate.go:33-39, 262-290", "utils/pathParams.go: MapPathParams"]}
{"id": "C04", "title": "Every template expression in a documented path has its required path parameter", "statement": "For each '{x}' written into a documented path there is a parameter named x, in 'path', marked required, in the operation, and vice versa.", "quantifier": "every gin route path", "why_tests_cant": "Relates two functions over all strings; tests only check paths with ':id'.", "anchors": ["outputs/openapi/generate.go:33-70", "utils/pathParams.go"]}
{"id": "C05", "title": "A handler's runtime name splits back into its package path and function", "statement": "For every package path p and top-level function f, splitting the runtime name of p.f gives back package path p and function name f, and in general the split loses no part of the name.", "quantifier": "every runtime function name, package path and identifier", "why_tests_cant": "Unbounded strings; packages with dots in the last element, methods and closures are not covered by tests.", "anchors": ["utils/splitHandlerPath.go", "inputs/gin/createRoute.go", "inputs/gin/parseRoute.go:21-60"]}
{"id": "C06", "title": "The deny list removes exactly the denied routes", "statement": "After route creation the service holds its previous routes followed by, in router order, one route for each router entry whose path is rejected by no deny function; nothing else is dropped, duplicated or reordered, and a failure leaves only the routes before the failing one.", "quantifier": "every list of router entries and every list of (arbitrary) deny predicates", "why_tests_cant": "Predicates are arbitrary user functions.", "anchors": ["inputs/gin/createRoutes.go", "inputs/gin/createRoute.go", "options.go / listing.go: WithPathDenyList*"]}
{"id": "C07", "title": "The component registry keeps one entry per type, first one wins", "statement": "For every sequence of additions, the registry has no two entries with the same name and package, contains an entry for every name/package ever added, keeps the first version added, and never reorders or changes earlier entries.", "quantifier": "every sequence of additions of any length starting from any registry", "why_tests_cant": "History property over unbounded sequences.", "anchors": ["safePushing.go: AddComponent"]}
{"id": "C08", "title": "The return-type list loses nothing and has no duplicates", "statement": "For every sequence of additions, each (type, package, status, content type) added is present, earlier entries keep their place, and no two entries have the same key.", "quantifier": "every sequence of additions of any length", "why_tests_cant": "The duplicate only shows after two different entries exist; history property.", "anchors": ["safePushing.go: AddReturnType"]}
{"id": "C09", "title": "Replacing a route touches only that route", "statement": "Replacing a route changes the first route with the same path and method and nothing else; the number and order of routes stay the same; if there is none it does nothing.", "quantifier": "every route list and route", "why_tests_cant": "Unbounded lists with arbitrary duplicates.", "anchors": ["service.go / safePushing.go: ReplaceRoute"]}
{"id": "C10", "title": "Parsing routes once more does not change them", "statement": "Running the route analysis again over already analysed routes (several inputs in one service, or a cached, already analysed service completed by the CLI) yields the same documented parameters and bodies.", "quantifier": "every route and every handler", "why_tests_cant": "A relational (run twice) property over all handlers.", "anchors": ["inputs/gin/parseRoutes.go", "inputs/gin/parseRoute.go:72", "parseRoutes.go", "safePushing.go: ReplaceRoute"]}
{"id": "C11", "title": "Every struct field ends with usable binding information", "statement": "For every field name and struct tag, the parsed tag has at least one binding, carries the 'no binding' entry exactly when no known binding key is in the tag, and every entry is either hidden or has a non-empty name.", "quantifier": "every struct tag byte string and non-empty field name", "why_tests_cant": "Arbitrary tag strings, including malformed ones.", "anchors": ["astTraversal/tags.go: ParseStructTag"]}
{"id": "C12", "title": "Binding names follow the struct tag conventions of the encoders", "statement": "For a conventional tag, the binding for key k is hidden exactly when the encoder would skip the field, and otherwise has the name the encoder would use.", "quantifier": "every conventional tag (list of key/value pairs) and field name", "why_tests_cant": "Relates the parser to the encoders' convention for all tags.", "anchors": ["astTraversal/tags.go: ParseStructTag"]}
{"id": "C13", "title": "Content types and binding tags agree", "statement": "For every binding tag and every content type listed for it, looking the content type up gives that binding tag back; unknown content types give no binding.", "quantifier": "every binding tag and content type string", "why_tests_cant": "The content type is an arbitrary string.", "anchors": ["bindingTags.go: ContentTypeToBindingTag, BindingTagToContentTypes"]}
{"id": "C14", "title": "The binding tags of a struct do not depend on map iteration order", "statement": "The set of binding tags reported for a struct and the verdict whether bindings differ depend only on the fields: a tag is reported exactly when some field has it, bindings differ exactly when some field has two different bindings, whatever order Go iterates the maps in.", "quantifier": "every set of fields, every tag map, every iteration order of both maps", "why_tests_cant": "Go randomises iteration order; a test sees one order per run.", "anchors": ["bindingTags.go: ExtractBindingTags"]}
{"id": "C15", "title": "Distinct types get distinct schema names", "statement": "Two components that differ in name or package are never published under the same schema name.", "quantifier": "every list of components, every set of package paths", "why_tests_cant": "Depends on the relative position of packages in a list of unbounded length.", "anchors": ["outputs/openapi/components.go: makeCollisionSafeNames, makeComponentRefName"]}
{"id": "C16", "title": "Choosing schema names never crashes", "statement": "Schema naming completes for every list of components.", "quantifier": "every list of components and package paths", "why_tests_cant": "The out-of-range index needs three packages of different depth in one order.", "anchors": ["outputs/openapi/components.go: makeCollisionSafeNames"]}
{"id": "C17", "title": "A generated document depends only on the service it is generated from", "statement": "Schema names chosen for a service do not depend on documents generated earlier in the same process, and generating the same service again chooses the same names.", "quantifier": "every history of earlier generations", "why_tests_cant": "Process-global state; history property.", "anchors": ["outputs/openapi/components.go: collisionSafeNames"]}
{"id": "C18", "title": "Every $ref in the document resolves", "statement": "Every reference to a component schema anywhere in the generated document names a schema that the document defines.", "quantifier": "every service (routes, components, nested fields of any depth)", "why_tests_cant": "Whole-document closure property over unbounded structures.", "anchors": ["outputs/openapi/generate.go", "outputs/openapi/components.go", "outputs/openapi/schema.go"]}
{"id": "C19", "title": "The document does not depend on map iteration order", "statement": "Two runs over the same service produce the same document, whatever orders Go picks for iterating maps.", "quantifier": "every service and every iteration order at every map", "why_tests_cant": "Random order per run; a test that passes once proves nothing.", "anchors": ["outputs/openapi/components.go: componentToSchema", "outputs/openapi/generate.go:118-260 (sort.Slice)"]}
{"id": "C20", "title": "Every route is documented under its path and method", "statement": "Every route of the service whose method OpenAPI can describe appears as an operation under its path, with its own content, and routes of the same path with other methods are kept.", "quantifier": "every route list", "why_tests_cant": "Fold over an unbounded list with overwriting map updates.", "anchors": ["outputs/openapi/generate.go:29-290"]}
{"id": "C21", "title": "Every response is documented", "statement": "Every recorded return type of a route has its status code in the operation's responses, with its schema under its content type, and no other status appears.", "quantifier": "every list of return types", "why_tests_cant": "Overwriting map updates over an unbounded list.", "anchors": ["outputs/openapi/generate.go:196-258"]}
{"id": "C22", "title": "Every request body field is documented", "statement": "Every body parameter recorded for a route is described in the operation's request body under its content types.", "quantifier": "every list of body parameters", "why_tests_cant": "Loss needs two parameters sharing a content type.", "anchors": ["outputs/openapi/generate.go:139-205"]}
{"id": "C23", "title": "Parameters are documented completely and in name order", "statement": "Each named path, query and header parameter of a route is in the operation's parameter list with its name, place and required flag, nothing else is, and the list is sorted by name.", "quantifier": "every route, any number of parameters", "why_tests_cant": "Completeness and sortedness over unbounded lists.", "anchors": ["outputs/openapi/generate.go:42-145"]}
{"id": "C24", "title": "An object schema shows exactly the visible fields", "statement": "For a binding tag, the properties of a struct's schema are exactly the binding names of its non-embedded fields that are not hidden for that tag; hidden fields never leak.", "quantifier": "every struct, any number and nesting of fields, every binding tag", "why_tests_cant": "Security-relevant (hidden fields) and unbounded.", "anchors": ["outputs/openapi/components.go: componentToSchema"]}
{"id": "C25", "title": "Custom type mappings win over predefined ones", "statement": "A type looked up gets the custom mapping if the user gave one, else the predefined one, else none; the answer does not depend on earlier lookups.", "quantifier": "every custom mapping, type, and sequence of lookups", "why_tests_cant": "Memoised lookup: history property.", "anchors": ["formatTypes.go: GetTypeMapping"]}
{"id": "C26", "title": "The server URL and info come from the configuration", "statement": "The generated document has one server whose URL is protocol://host:port followed by the base path, with the configured title, version, description, contact and license; without configuration generation is refused.", "quantifier": "every configuration", "why_tests_cant": "All field values.", "anchors": ["outputs/openapi/generate.go:26-31, 262-300", "config.go"]}
{"id": "C27", "title": "Type analysis terminates on every Go type", "statement": "Analysing the type of any expression terminates.", "quantifier": "every type, including mutually recursive named types", "why_tests_cant": "Non-termination cannot be observed by a finite test; needs a well-founded argument.", "anchors": ["astTraversal/type.go: TypeTraverser.Result"]}
{"id": "C28", "title": "Every named type reachable from a documented value becomes a component", "statement": "After analysing a type, each named type with a package reachable from it through pointers, slices, arrays, maps and exported struct fields is in the component registry.", "quantifier": "every acyclic type graph of any depth", "why_tests_cant": "Closure property by induction over type structure.", "anchors": ["astTraversal/type.go: TypeTraverser.Result", "inputs/gin/parseFunction.go: addComponent", "utils.go: ParseResultToField"]}
{"id": "C29", "title": "A value's field description names its own element types", "statement": "The recorded field for a type names the type's element, key and value types and their package, so that the schema built from it can be resolved.", "quantifier": "every analysis result", "why_tests_cant": "All combinations of nesting.", "anchors": ["utils.go: ParseResultToField", "outputs/openapi/schema.go: mapFieldToSchema"]}
{"id": "C30", "title": "Every response and parameter used in a handler is recorded, in source order", "statement": "For a handler whose calls can be resolved, the route records the effect of every context call in the handler and in every helper the context is passed to, in source order, with nothing else.", "quantifier": "every handler body of any size and nesting, any acyclic helper graph", "why_tests_cant": "Arbitrary syntax trees and call graphs.", "anchors": ["inputs/gin/parseFunction.go", "contextFuncBuilder.go"]}
{"id": "C31", "title": "Handler analysis terminates on every call graph", "statement": "Analysing a handler terminates, also when helpers taking the context call each other recursively.", "quantifier": "every call graph", "why_tests_cant": "Divergence is not testable.", "anchors": ["inputs/gin/parseFunction.go:70-110"]}
{"id": "C32", "title": "A call that cannot be analysed does not crash the run or lose other calls", "statement": "If one call in a handler cannot be analysed, the run does not panic and the effects of the other calls are still recorded.", "quantifier": "every handler body with failing calls anywhere", "why_tests_cant": "Every position of the failing call.", "anchors": ["inputs/gin/parseFunction.go", "inputs/gin/parseRoute.go"]}
{"id": "C33", "title": "Context functions read their arguments by position", "statement": "For every sequence of declared parameters, the i-th value handed to the mapping callback is the evaluation of the i-th call argument, evaluation stops at the first failure and the callback is then not run.", "quantifier": "every declaration sequence and argument list", "why_tests_cant": "Unbounded sequences; order of evaluation.", "anchors": ["contextFuncBuilder.go: Build"]}
{"id": "C34", "title": "A parameter name is the string the program uses at run time", "statement": "The name recorded for c.Query(x) is the run-time string value of x, for literals and constants.", "quantifier": "every string literal and constant", "why_tests_cant": "All strings incl. raw strings, escapes, long constants.", "anchors": ["astTraversal/expression.go: Value", "astTraversal/literal.go", "astTraversal/extractStatusCode.go"]}
{"id": "C35", "title": "The temporary main package never shows in results", "statement": "After cleaning, no package path anywhere in the routes or components is the temporary main package; it reads 'main'; cleaning again changes nothing.", "quantifier": "every service, any nesting depth", "why_tests_cant": "Recursive structure; every place a package is stored.", "anchors": ["clean.go: Clean, cleanField"]}
{"id": "C36", "title": "Substituted types are documented by their substitute", "statement": "A value of type time.Duration is documented as integer and a value of type error as string wherever it occurs.", "quantifier": "every component, field and nesting", "why_tests_cant": "Every position in a nested structure.", "anchors": ["substituteTypes.go", "clean.go"]}
{"id": "C37", "title": "The run stops at the first failing phase", "statement": "Phases run in the fixed order set-up, create, analyse, clean, generate, tear-down; the first failure is returned and no later phase runs; generation runs the outputs in order.", "quantifier": "every combination of phase outcomes and number of inputs and outputs", "why_tests_cant": "All failure points.", "anchors": ["parse.go", "createRoutes.go", "parseRoutes.go", "generate.go", "setup.go", "teardown.go"]}
{"id": "C38", "title": "What was cached is what is loaded", "statement": "Loading a cache written by the service restores inputs, outputs, configuration, routes, components and the other cached settings; loading leaves everything else alone, and a failed load leaves the service unchanged.", "quantifier": "every service state", "why_tests_cant": "Round trip over an infinite state space.", "anchors": ["cache.go: Cache, LoadCache, LoadCacheFromCustomPath"]}
{"id": "C39", "title": "A crash while caching never loses the last good cache", "statement": "Whatever the moment of a crash during caching, the cache file afterwards holds either the previous or the new state.", "quantifier": "every crash point, every pair of states", "why_tests_cant": "Crash points cannot be enumerated by unit tests.", "anchors": ["cache.go: Cache, ClearCache"]}
{"id": "C40", "title": "Every cache path that can be written can be read", "statement": "For every cache path, if caching to it succeeds, loading from it succeeds.", "quantifier": "every path string", "why_tests_cant": "All extensions.", "anchors": ["cache.go:20-136"]}
{"id": "C41", "title": "Completing from the cache equals a direct run", "statement": "Set-up with cache followed by the command line completing from the cache gives the same output as running everything at once.", "quantifier": "every service using the built-in inputs and outputs", "why_tests_cant": "Relational over two executions.", "anchors": ["cli/astra/cmd/generate.go", "cache.go", "parse.go"]}
{"id": "C42", "title": "The command line rebinds every output it knows", "statement": "Rebinding restores, in order, an output with the same mode and configuration for every cached built-in output and fails only for unknown or badly configured ones.", "quantifier": "every list of cached outputs", "why_tests_cant": "Unbounded lists, all configurations.", "anchors": ["cli/astra/cmd/rebind.go"]}
{"id": "C43", "title": "Tear-down removes what set-up made and nothing else", "statement": "After a successful run the working directory is as before plus outputs (and the cache if enabled); no user file is removed or changed.", "quantifier": "every initial file tree and service", "why_tests_cant": "All file trees.", "anchors": ["setup.go", "teardown.go", "dir.go", "mainPackage.go"]}
{"id": "C44", "title": "A failed run does not prevent later runs", "statement": "After any failed run, a later run whose own work would succeed on a fresh tree also succeeds.", "quantifier": "every failure point and later service", "why_tests_cant": "History over runs with failure points.", "anchors": ["outputs/azureFunctions/generate.go", "dir.go", "teardown.go"]}
{"id": "C45", "title": "Generating never deletes the user's files", "statement": "Generating an output removes at most the previous output at the configured place, whatever that place is configured to be.", "quantifier": "every configured output directory and file tree", "why_tests_cant": "All paths, including '.', '' and '..'.", "anchors": ["dir.go: MoveTempOutputDir", "outputs/azureFunctions/generate.go"]}
{"id": "C46", "title": "Azure routes keep the path and convert every parameter", "statement": "The Azure route for a path is the path with each parameter replaced in place by its braced, constrained form and nothing else changed.", "quantifier": "every route path and parameter names", "why_tests_cant": "Repeated textual replacement over arbitrary names.", "anchors": ["outputs/azureFunctions/convertRoute.go"]}
{"id": "C47", "title": "Azure output has one function folder per route", "statement": "Generation yields exactly one folder per route, with that route's methods and path, or reports an error.", "quantifier": "every route list", "why_tests_cant": "Name clashes over unbounded lists.", "anchors": ["outputs/azureFunctions/generate.go", "outputs/azureFunctions/associatedMethods.go"]}
{"id": "C48", "title": "Generating twice writes the same file", "statement": "Running generation again on the same service writes the same document to the same file.", "quantifier": "every service, file path and number of repetitions", "why_tests_cant": "Captured mutable state; history property.", "anchors": ["outputs/openapi/generate.go", "outputs/json/generate.go", "outputs/outputs.go"]}
{"id": "C49", "title": "A validated configuration is complete and stable", "statement": "Building a configuration fails exactly when no port is set; otherwise it has a host and a base path; validating again changes nothing; the last value set for a field is the one built; a built configuration is not changed by later use of the builder.", "quantifier": "every sequence of builder calls", "why_tests_cant": "Unbounded call sequences with aliasing.", "anchors": ["config.go: Validate", "configBuilder.go"]}
{"id": "C50", "title": "Options of different kinds can be given in any order", "statement": "Options that set different things commute; for the same thing the last one wins; list options accumulate in order.", "quantifier": "every list of options", "why_tests_cant": "All permutations of unbounded lists.", "anchors": ["new.go", "options.go", "inputs/inputs.go", "outputs/outputs.go"]}
{"id": "C51", "title": "The package tree finds each package under its path", "statement": "For every history of additions, looking up a path finds a package exactly when it or one below it was added, the found package reports that path, the same path always gives the same package, and additions never invalidate earlier ones.", "quantifier": "every sequence of additions and lookups", "why_tests_cant": "Invariant over unbounded histories.", "anchors": ["astTraversal/packageManager.go", "astTraversal/packageNode.go"]}
{"id": "C52", "title": "The temporary main package is a faithful copy", "statement": "The copied main package contains each Go source file of the working directory with its package clause renamed and nothing else changed, and its import path is the module path of go.mod followed by the temporary directory.", "quantifier": "every set of source files and go.mod contents", "why_tests_cant": "All file contents.", "anchors": ["mainPackage.go"]}
{"id": "C53", "title": "Enum values of a named type are all collected", "statement": "For a named basic type, the recorded enum values are the values of the constants declared with that type.", "quantifier": "every package and every list of constant declarations", "why_tests_cant": "All declarations shapes.", "anchors": ["astTraversal/type.go:60-150 (enum)", "outputs/openapi/components.go"]}
{"id": "C54", "title": "Documentation comments are carried over", "statement": "The description of an operation, component or field is the text of its Go doc comment.", "quantifier": "every comment", "why_tests_cant": "All comment texts.", "anchors": ["astTraversal/docs.go: FormatDoc", "astTraversal/type.go", "inputs/gin/parseRoute.go"]}
{"id": "C55", "title": "Type analysis does not crash", "statement": "Analysing the type of an expression never panics, whatever the type contains.", "quantifier": "every type and program", "why_tests_cant": "The crash depends on how a field's position is found in the file set of the package of the field's type; only some combinations of embedding and packages reach it.", "anchors": ["astTraversal/type.go:225-240", "astTraversal/packageNode.go: ASTAtPos"]}
{"id": "C56", "title": "A custom function that declines a call leaves it alone", "statement": "A custom context function that returns no route for a call does not change how the call is analysed.", "quantifier": "every list of custom functions, every handler", "why_tests_cant": "The builder is shared between the custom functions and the built-in methods: every combination of leftover declarations and methods would have to be tried.", "anchors": ["inputs/gin/parseFunction.go:71-86", "contextFuncBuilder.go"]}
{"id": "C57", "title": "Each route is analysed once and keeps its identity", "statement": "Analysing the routes of a service replaces each route, in place, by its own analysis, with the same handler, file, line, path and method; the routes after a failing one stay as they were.", "quantifier": "every list of routes and every program", "why_tests_cant": "Lists of any length; routes are replaced while being iterated over.", "anchors": ["inputs/gin/parseRoutes.go", "safePushing.go: ReplaceRoute"]}
{"id": "C58", "title": "An inline handler is documented by its own calls only", "statement": "A route whose handler is a function literal is documented by exactly the context calls in that literal.", "quantifier": "every nesting of literals in functions", "why_tests_cant": "Arbitrary trees of literals and line numbers.", "anchors": ["inputs/gin/parseRoute.go:79-154"]}
{"id": "C59", "title": "A documented status code is the code the program sends", "statement": "The status code recorded for a response is the value of the status argument, for every integer literal and every constant of type int.", "quantifier": "every integer literal and constant", "why_tests_cant": "All literals, including the bases tests never use, and the whole range of int.", "anchors": ["astTraversal/expression.go: Value", "astTraversal/extractStatusCode.go:22"]}
{"id": "C60", "title": "A schema has the shape of the JSON the program sends", "statement": "For every type that encoding/json writes in a definite shape (boolean, string, integer, number, array, object, named type), the schema of a value or property of that type describes that shape.", "quantifier": "every type expression, every binding tag and table of schema names", "why_tests_cant": "Types nest without bound and names are arbitrary; tests show a few types.", "anchors": ["outputs/openapi/schema.go: mapFieldToSchema", "outputs/openapi/components.go: componentToSchema", "astTraversal/type.go", "formatTypes.go"]}
{"id": "C61", "title": "Optional and required follow the struct tag", "statement": "A binding is optional exactly when omitempty is among the options of its tag; a validation tag is recorded exactly when it is not empty, and marked required exactly when required is one of its rules.", "quantifier": "every struct tag", "why_tests_cant": "All tag strings, with options and rules in any place.", "anchors": ["astTraversal/tags.go:46-90"]}
{"id": "C62", "title": "A package is loaded from the manager's own working directory", "statement": "For every history of loads in one process, the package obtained for a path is the one at that path in the working directory of the manager that asks for it.", "quantifier": "every sequence of loads, by managers with any working directories", "why_tests_cant": "The package cache is shared by the whole process, so the answer depends on an unbounded history of other loads.", "anchors": ["astTraversal/loadPackage.go:9-26", "astTraversal/packageManager.go", "astTraversal/packageNode.go"]}
{"id": "C63", "title": "A successful run documents exactly the routes served", "statement": "After a successful run, the file of an OpenAPI output holds a document with an operation for every route that the routers given as inputs serve and the user has not denied, at its path and method, and no operation for anything else.", "quantifier": "every service, number and contents of routers, deny list, program analysed, file tree and set of other outputs", "why_tests_cant": "The whole pipeline (creation, analysis, cleaning, generation, other outputs, cache, teardown) over unbounded routers and file trees.", "anchors": ["parse.go:91-109", "createRoutes.go:4-26", "inputs/gin/createRoutes.go:16-50", "parseRoutes.go:5-27", "clean.go:7-62", "generate.go:4-27", "outputs/openapi/generate.go:26-325", "teardown.go:5-28"]}
{"id": "C64", "title": "The document written tells what the handlers do", "statement": "After a successful run with one router, the operation of each route in the file of an OpenAPI output has its handler's name and comment, exactly the statuses its handler (with the helpers it passes the context to) answers with, a parameter for each header and query value read by name, and the parameters of its path.", "quantifier": "every service with one Gin input, every program, handler and chain of helpers", "why_tests_cant": "It relates the source of every handler to the file at the end of the whole pipeline.", "anchors": ["parse.go:91-109", "inputs/gin/parseRoute.go:21-161", "inputs/gin/parseFunction.go:28-708", "clean.go:47-62", "outputs/openapi/generate.go:26-325"]}
{"id": "C65", "title": "The schemas behind a response or body are those of its content type, at every depth", "statement": "Follow the schema of a response or request body through its references, as deep as wanted: each reference leads to the schema of its own type, which has one property for each field that type shows under the content type's binding tag, by the name it has there and of the field's type, and a part for each embedded struct.", "quantifier": "every service, components (recursive ones too), iteration order, custom mapping, route, response or body, and every depth", "why_tests_cant": "It is about unbounded chains of references over all sets of components, and about which of several binding tags wrote a shared schema last.", "anchors": ["outputs/openapi/components.go:35-133", "outputs/openapi/components.go:136-251", "outputs/openapi/schema.go:44-84", "outputs/openapi/generate.go:139-205", "outputs/openapi/generate.go:248-271"]}
{"id": "C66", "title": "A call is followed into the function it names", "statement": "A call that is followed for what it documents is followed into the declaration of the function it calls, in the file that declares it.", "quantifier": "every program, file, and call expression", "why_tests_cant": "All ways to name a function: by itself, through any list of imports, through variables and methods that share a name with a package.", "anchors": ["astTraversal/traverser.go:84-135", "astTraversal/callExpression.go:27-39", "astTraversal/fileNode.go:22-30", "astTraversal/packageNode.go:55-90"]}
{"id": "C67", "title": "The context of a function is found", "statement": "The name under which a handler or helper knows its *gin.Context is found, whatever its other parameters, and no function without one is taken to have it; the search never fails.", "quantifier": "every parameter list", "why_tests_cant": "Parameter lists of any length, with any types before the context.", "anchors": ["astTraversal/function.go:53-76", "inputs/gin/parseFunction.go:13-50"]}
{"id": "C68", "title": "A value is documented by its static type", "statement": "The type found for an expression handed to the context is the expression's static type in Go, up to pointers, and the value's description is that of this type.", "quantifier": "every expression of a type-correct program", "why_tests_cant": "Expressions of any form and nesting, in programs that may shadow builtins.", "anchors": ["astTraversal/expression.go:32-45", "astTraversal/expression.go:135-180", "astTraversal/callExpression.go:60-105", "contextFuncBuilder.go:43-51"]}
{"id": "C69", "title": "A type is described by the comment on its declaration", "statement": "The description of a component or operation is the text of the comment above the declaration of that type (or of the group it is declared in) or of that handler: its lines and paragraphs as written, without markers and directives.", "quantifier": "every package, declaration and comment group", "why_tests_cant": "All packages with any number of files and declarations, all comment texts.", "anchors": ["astTraversal/packageNode.go:201-244", "astTraversal/type.go:272-288", "astTraversal/docs.go:5-7", "astTraversal/function.go:78-84"]}
{"id": "C70", "title": "From the source of a handler to its route", "statement": "The analysed route of a handler holds, in source order, exactly what its source and that of the functions it passes the context to say: values read, headers, bodies bound, statuses answered with the types of the values.", "quantifier": "every program, handler and chain of helper functions, source of any size and depth", "why_tests_cant": "It relates all source texts to what go/types and the analysis make of them.", "anchors": ["inputs/gin/parseFunction.go:28-708", "inputs/gin/parseRoute.go:21-161", "astTraversal/traverser.go:45-135", "astTraversal/expression.go:48-180", "contextFuncBuilder.go"]}
{"id": "C71", "title": "From the Go types a handler uses to the schemas of the document", "statement": "In the document a run writes, the schemas of the responses and request bodies of a route describe, through all references, the Go types of the values its handler (and the functions it passes the context to) sends and receives: members under the names the encoder uses, lists with their elements, maps with their values.", "quantifier": "every program, handler, type (recursive types included, at every depth of references), encoding, service and world", "why_tests_cant": "It relates all Go types and all sources of handlers to the reference graph of the whole document, to unbounded depth.", "anchors": ["astTraversal/type.go:67-288", "inputs/gin/parseFunction.go:28-708", "clean.go", "outputs/openapi/schema.go", "outputs/openapi/generate.go", "outputs/openapi/components.go"]}
{"id": "C72", "title": "From the query parameters a handler asks for to those of the document", "statement": "In the document a run writes, a route has exactly the query parameters that its handler (and the functions it passes the context to) asks for, by name or with a struct it binds, each with a schema that describes the Go type of its values through all references, and marked as required if the handler insists on it.", "quantifier": "every program, handler, struct, name, service and world", "why_tests_cant": "It relates all sources of handlers and all struct types to the document, in both directions: nothing missing and nothing made up.", "anchors": ["inputs/gin/parseFunction.go:290-396", "outputs/openapi/generate.go:38-130", "outputs/openapi/schema.go", "clean.go"]}
{"id": "C73", "title": "From the headers a handler reads and sets to those of the document", "statement": "In the document a run writes, a route has exactly the request headers that its handler (and the functions it passes the context to) asks for, by name or with a struct it binds, and each of its responses has exactly the headers the handler sets.", "quantifier": "every program, handler, header name, struct, service and world", "why_tests_cant": "It relates all sources of handlers to the document, in both directions: nothing missing and nothing made up.", "anchors": ["inputs/gin/parseFunction.go:376-400", "inputs/gin/parseFunction.go:567-625", "outputs/openapi/generate.go:70-90", "outputs/openapi/generate.go:168-181", "clean.go"]}
{"id": "C74", "title": "From the form fields a handler reads to the request body of the document", "statement": "In the document a run writes, the request body of a route has, in the encoding of the form, exactly the fields that its handler (and the functions it passes the context to) reads, by name or with a struct it binds, each with a schema that describes what it holds: a text, a list, a map or a file.", "quantifier": "every program, handler, field name, struct, service and world", "why_tests_cant": "It relates all sources of handlers and all struct types to the document, in both directions.", "anchors": ["inputs/gin/parseFunction.go:376-416", "inputs/gin/parseFunction.go:477-566", "outputs/openapi/generate.go:139-166", "clean.go"]}
{"id": "C75", "title": "A document in JSON can be read back", "statement": "The bytes written for a document in JSON are a JSON text (RFC 8259, in UTF-8), in which no object has a name twice and which has one reading; read as an OpenAPI document it says exactly the document that was generated, so that two documents with the same bytes are the same.", "quantifier": "every document: every configuration, route, component and iteration order", "why_tests_cant": "It is about all strings (quotes, control characters, separators), all nestings of schemas and all ways of reading the text.", "anchors": ["outputs/openapi/generate.go:298-321", "outputs/openapi/types.go:4-200"]}
{"id": "C76", "title": "A document in JSON is a valid OpenAPI 3.0 document", "statement": "The bytes written for a document are a JSON text that is valid after the OpenAPI specification 3.0: required members are there and no others, parameters are unique and those in the path are its templates, lists have items, references resolve, component names are of the permitted characters, paths differ in more than the names of templates and operation ids are unique.", "quantifier": "every configuration, route, component, mapping and iteration order", "why_tests_cant": "It is about all documents that can be generated, down to every nested schema.", "anchors": ["outputs/openapi/generate.go:23-321", "outputs/openapi/types.go:4-200", "outputs/openapi/components.go:14-220"]}
{"id": "C77", "title": "Goroutines that share a package manager", "statement": "However goroutines that share a package manager are interleaved, their calls of AddPackage, Find and FindOrAdd act as if made one after the other; goroutines get the same node exactly when they ask for the same path; none waits forever, and every execution ends with all answered; a package that is loaded is the one on disk at its path; there are no data races, and each loaded package has each of its files once.", "quantifier": "every number of goroutines, every list of requests of each, every interleaving, disk and path loader", "why_tests_cant": "It is about all interleavings of any number of goroutines at each access to shared memory.", "anchors": ["astTraversal/packageManager.go:33-147", "astTraversal/loadPackage.go:9-26"]}
{"id": "C78", "title": "Comments of fields are those of their declarations", "statement": "The lookup of syntax by position finds the outermost node that begins there, and every exported field of a struct is described with the comment of its own declaration, whatever other fields, names, embedded types and packages there are; the analysis of a struct with comments does not fail.", "quantifier": "every package layout, file set, syntax tree, struct, field, name and environment of types", "why_tests_cant": "It is about all source files and all ways to declare a field; a handful of structs in the tests shows nothing about positions in other file sets.", "anchors": ["astTraversal/packageNode.go:168-199", "astTraversal/type.go:204-250", "astTraversal/loadPackage.go:28-60"]}
{"id": "C79", "title": "A custom function decides what a call it takes documents", "statement": "If a custom function takes a call of a handler and answers with a route, that route is what is documented from there on: what the answer says is kept, the calls after it are recorded in it, and calls no custom function takes are recorded as without custom functions.", "quantifier": "every list of custom functions, handler source and route", "why_tests_cant": "It is about all functions a user can supply and all places of calls in all handlers.", "anchors": ["contextFuncBuilder.go:81-87", "inputs/gin/parseFunction.go:67-90", "inputs/gin/parseRoute.go:114-142"]}
{"id": "C80", "title": "An Azure function serves the requests its route serves", "statement": "The Azure function written for a route is asked for exactly the requests gin serves under that route.", "quantifier": "every route gin accepts and every request path", "why_tests_cant": "It compares two ways of matching on all paths and all requests.", "anchors": ["outputs/azureFunctions/convertRoute.go:10-43"]}
{"id": "C81", "title": "The JSON output can be read back", "statement": "The bytes of the JSON output are one JSON text with every name of an object once, and what the text says is the routes and components of the service and no others; outputs with the same bytes have the same routes and components.", "quantifier": "every list of routes and components, every depth of fields and every string in them, every run", "why_tests_cant": "It is about all strings, maps and nestings and about two results never being written alike; golden files compare single outputs.", "anchors": ["outputs/json/generate.go:12-47", "types.go:8-94", "astTraversal/tags.go:22-43"]}
{"id": "C82", "title": "The bytes of a JSON cache say what loading it gives", "statement": "The bytes written to a JSON cache are one JSON text with every name of an object once, which says the inputs, outputs, configuration, routes, components and custom types of the service and nothing else; loading the cache gives what the bytes say.", "quantifier": "every service, every string, map and depth of fields in it, every run of caching and loading", "why_tests_cant": "It is about all strings and nestings, including bytes that are no text, and about two services never being cached alike.", "anchors": ["cache.go:20-59", "cache.go:88-113", "service.go:20-47", "config.go:5-27", "input.go:4-8", "output.go:5-9", "formatTypes.go:6-9"]}
{"id": "C83", "title": "The text of an Azure function", "statement": "Each function.json is one JSON text with every name of an object once, which says the trigger with the methods and the converted path of its route and the answer, and no others.", "quantifier": "every list of methods, every route and every run", "why_tests_cant": "It is about all paths and methods, including ones with quotes, control characters or bytes that are no text.", "anchors": ["outputs/azureFunctions/generate.go:15-25", "outputs/azureFunctions/generate.go:37-80"]}
{"id": "C84", "title": "Several routers", "statement": "If an application gives each of its routers as an input of its own, the document has the routes of all of them, and each operation tells what its handler does exactly as if there were one router: no parameter is listed twice.", "quantifier": "every number of inputs, all routers, handlers, states of the file system and successful runs", "why_tests_cant": "The tests have one input each; the claim is about any number of inputs, each of which analyses the routes of all.", "anchors": ["inputs/gin/parseRoutes.go:11-30", "parseRoutes.go:5-27", "inputs/inputs.go:27-29"]}
{"id": "C85", "title": "Runs with custom functions", "statement": "With custom functions given by the user, a successful run documents every route served and not denied and no others, and each operation says what the custom functions and the handler's other calls have recorded for its route.", "quantifier": "all custom functions, routers, handlers, numbers of inputs, states of the file system and successful runs", "why_tests_cant": "Custom functions are arbitrary user code, called at any depth of any handler; tests try one function on one handler and do not run the whole way to the file.", "anchors": ["inputs/gin/parseFunction.go:67-89", "contextFuncBuilder.go:81-87", "routes.go:8-16", "inputs/gin/parseRoutes.go:11-30"]}
{"id": "C86", "title": "A run leaves a valid OpenAPI document", "statement": "After a successful run, the file of an OpenAPI output is a document that is valid after the OpenAPI specification 3.0, whatever the routers, handlers and types.", "quantifier": "all routers, handlers, types, states of the file system and successful runs with an OpenAPI output", "why_tests_cant": "Validity depends on every route and type together, found by analysing arbitrary handlers; golden files check the documents of a few services.", "anchors": ["parse.go:1-60", "outputs/openapi/generate.go:1-120", "inputs/gin/parseRoutes.go:11-30", "clean.go:7-45"]}
