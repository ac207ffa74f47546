# Formal model of LS6-Events/astra

## 1. Ground rules

* The model is written in Gallina, function by function, from the Go source in `/repo`.
  Each definition cites the file and lines it stands for, and says where it is simpler.
* Files: `Base*.v` Go library functions (strings, maps, outcomes) with their own lemmas;
  `M_*.v` the model; `S_*.v` the independent specifications; `P_*.v` proofs;
  `Props_*.v` the property theorems with the last steps of their proofs, each followed by
  `Print Assumptions`, with non-vacuity `Example`s beside them.
* Go strings are byte strings: Coq's `string`.
* A Go map is an association list. Where Go iterates over a map the model iterates over
  the list, and theorems quantify over every reordering of it. Where the result is a map
  that is only looked up or serialised with sorted keys, the model keeps it in key order,
  so that equality of maps is equality of lists.
* Errors are values, panics are values (`Panic`), pointers that can be nil are `option`.
  Unbounded recursion takes fuel and answers `OutOfFuel` when it runs out; a termination
  theorem says that some fuel is enough, a divergence theorem that none is.
* A property that is false of the code is kept in full in the model as a statement, a
  theorem `..._refuted` gives a counterexample, and a theorem `..._partial` proves the
  statement under the weakest hypothesis found, with the missing part named.

## 2. What is modelled, property by property

| id | modelled | how it is proved |
|----|----------|------------------|
| C01 | the regex `:[^/]+|\*[^/]+` as a leftmost-longest scanner, `ExtractParamsFromPath` | the scanner's token list is the unique decomposition of the path satisfying a declarative "leftmost maximal match" relation; induction on the path |
| C02 | `MapPathParams` | rewriting = concatenation of the decomposition's pieces with matches mapped, for every function |
| C03 | path conversion of `openapi.Generate` | injectivity by decoding the converted path, on brace-free paths with one marker per segment; counterexample outside |
| C04 | path conversion and parameter generation | proved for ':' paths, refuted for '*' |
| C05 | `SplitHandlerPath`, its accessors, Go's runtime name mangling of package paths | string lemmas on split/join; refuted for a dotted last element |
| C06 | `CreateRoutes`, `createRoute` of the gin input | induction on the router list; deny functions are arbitrary functions |
| C07 | `AddComponent` | invariant over addition histories |
| C08 | `AddReturnType` | presence/prefix by induction; uniqueness refuted |
| C09 | `ReplaceRoute` | induction on the list |
| C10 | `ParseRoutes`, `parseRoute` | run-twice comparison; refuted, partial for routes that only set return types |
| C11, C12 | `reflect.StructTag.Lookup`, `strconv.Unquote`, `ParseStructTag` | for all byte strings; rendering of conventional tags as specification |
| C13 | the two tables | case analysis with an arbitrary string |
| C14 | `ExtractBindingTags` | set characterisation for every list order; permutation corollary |
| C15, C16, C17 | `collisionSafeKey`, `getPackageName`, `makeCollisionSafeNames...` with its process-global map passed explicitly | counterexamples for the full claims; partial theorems |
| C18 | whole `openapi.Generate` document construction | invariants on registered names; refuted in general, partial for uniformly tagged structs |
| C19 | the same, with iteration orders as permutations of the field lists | congruence under reordering; refuted for two embedded fields and for equal binding names |
| C20-C23 | the operation building loop | induction over routes, return types, body and parameters |
| C24 | `componentToSchema` | characterisation of the property map |
| C25 | `GetTypeMapping` with its memo | invariant on memo |
| C26 | configuration, server URL | equational |
| C27, C28 | `TypeTraverser.Result` over an environment of named types | fuel; rank argument; divergence on a recursive type; closure by induction |
| C29 | `ParseResultToField`, `mapFieldToSchema` | case analysis |
| C30-C32 | `parseFunction` over syntax trees with resolution oracles, a heap of routes, fuel for helpers | flattening specification; divergence; panic witnesses |
| C33 | `ContextFuncBuilder` | induction on the declared operations |
| C34 | `Expression.Value`, literals, constants | partial/refuted |
| C35, C36 | `Clean`, `cleanField`, `HandleSubstituteTypes` | structural induction on fields |
| C37 | `SetupParse`, `CompleteParse`, `Parse` | trace semantics of phases |
| C38-C41 | `Cache`, `LoadCache...` over a JSON tree and a file system with explicit steps and crash points; CLI | round trip by induction, crash point counterexample |
| C42 | `rebind...` | induction |
| C43-C45 | file system model, `Setup`, `Teardown`, `dir.go`, Azure generation | frame theorems and counterexamples |
| C46, C47 | `convertRoute`, Azure `Generate` | string lemmas |
| C48 | closures of `Generate` with captured path | state passing |
| C49 | `Config`, `ConfigBuilder` with the shared pointer | invariants over call sequences |
| C50 | `New`, options | commutation, permutation theorem |
| C51 | package manager tree | refinement to the set of added paths |
| C52 | `GetMainPackageName`, `setupTempMainPackage` | string lemmas |
| C53 | enum collection of `TypeTraverser.Result` | induction |
| C54 | `FormatDoc`; the lookup of comments by position is done by `go/packages` and is not modelled | equational |
| C55 | the panics of the type analysis (`type.go`, `result.go`) | witness; success on all analysable types by induction |
| C56 | custom functions sharing one builder with the built-in methods | equality of analyses when nothing is left over; witness |
| C57 | `ParseRoutes` replacing routes while iterating | induction over the list |
| C58 | function literals found by line number | induction over the tree |
| C59 | integer literals and constants as status codes, `strconv.Atoi` | exact decimal reading; witnesses for other bases |
| C60 | the schema of a value or a property against the shape encoding/json writes | specification of shapes by the type expression |
| C61 | options of binding and validation tags | string lemmas |
| C62 | `LoadPackage` with the process-wide cache of packages | invariant over histories of loads; witness |
| C63 | a whole run, from the routers to the file of the document | composition of the phases' theorems over the steps of a run; frame for what comes after the output |
| C64 | a whole run with one router, from the handlers' syntax trees to the file | the same with the analysis (C30, C32), whose fuel is shown not to matter, and the document (C20, C21, C23) |
| C65 | names, references and component schemas together | the schema at a name is that of the last binding tag with that name; invariant over the schema loop; induction on the depth and on the structure of a component |
| C66 | resolution of called names | the only import a name can stand for; the scopes of file and package agree |
| C67 | parameters of functions | induction on the parameter list |
| C68 | types of expressions | induction on expressions against a typing relation, in both directions |
| C69 | comments of types, `CommentGroup.Text` | one declaration per name; paragraphs by well-founded induction on the lines |
| C70 | source of handlers to routes and to the document of a run | mutual induction on what the source says, to the tree of C30; composition with C64 and C69 |
| C71 | Go types of values to schemas of the document of a run | induction on the source for the values and the registered types; correspondence of components and types of the program; induction on the depth of references and on the definition of a type |
| C72 | query parameters a handler asks for to those of the document of a run, both ways | induction on the source; components and types of the program as in C71 |
| C73 | headers a handler reads and sets to those of the document of a run, both ways | induction on the source; the lists of the route through clean and generate |
| C74 | form fields a handler reads to the request body of the document of a run | induction on the source; last write to a map entry; types as in C71 |
| C75 | the JSON text of a document: struct tags of `outputs/openapi/types.go`, `json.MarshalIndent` | induction on values; determinism of the grammar; a reader of documents as a relation; closure of the schemas under the generator |
| C76 | validity of a document after the OpenAPI specification 3.0 (`S_Valid.v`, written from the specification) | structural induction on schemas, closure of references (C18), converse by inversion of the validity relation, nine witnesses |
| C77 | goroutines that share a package manager: one step per access to shared memory | invariant of interleavings, linearization at the end of locked sections, well-founded measure on goroutines, four executions as witnesses |
| C78 | comments of fields, looked up by position | induction on syntax trees, file sets with disjoint ranges; three witnesses against the full statement |
| C79 | custom functions and the route they answer with | induction on the source of handlers; identity of routes (a pointer of its own is lost) as a universal statement, one witness |
| C80 | requests served by gin and by the written Azure function, segment by segment (`S_Served.v`) | induction on the segments of the path, over the conversion of C46; one witness |
| C81 | the text of the JSON output: struct tags of `types.go` and `astTraversal/tags.go`, `outputs/json/generate.go` | as C75; sorting maps by keys is a permutation; sorted permutations are equal; a reader of outputs as a relation |
| C82 | the bytes of a JSON cache: struct tags of `service.go`, `config.go`, `input.go`, `output.go`, `formatTypes.go`; `Cache`, `LoadCache` | as C81 for strings of any bytes, through the value with repaired strings; a reader of caches as a relation; combined with what `Cache` leaves (C39) |
| C83 | the text of `function.json`: `outputs/azureFunctions/generate.go` | as C82; combined with the files of C47 |
| C84 | a whole run with any number of inputs: `parseRoutes.go`, `inputs/gin/parseRoutes.go` | induction on the inputs: each analysis of Gin records again what the one before has recorded, except the parameters of the path; composition with C64 |
| C85 | a whole run with custom functions: `inputs/gin/parseFunction.go`, `contextFuncBuilder.go`, `parseRoutes.go` | invariant of the heap of routes (every route stays the same route) for custom functions that keep it, then C63 and C79 composed over any number of inputs |
| C86 | a whole run, to the validity of its document: `parse.go`, `inputs/gin`, `clean.go`, `outputs/openapi` | conditions on routers and handlers (`S_ValidRun`) carried through the analysis and the cleaning to those of C76 |

## 3. Files of the model

| file | Go source | what is left out or simplified there |
|------|-----------|--------------------------------------|
| `BaseStr`, `BaseMap` | strings, strconv, maps of the Go library, as far as used | byte strings; maps are sorted lists where only looked up |
| `M_Types` | `types.go`, `accepted.go`, `config.go` types | pointers other than nil-able ones; numbers are unbounded integers |
| `M_Paths` | `utils/pathParams.go`, path conversion | the one regular expression is a scanner |
| `M_Collect` | `splitHandlerPath.go`, gin `createRoute(s).go`, `listing.go`, `routes.go`, `safePushing.go` | `filepath.Rel` and regular expressions are arbitrary functions |
| `M_Tags` | `astTraversal/tags.go`, `bindingTags.go`, `reflect.StructTag`, `strconv.Unquote` | non-ASCII bytes inside quotes are copied |
| `M_OpenAPI` | `outputs/openapi`, `formatTypes.go` | the document is a tree, not text; iteration orders and the unstable `sort.Slice` are parameters |
| `M_TypeTrav` | `astTraversal/type.go`, `result.go`, `docs.go` | types and positions are answers of `go/types`, given |
| `M_Value` | `astTraversal/expression.go` `Value`, `declaration.go`, `go/constant` strings | constants of other kinds by their text; non-printable runes are not escaped |
| `M_Parse` | `contextFuncBuilder.go`, gin `parseFunction.go`, `parseRoute(s).go` | syntax trees carry what resolution answers; `strcase.ToLowerCamel` is an arbitrary function; functions without bodies |
| `M_Resolve` | `astTraversal/traverser.go`, `callExpression.go`, `function.go`, `packageNode.go`, `fileNode.go`, `expression.go` `Type` | syntax trees and the answers of `go/types` about identifiers are given; positions are identities of nodes |
| `M_Json` | `outputs/openapi/types.go` struct tags, `generate.go` 298-321, Go's `encoding/json` (`MarshalIndent`, strings) | marshalling and indenting are one step; how a float64 is written is a parameter; only the members astra sets |
| `M_JsonOut` | `types.go` and `astTraversal/tags.go` struct tags, `outputs/json/generate.go` 12-26 | as `M_Json`; whether an empty slice is nil is a parameter |
| `M_CacheText` | struct tags of `service.go`, `config.go`, `input.go`, `output.go`, `formatTypes.go`, `cache.go` 46, `outputs/azureFunctions/generate.go` 15-25, 48-66 | as `M_JsonOut`; which empty slices and maps are nil and how values of a configuration that are no strings are written are parameters |
| `M_Docs` | `packageNode.go` comments of types, Go's `ast.CommentGroup.Text` | declarations are their type specifications |
| `M_Clean` | `clean.go`, `substituteTypes.go` | the in-place update of shared maps |
| `M_FS` | `path.Clean`, `path.Join`, the file tree | no symbolic links, permissions, times or open handles; `RemoveAll` and `MkdirAll` happen at once or not at all; the empty path is special in `ReadDir` and `RemoveAll` only |
| `M_Service` | `setup.go`, `dir.go`, `mainPackage.go`, `cache.go`, `createRoutes.go`, `parseRoutes.go`, `clean.go`, `generate.go`, `teardown.go`, `parse.go`, `outputs/json`, `outputs/azureFunctions`, `cli/astra/cmd` | every operating system call can fail, a write leaving any content; functions of the user only answer; the analysis is a function of the service (`e_analyse`), which the temporary files do not disturb; the type mapping memo is always built; a captured path belongs to one output only; a cache is a value per format, a file astra did not write is decoded by a given function; mixtures of the formats are errors |
| `M_Options` | `new.go`, `options.go`, `logger.go`, `config.go`, `configBuilder.go` and the option packages | a logger is its target and level |
| `M_Packages` | `astTraversal/packageManager.go`, `packageNode.go`, `loadPackage.go` | calls do not overlap (see `M_Threads`); a package is the imports of its files |
| `M_Threads` | `astTraversal/packageManager.go`, `loadPackage.go:9-26`, with the lock | goroutines are interleaved step by step (sequentially consistent); the package's file set is read with its files; setup (path loaders) is done before |
| `M_Position` | `astTraversal/packageNode.go:168-199`, `type.go:225-240`, file sets of `go/token`, `Pos` of `go/ast` | syntax trees are trees of tokens with a kind; a node begins at its own token or at its first child; what the parser guarantees (`laid_out`) is a hypothesis |

## 4. Trusted base

* Coq 8.16.1's kernel (`vm_compute` is used for witnesses).
* No axioms of our own and none of the standard library: `Print Assumptions` after every theorem of
  `Props_*.v` is part of the build and prints `Closed under the global context` for each.
  A listing of everything loaded also names the constants `Under_rel`, `Under_relE`, `Over_rel`, `over_rel`,
  `over_rel_done`, `under_rel_done` and `Under_rel_from_rel` of `Coq.ssr.ssrunder`, which the standard library
  seals behind a module type; no theorem depends on them.
* That the model says what the Go code does. Each definition cites the lines it was written from; section 3 and
  the comments say where it is simpler. The code was read, not run.
* That the specifications (`S_*.v` and the statements in `Props_*.v`) say what the properties mean.

## 5. Not modelled

Logging beyond the options; `go/packages`, the type checker and file sets (their answers are inputs of the
model); the text level of YAML, and of JSON except for documents (`M_Json`), the JSON output (`M_JsonOut`), JSON caches and Azure functions (`M_CacheText`); the decoder of encoding/json beyond what a text says (names in other case, wrong types); the operating
system beyond the file tree; concurrency other than in `M_Threads`; cobra's argument parsing.

## 6. How the theorems were tested

`tools/mutate.py` rebuilds a copy of the theories with one wrong definition and reports which proofs fail; the
attempts are in `seeded/LOG.jsonl`. Theorems that survived an edit breaking their claim were tightened.
