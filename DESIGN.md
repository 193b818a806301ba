# Formal model of controller-tools (controller-gen) in Rocq

Source of truth: `/repo` (kubernetes-sigs/controller-tools, pinned commit), read as text. Nothing of it is executed.
The tie between the code and the model is the citation (`file:lines`) that definitions carry, together with the
simplifications named there and below.

1. [Layout](#1-layout) 2. [Conventions](#2-conventions) 3. [Plan per property](#3-plan-per-property)
4. [What is modelled, file by file](#4-what-is-modelled-file-by-file) 5. [Trusted base](#5-trusted-base)
6. [Assumptions made explicit](#6-assumptions-made-explicit) 7. [Findings](#7-findings) 8. [Wrong programs](#8-wrong-programs)

## 1. Layout

* `rocq/theories/GoLib.v` – Go strings (byte strings), `strings.*`, sorting, maps; `GoLibFacts.v`, `MapFacts.v` – lemmas on them.
* `rocq/theories/<Area>Model.v` – the model of one area, definitions only, no proofs.
* `rocq/theories/<Area>Spec.v` – a small independent specification (the RBAC authoriser, JSON-schema validation,
  encoding/json, a heap semantics of the generated Go code, a grammar of marker texts ...), written without the model's helpers.
* `rocq/theories/<Area>Proofs*.v` – lemmas.
* `rocq/theories/<Area>Props.v` – the property theorems, each followed by `Print Assumptions`, with an `Example` showing
  that a concrete non-trivial case meets the hypotheses.
* `properties.jsonl` – the properties (written by `tools/gen_properties.py`); `MANIFEST.json` – the theorems of each property
  (`tools/gen_manifest.py`); `assumptions.txt` – what Print Assumptions said (`tools/gen_assumptions.py`);
  `seeded/*.json` – wrong programs tried, `seeded/LOG.jsonl` – with what result (`tools/seed.py`).

## 2. Conventions

* Strings are Coq `string`: lists of bytes, like Go strings. (ImportModel: lists of code points.)
* A Go map is an association list without duplicate keys. Every `range` over a map goes through an explicit order oracle: an
  arbitrary function returning a permutation of its argument. Theorems quantify over the oracles. `sort.Slice` is not stable:
  its results are any sorted permutation.
* Errors are values. A Go panic is an explicit result. A loop that may not end has fuel, and a theorem says when some fuel is enough.
* In-place mutation through pointers is state passing; where aliasing matters (deepcopy, yaml nodes, loader, type checker)
  there is an explicit heap or state machine.
* What is outside (go/types, text encoders, file systems, unicode tables) is a Section variable, that is, universally
  quantified in the theorems, with the hypotheses spelled out.
* A property that turned out to be false is proved false as `…_refuted`, with a computed witness; the part that holds, with the
  condition it needs, is a separate theorem. `…_refuted` theorems are findings about the code, not gaps of the proof.

## 3. Plan per property

| id | model | proof |
|----|-------|-------|
| C01 | `Rule`, keys, the four merge stages of NormalizeRules, GenerateRoles, with order oracles; spec: RBAC authorisation relation | each stage's merge only takes products of rules that agree on the other coordinates; induction over groups. Refutation for colliding keys |
| C02 | same | box-disjointness invariant through the four stages; refutation of the unconditional claim |
| C03 | same | the result as a canonical function of the marker set under the condition of C02; refutation |
| C04 | same | sortedness/NoDup of the namespace list, field-wise normal forms |
| C05 | byte-level `qualifiedName`, `RefParts` | string split/replace induction |
| C06 | `truncateString` on bytes, schema tree | structural induction |
| C07 | walkSchema as trace-producing recursion | induction on schema trees; trace spec = pre-order |
| C08 | `flattenAllOfInto` on a record of keywords; spec: JSON validation | field-wise lemma, induction on the schema |
| C09 | Flattener over a type environment | induction on an acyclicity rank |
| C10 | preserveFields | case analysis plus C08's validation semantics |
| C11 | structToSchema's loop | fold induction, spec is a decision list |
| C12 | every ApplyToSchema of markers/validation.go and topology.go | case analysis over the markers for all schemas |
| C13 | applyMarkers with order oracle | commutation of independent markers, permutation induction |
| C14, C15 | NeedCRDFor with order oracles | fold invariants |
| C16 | file name construction | string injectivity |
| C17 | splitMarker, Registry | induction on name parts |
| C18, C19 | text/scanner and the argument parser | a grammar relation; soundness, completeness and termination by induction on derivations |
| C20 | extractDoc line machine | induction on lines |
| C21 | protoFromOptions | fold invariants |
| C22, C23 | Runtime.Run, OutputRules | fold induction |
| C24, C25 | webhook conversions and Generate | fold induction; wrap-around arithmetic mod 2^32 |
| C26, C27 | yaml node trees, the schema patcher | structural induction over paths; frames |
| C28, C29 | Go type grammar, mini-language of emitted statements, heap semantics | induction on types/heap values with freshness and separation |
| C30 | NeedImport | invariant over request sequences |
| C31 | goroutine/lock state machine | invariants plus progress over the DAG rank, measure for termination |
| C32 | visitImports on a graph heap | invariant of the depth-first walk |
| C33, C34 | direct | induction |
| C35 | C12's markers against the validation semantics | marker by marker, for all schemas and values |
| C36 | applyMarkers | fold invariant on the keywords written |
| C37 | NeedSchemaFor as recursion over an environment of types | measure (types not yet requested), cache invariant |
| C38 | C11's generator against encoding/json | induction on the encoding relation |
| C39 | C11's generator with panics | exact characterisation by induction on type expressions |
| C40 | C14's model under two oracles | permutation induction, commutation of markers |
| C41 | FindKubeKinds with order oracles | sorting is canonical |
| C42 | the emitted statements of C28 against typing rules | induction on types, one lemma per emitted shape |
| C43 | the generator's recursion | well-founded on the path relation; converse by infinite descent |
| C44 | associateFileMarkers: the visitor with its comment index; spec by positions alone | invariant over the calls of Visit relating the index to positions; conservation of comments as a permutation |
| C45 | typeVisitor.Visit as a walk that keeps file and declaration; EachType's callback builds the TypeInfo | the calls are the type specs of the children of each file: induction over the children |
| C46 | generateForPackage over the infos of C45, with the generator of C28 and the imports of C30; panics and running on are results | the table of types, the errors and the imports as functions of the list of infos (ObjectProofs); the file from them; the end-to-end theorems give `program` and `package`, the hypotheses of C28 and C42 |
| C47 | allReferencedPackages over files given as import specs and type expressions; iteration orders are parameters; the generators' filters | the collector equals a fold over the names found in an expression; names found = names reached through nodes that pass; the maps of imports characterised by the last spec giving a name |
| C48 | LoadRootsWithConfig with filepath.Clean, Join, Base, Dir and IsAbs on strings; packages.Load, Getwd and WalkDir are oracles | where a path leads, element by element, is the meaning of paths: Clean and Join keep it, Base and Dir take it apart; the passes by induction over the roots with the packages loaded so far |
| C49 | NeedSyntax as a caller and goroutines with program counters; p.Errors is a slice with an array on a heap, append may write in place or copy | invariant on the program counters and the WaitGroup; a measure that each step decreases; ghost tags (which entry of which file) on the slots of arrays: a tag is at one index only; with exclusive runs the list of entries stored so far |
| C50 | yamlMarshal and its transforms on JSON trees, the header's replacement of ` YEAR`; the file is C23's | a tree is what is found at each path; transforms by what they do to each path; the file's documents are its lines between lines `---`; replacement as a relation that has one solution |
| C51 | MarkersInPackage as steps of goroutines on the cache and pkg.Syntax; nodes are generations | invariants: for all schedules every table is one generation's; one call at a time; syntax parsed before. A rank that each step decreases |
| C52 | indexTypes, AddPackage, NeedPackage, overrides, on maps | what one call adds; induction over the requests with the list of those made |
| C53 | KnownPackages, ObjectMetaPackages, AddKnownTypes as tables of schemas; regular expressions as syntax with a relation of matching (KnownSpec) | the pattern is parsed by computation, its parts are shown to denote the rules of the grammar by induction; the schemas by cases on the value; C38 is instantiated |
| C54 | Registry.AllDefinitions, HelpFor, FieldsHelp, ForDefinition, ForArgument, TypeString, ByCategory, the two sort groups, what main prints; map orders and what sorting does to equals are given | grouping and sorting facts of GoLibFacts over the registry; uniqueness of strictly sorted permutations |
| C55 | Generate and generateForPackage of applyconfiguration with its helpers; gengo and its targets as oracles; paths of RootsModel | induction over the roots; places as lists of names (C48) |
| C56 | main as a command with flags, RunE, printMarkerDocs, helpForLevels' levels, FromOptionsWithConfig and ForRootsWithConfig over the options and run of GenallModel; cobra and loading are oracles | the theorems on options, rules and runs (C21-C23) are composed; what options mean is a function of their texts |
| C57 | cmd/helpgen/main.go without the command line: the texts it writes, byte by byte, with the quoting of fmt; gofmt, opening and writing are oracles | a reader of Go files: tokens by a state machine with automatic semicolons, literals by a recursive parser, values; reading what is written gives the godoc |
| C58 | the tables of markers of the six generators with the Go types of their values: pkg/crd/markers (all files with definitions), pkg/rbac, pkg/webhook, pkg/deepcopy, pkg/applyconfiguration; Definition.Parse to the value; KubernetesDefault.ParseMarker | the lists of names and targets by computation, lookups by the lemmas of C17, texts by the grammar of C18 and C19; values field by field |
| C59 | MarkersInPackage and PackageMarkers composed from the models of C44, C17, C18 and C58; GenerateRoles and the webhook generator on their results | the markers of a file at places for the package, by positions (C44); the values by C58; roles by C01 and C02, manifests by C24; iteration orders by permutations |
| C60 | NeedFlattenedSchemaFor and the copy with short descriptions, composed from the models of C37, C11-C13, C08-C10 and C06 | the values of a type as inductive relations over declarations; the schema of each type needed says them, by induction on the rank of the type and on its expression; the flattener keeps them; fuel is monotone |
| C61 | Generate with NeedCRDFor and the schemas of C60 | C14 and C16 give package and schema of each version written; what replacing the schema of metadata does to validation; C60 |
| C62 | the template text as it is in the repository, text/template for the actions in it, Validate, the flags of the command | the template is parsed by computation; the text as lines, for all options; reading the lines back, by induction over the help text |
| C63 | crdsFromDirectory over a file oracle; Generate as a whole, from the models of patching and of the schema of a type | which files are manifests, by induction over the entries; the schema of a version through the correspondence of loaded sets and manifests; running again: reading, loading and patching commute with replacing the documents |
| C64 | indexTypes and EachType over the collector model with the tables of markers; Generate as a whole | the marker set of a node is a reading of its comments (C58 lifted to sets); conforming is independent of how a set is listed (mutual induction over conforms); obeying by induction over the path into the value |
| C65 | as C64 | the markers of a type in the CRD model are exactly what its comments say (type_marks, carried), then the theorems about versions, names and metadata of C14 and C15 |
| C66 | deepcopy.Generate over all roots: header, markers from the comments of the sources, generateForPackage (as in C28, C45), opening and writing | markers of packages and types in the object model are exactly what the comments say; then the theorems about one package; induction over the roots for the run |
| C67 | the lines of DeepCopyInto, DeepCopy and DeepCopyObject, the import specs and the top of the file, as strings | a lexer and a parser of Go as the specification; each piece of text is lexed to tokens that the parser takes to the tree of the statement, compositionally (induction over the steps of the generator); types without a name always come with an error |
| C68 | spans, tables, padding, indentation and the three ways of printing the help | the expected text is a function of the documentation, character by character (PrettySpec); widths by induction over the rows added, rows cell by cell, indentation by a simulation of split and join; escape sequences are invisible as long as each is followed on its line by a character, an invariant of every span that help.go indents |
| C69 | helpForLevels, and the members that encoding/json makes of the types of pkg/genall/help | the specification says which members an object has for a documentation; it is functional in both directions (no key twice, hence one reading), by induction over arguments and lists; with C54 (what is in the registry) and C68 (the texts) |
| C70 | printMarkerDocs after RegistryFromOptions, on the tables of all generators | both directions by composition: a definition is in force in the registry iff a table has it (definitions of one name and target are equal), C54 makes the documentation complete and sound, C69 reads it back from the JSON; that no definition has two fields of one name is decided on the tables |

## 4. What is modelled, file by file

| file | modelled | not modelled |
|------|----------|--------------|
| cmd/controller-gen/main.go | MainModel (C56); the option registry (C21) | cobra, texts |
| pkg/version | | all |
| pkg/crd/conv.go, desc_visitor.go, flatten.go, schema_visitor.go | all (AsVersion as the identity on v1) | |
| pkg/crd/gen.go | FindKubeKinds, FindMetav1, Generate, FixTopLevelMetadata, the transforms, the header | |
| pkg/crd/known_types.go | KnownModel: KnownPackages, ObjectMetaPackages, AddKnownTypes with their schemas (C53); IndexModel: the overrides (C52) | overrides written by others, that is arbitrary PackageOverride functions |
| pkg/genall/help/{types,sort}.go, pkg/markers/help.go, printMarkerDocs of cmd/controller-gen | HelpModel (C54), LevelsModel (C69) | the text of JSON |
| cmd/controller-gen/main.go:227-236, pkg/genall/options.go:59-63 | WhichModel (C70) | reading the options (protoFromOptions, see C21) |
| cmd/controller-gen/main.go:238-276, the JSON tags of pkg/genall/help/types.go | LevelsModel (C69) | the text of JSON values, errors of writing |
| pkg/genall/help/pretty | PrettyModel (C68) | the bytes of escape sequences (one item), errors of the writer, the caches |
| pkg/crd/parser.go:126-158, pkg/markers/zip.go:197-231 | OriginModel (C64) | declarations are given with the nodes of the files that they are, and with what go/types says of them |
| pkg/schemapatcher/gen.go | PatcherModel (C63) | the YAML decoders and the encoder (parameters), errors of writing |
| pkg/typescaffold, cmd/type-scaffold | ScaffoldModel (C62) | flect and strings.ToLower (parameters), cobra, the rest of text/template |
| pkg/crd/gen.go, spec.go, parser.go, flatten.go, schema.go (the composition) | WholeModel (C61) | the cache of the parser between kinds (C37 says it makes no difference); texts of errors |
| pkg/crd/parser.go:197-209, spec.go:86-104 (the composition) | EmitModel (C60) | the cache of FlattenType (C09 says it makes no difference) |
| pkg/markers/collect.go (MarkersInPackage, parseMarkersInPackage), zip.go (PackageMarkers); the composition with pkg/rbac and pkg/webhook | SourceModel (C59) | cache and lock of MarkersInPackage |
| pkg/crd/markers/register.go, validation.go, crd.go, package.go, topology.go (tables); RegisterMarkers of all generators | TablesModel (C58) | help texts |
| cmd/helpgen/main.go | HelpgenModel (C57) | the command line, usage |
| pkg/applyconfiguration/gen.go | ApplyModel (C55) | gengo, applyconfiguration-gen, the texts of errors |
| pkg/crd/parser.go | all | |
| pkg/crd/schema.go | all but generics | type parameters |
| pkg/crd/spec.go | NeedCRDFor | |
| pkg/crd/markers/*.go | every ApplyToSchema and ApplyToCRD, the priorities; the registration tables (TablesModel) | help texts |
| pkg/deepcopy/traverse.go | importsList, fineToShallowCopy, copyMethodMaker, eventualUnderlyingType as statements; the lines that are written (TextModel, C67) | type parameters, types.Alias; String() of types that have no name |
| pkg/deepcopy/gen.go | generateForPackage and what it calls (ObjectModel); Generate over all roots, the header, writeOut (CopiesModel, C66) | gofmt (whether it succeeds is an oracle), closing the file |
| pkg/genall | options.go, genall.go, output.go; help/types.go and help/sort.go (C54), help/pretty (C68) | input.go |
| pkg/loader/errors.go, paths.go | all | |
| pkg/loader/loader.go | LoadRootsWithConfig, visitImports, NeedSyntax, NeedTypesInfo, typeCheck, AddError | go/parser; mode and build flags |
| pkg/loader/refs.go | mapImports, referenceCollector, allReferencedPackages, isNodeInteresting, TypeChecker | |
| pkg/loader/visit.go | all | |
| pkg/markers/collect.go | all | |
| pkg/markers/parse.go | Argument.Parse, Definition.Parse, splitMarker, loadFields; KubernetesDefault.ParseMarker (TablesModel) | ParseMarker of other generators' markers |
| pkg/markers/reg.go, regutil.go | all but the locks (AddHelp and HelpFor in C54) | |
| pkg/markers/zip.go | all | |
| pkg/rbac/parser.go | all | YAML text |
| pkg/schemapatcher | gen.go, internal/yaml nested.go, set.go | the YAML decoder and encoder, ToYAML of convert.go |
| pkg/webhook/parser.go | all | YAML text |

## 5. Trusted base

* Coq 8.16.1: its kernel (and `vm_compute`, used for the concrete witnesses), and the standard library. No other library.
* No axioms. `Print Assumptions` says "Closed under the global context" for every theorem named in MANIFEST.json;
  the list is in `assumptions.txt`. No file contains Admitted, Axiom, Parameter or a section-less Variable.
* The reading of `/repo` by which the models were written, that is, that each model definition does what the lines it cites do.
  This is what the proofs cannot check.
* The specifications: that they say what one wants. They are meant to be short enough to be read.

## 6. Assumptions made explicit

These are hypotheses or parameters of theorems about things outside the repository.

* go/parser and go/ast (C44): comments are sorted by position; the Godoc of a node is the last comment group above it; a comment
  at the end of a line is visited as a node. C20: `CommentGroup.Text` for ASCII.
* go/types: the type of every expression is given (C11, C38, C39); what a check of a package computes is a function of the
  package and its imports (C31), and reads only referenced imports' contents where a theorem says so (`only_refs`).
* the YAML encoder (C50): its text is whole lines, none of which is `---`, and decodes to the tree that was encoded (up to the order of keys).
* encoding/json: as documented (MarshalSpec.v, C38).
* Kubernetes: RBAC authorisation (RbacSpec.v), OpenAPI v3 structural schema validation (ValidSpec.v; regular expressions, formats,
  CEL are parameters), v1 admission webhook constraints (WebhookSpec.v).
* text/scanner (ScanModel.v): written from its source for the mode that is used; `strconv.ParseFloat`'s range check is a parameter.
* golang.org/x/tools/packages: visits exactly the reachable packages (C22); file systems: outcomes of calls are parameters (C23).
* Go memory model (C31, C49): accesses under the locks that the code takes are atomic, and so are reads and writes of slice headers; what
  data races may do beyond that is not modelled.

## 7. Findings

What the `_refuted` theorems say, and what was noticed on the way.

**rbac.** Marker values with `&` collide in keys, so that roles grant more than asked for (`rbac_no_escalation_unconditional_refuted`).
Rules that share a key after normalisation lose verbs or depend on map order (C02, C03).

**crd schemas.** `$ref` links break for import paths with `~` (C05). maxDescLen is no bound and may cut inside a character (C06).
Flattening allOf: exclusive bounds are merged wrongly, `nullable` is lost, mixed items (C08). A reference under allOf below items stays
(C09). A field that is inline and required is required without being a property (C11). Markers of equal priority depend on map order
(C13); a later marker silently replaces an earlier one (C36). Generated schemas reject bytes under a named type, nameless tags,
tagged unexported fields, large unsigned numbers and nil slices as encoded by encoding/json (C38). The generator panics on nameless
structs, predeclared interfaces, aliases of nameless types, and types of packages not imported directly (C39).

**crd assembly.** Several storage versions, duplicate versions, and label conflicts go unnoticed (C14); the order of versions,
errors with skipversion beside status, and resource markers that disagree depend on map order (C14, C40). Two CRDs may be written to
one file; errors do not prevent writing (C16).

**markers.** Longer prefixes are not found; a struct marker under its full name takes its last part for an argument; registering
twice overwrites (C17). Spaces before `-` or after strings change values, empty values and lists of maps are surprising, int32 wraps,
raw strings keep quotes (C18). Giving an argument twice is silent (C19). `+` lines in code blocks are dropped, markers in block comments
stay in descriptions (C20). Which package marker comes first (`MarkerValues.Get`) depends on map order if two types carry package
markers (C44). Also: within `type ( … )`, groups farther than the closest are lost; the Godoc of imports, variables and functions is not
searched for markers; a declaration inside a function body gives its closest group to the package; the order of the errors of
parseMarkersInPackage depends on map order.

**options and output.** An empty option panics (C21); writing is not atomic (C23). The help text of controller-gen says that
`controller-gen paths=./apis/...` runs all generators; the code reports an error.

**webhook.** Webhooks are sorted per package only; conflicting configuration names, duplicate names and bad failure policies are not
noticed (C24); timeouts wrap at 2^32 (C25).

**yaml.** Deleting removes one of several duplicate keys (C26); versions without a name and equal versions in several packages (C27).

**deepcopy.** A value method panics for nil values of map and slice types, DeepCopyInto for nil receivers, cycles run forever (C28).
Aliases may be empty, keywords or the receiver's name (C30). Five shapes of types give code that does not compile (C42), and types that
lead back to themselves through pointers make the generator run forever (C43). A slice, map or pointer
of a predeclared named type (`[]error`) makes the generator panic; `object:root=true` gives no DeepCopyObject if DeepCopy is written by
hand; a field of an unexported struct type with references gives code that calls a method nobody writes; named pointer types may get
methods, which Go does not allow; aliases depend on the order of types (C46). Types declared as aliases (`type A = B`) are never copied. Not
modelled but noticed: a field called DeepCopy makes hasDeepCopyMethod panic.

**loader.** `/vendor/vendor/` (C33). Positions of errors are replaced on aggregation (C34). IllTyped and the types seen of packages
imported but not referenced depend on the schedule; reference cycles deadlock (C31). Check's lock is per checker copy though the map is shared,
so that concurrent calls of Check race. With several loads of several roots an import of a root may be a copy (C32).
One import that is not found in any file (such as cgo's `import "C"`) hides all references of the package; a selector on a variable in an array
length (`[len(v.F)]int`) is reported as an unimported package; constraints of type parameters are not visited (C47). Modules in testdata and
vendor below a `...` root are loaded; a module root is loaded twice; `...` is known at the end of a path only, and `./foo...` is the name of a
directory (C48). AddError takes no lock but is called from the goroutines of NeedSyntax: errors of files may be lost if several files
cannot be parsed, and their order varies; the errors are reported again with every further call (C49). Each call of LoadRoots adds to the build flags of the configuration it is given.
A header file without an end of line at its end hides the first `---`: the header's last line and the separator become one line. `YEAR` is replaced after
a space only (C50). MarkersInPackage unlocks before parsing: two goroutines that ask for a package that is not parsed yet can lose its markers
for good (C51); wrong markers are reported twice per package (C52). The zero metav1.Time and MicroTime and an empty RawExtension are written as null, which their schemas do not accept (C53); the pattern of quantities has exponents such as 1e1.5, as the documented grammar does. The order of two markers of one name in a category of the help, as the validation markers are for types and fields, is left to sort.Slice after a range over a map; numbers and maps are shown with an empty type (C54). A package with a wrong marker gets no apply configurations and no error, for enabledOnPackage's error is dropped; kubebuilder:ac:generate on a type has no effect in a package that is not enabled, against its help (C55). controller-gen paths=./apis/..., in the examples as running all generators, fails as none is given; -wwwww prints nothing (C56). helpgen panics without a header file; it replaces " YEAR" by the year without a space ("Copyright2019" in the repository); two embedded fields in a marker type give a file that does not compile (C57). Markers that are misspelt, spaced ("MaxLength = 5") or on a wrong target are ignored without an error; "MaxLength:anything=5" is read as MaxLength=5; the webhookconfiguration marker is registered with the help of Config (pkg/webhook/parser.go:439) (C58). One wrong comment in a package, even of a marker of another generator that runs, and role.yaml is written without any rule of that package (pkg/rbac/parser.go:187-193 goes on after the error; so does pkg/webhook/parser.go:452-455); rules in the doc of a type are dropped without an error; two webhooks of one name above two types are written in an order that depends on map iteration (C59). A row of type definitions p.Root, p.Foo, q.Bar, q.Foo, each only a name for the next, leaves a dangling reference in the CRD without an error; ExclusiveMaximum on a field whose type is an alias with a Maximum changes the meaning of the bound of the alias (C60). CRDs are written even if making their schemas reported errors, and may then accept anything for the fields concerned (C61). The flag --namespaced of type-scaffold has no effect, and a resource with a line break in it is written as code (C62). The schema patcher does not check that a kind is a type of the package of each version, and panics if one is not (C63). One wrong comment anywhere in a package leaves out all its CRDs, and Generate returns no error; only the report on the package tells (C64). A single malformed marker comment anywhere in a package means that no zz_generated.deepcopy.go is written for it, though Generate returns nil (the error is on the package): `copies_spare_refuted`. An import alias is the last part of the path, even when that is a keyword of Go: for types of github.com/json-iterator/go the generated file does not parse (`text_keyword_refuted`). Help: columns are as wide as the bytes of their cells, so that they do not line up if a text is not ASCII (`pretty_characters_refuted`); with a MaxWidth a longer cell is followed at once by the next (`pretty_limit_refuted`), and a SkipRow in a table without other rows panics (`pretty_skip_refuted`) — neither is used in the repository. Five or more times -w (or -h) print no help at all, without an error (`levels_more_refuted`). An error of closing the output file is dropped; the deepcopy header uses the same replacement.

## 8. Wrong programs

`tools/seed.py` applies an edit to a model definition in a scratch copy, rebuilds, replaces every lemma that breaks by `Admitted` (in
the copy), and asks Print Assumptions which property theorems depended on a broken lemma. Edits may carry `also`: changes of lemmas that
merely repeat a definition, so that the break shows where the claim is proved. Theorems that survived an edit which falsifies the claim
were tightened; LOG.jsonl says which. A break is evidence, not proof, that the theorem became false: edits that turned out to be equivalent to the
original also break proof scripts, and are marked "(equivalent ...)" in the claim.
