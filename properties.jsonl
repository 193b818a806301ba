{"id": "C01", "title": "Generated roles never grant more than the rbac markers ask for", "statement": "For every request (namespace, API group, resource, resource name or none, verb) or non-resource request (URL, verb) that the generated ClusterRole/Roles authorise under the Kubernetes RBAC rules, some single +kubebuilder:rbac marker of that same namespace already authorises it (with 'core' read as the empty group), provided no marker component contains '&' or a space, no resource, resource name, verb or URL is the empty string, and markers with resources name at least one group. Without the first proviso the claim is false.", "quantifier": "all lists of markers, all requests, all map iteration orders", "why_tests_cant": "the merge runs over Go maps in random order and over arbitrary overlapping rule sets; a test sees a few rule sets and one order", "anchors": ["pkg/rbac/parser.go:GenerateRoles", "pkg/rbac/parser.go:Rule.key", "pkg/rbac/parser.go:Rule.normalize"]}
{"id": "C02", "title": "Generated roles grant everything the rbac markers ask for", "statement": "Every request that some marker authorises is authorised by the generated object of that marker's namespace. Holds for markers the API server would accept, without '&' or spaces, whenever any two markers of one namespace with the same resource names, a common resource and a common group have equal group sets, and any two with a common URL have equal URL sets; false in general (a rule can be overwritten and lost).", "quantifier": "all lists of markers, all requests, all map iteration orders", "why_tests_cant": "loss needs three markers with a particular overlap and can depend on the iteration order", "anchors": ["pkg/rbac/parser.go:GenerateRoles"]}
{"id": "C03", "title": "rbac output is a function of the markers, not of map iteration order", "statement": "Two runs over the same markers produce the same objects in the same order, whatever order the runtime iterates its maps in, under the overlap condition of C02; false in general.", "quantifier": "all lists of markers, all pairs of iteration orders", "why_tests_cant": "iteration orders cannot be enumerated by tests", "anchors": ["pkg/rbac/parser.go:GenerateRoles"]}
{"id": "C04", "title": "rbac objects: one per namespace, in order, right kind", "statement": "The generated objects have pairwise distinct namespaces in strictly increasing order; the object for the empty namespace is a ClusterRole without namespace and every other one is a Role carrying exactly that namespace; all carry the requested role name; a namespace has an object exactly if some marker names it; inside an object the rules' list fields are sorted without duplicates and a verb list containing '*' is exactly ['*'].", "quantifier": "all lists of markers, all map iteration orders", "why_tests_cant": "needs every marker list and every iteration order", "anchors": ["pkg/rbac/parser.go:GenerateRoles"]}
{"id": "C05", "title": "Schema references resolve back to the type they were made from", "statement": "Splitting the $ref link built for (type, package) yields exactly that type and package, for every package path and type name free of '~'; consequently links of distinct types are distinct. With '~' in the package path the round trip fails.", "quantifier": "all package paths and type names", "why_tests_cant": "paths are arbitrary strings; escaping bugs show only on particular characters", "anchors": ["pkg/crd/schema.go:TypeRefLink", "pkg/crd/schema.go:qualifiedName", "pkg/crd/flatten.go:RefParts", "pkg/crd/flatten.go:identFromRef"]}
{"id": "C06", "title": "maxDescLen truncation", "statement": "With a negative limit every schema is unchanged; with limit 0 no description remains anywhere in the schema; with limit n>0 every description that fits is unchanged, every other one becomes a prefix of itself possibly followed by '...' and has at most n+3 bytes. Nothing except descriptions changes. The result is not always within n bytes.", "quantifier": "all schemas, all descriptions (byte strings), all limits", "why_tests_cant": "recursion over arbitrary schema trees and byte strings", "anchors": ["pkg/crd/desc_visitor.go:TruncateDescription", "pkg/crd/desc_visitor.go:truncateString", "pkg/crd/schema_visitor.go:EditSchema"]}
{"id": "C07", "title": "Schema walking reaches every subschema exactly once and in the documented order", "statement": "EditSchema calls the visitor once on every schema node reachable through the child fields, parent before children, followed by one closing nil call, and a visitor that returns nil stops the descent at that node only.", "quantifier": "all schemas, all visitors", "why_tests_cant": "arbitrary trees", "anchors": ["pkg/crd/schema_visitor.go:EditSchema", "pkg/crd/schema_visitor.go:walkSchema"]}
{"id": "C08", "title": "allOf flattening preserves what a schema accepts", "statement": "For every schema without exclusive-bound flags, tuple items, patternProperties and additionalProperties: false, if FlattenEmbedded reports no type conflict and no node of its result has both properties and an additionalProperties schema, then every JSON value without null satisfies the result exactly if it satisfies the original; values that satisfied the original are never rejected by the result (unless allOf occurs below oneOf or not). The result does not depend on map order. Each condition is needed: bounds and their exclusive flags are merged separately, nullable is merged with or, and properties shadow additionalProperties.", "quantifier": "all schemas of the stated vocabulary, all JSON values, all map orders", "why_tests_cant": "equivalence over all JSON documents", "anchors": ["pkg/crd/flatten.go:FlattenEmbedded", "pkg/crd/flatten.go:flattenAllOfInto", "pkg/crd/flatten.go:allOfVisitor"]}
{"id": "C09", "title": "Flattened schemas contain no references and nothing mergeable under allOf", "statement": "When FlattenType is called on a type whose references lead to known types without cycles (and no alias chain repeats a link text), it reports no error and returns the schema with every reference replaced by the combination of type and field, the same whatever was flattened before and whatever the map orders, without any $ref. After FlattenEmbedded, members of a remaining allOf carry no nested allOf, type, properties, additionalProperties, required, validation rules or documentation. They can carry items, and an alias chain that repeats a link text across packages leaves a $ref behind.", "quantifier": "all type graphs without cycles, all schemas, all sequences of calls", "why_tests_cant": "needs all type graphs", "anchors": ["pkg/crd/flatten.go:Flattener.FlattenType", "pkg/crd/flatten.go:Flattener.FlattenSchema", "pkg/crd/flatten.go:flattenAllOfInto"]}
{"id": "C10", "title": "An inlined reference has the field's documentation over the type's, and the constraints of both", "statement": "At a field that refers to a type, the inlined schema has the field's title, description, example and external docs where set and the type's otherwise, through any number of aliases, and allOf flattening keeps them; a value satisfies the inlined schema exactly if it satisfies the field's own constraints and the type's schema.", "quantifier": "all type graphs without cycles, all field schemas, all JSON values", "why_tests_cant": "arbitrary pairs of schemas and all values", "anchors": ["pkg/crd/flatten.go:preserveFields", "pkg/crd/flatten.go:flattenVisitor"]}
{"id": "C11", "title": "required lists exactly the fields that must be present", "statement": "For a struct whose fields all have json tags, the property set of the schema is exactly the set of json names of fields that are neither '-' nor inline, and a name is in required exactly if the first applicable rule says so in this order: kubebuilder Optional, kubebuilder Required, k8s optional, k8s required, package default combined with omitempty. Inline fields go to allOf.", "quantifier": "all field lists, all marker combinations, all package defaults", "why_tests_cant": "combinatorial in markers, tags and package defaults", "anchors": ["pkg/crd/schema.go:structToSchema"]}
{"id": "C12", "title": "A validation marker is accepted exactly on the schemas it is for, and a rejected one leaves the schema untouched", "statement": "A validation or topology marker is accepted exactly if the schema's type (integer or number with whole bounds for integers, string or int-or-string, array, object, associative list) and the marker's value fit. If applying it reports an error then the schema is exactly what it was before; if it reports none then the value is stored under the marker's keyword and nothing else changed; rules and list map keys are appended.", "quantifier": "all markers, all values, all schemas", "why_tests_cant": "all combinations of marker values and schema states", "anchors": ["pkg/crd/markers/validation.go", "pkg/crd/markers/topology.go"]}
{"id": "C13", "title": "Marker application order does not depend on the map order", "statement": "For one type or field, applying the same set of markers yields the same schema and the same errors for every iteration order of the marker map and every sorting of markers by priority, provided no two different markers of equal priority set one keyword, and not both the type and the list type are set by markers; several rules or list map keys may come in different orders.", "quantifier": "all marker sets, all pairs of orders", "why_tests_cant": "iteration orders cannot be enumerated", "anchors": ["pkg/crd/schema.go:applyMarkers", "pkg/crd/markers/priority.go"]}
{"id": "C14", "title": "A CRD emitted without errors has a storage version and a served version", "statement": "The CRD NeedCRDFor stores for a kind has exactly the versions of the group's packages that define the kind and are not skipped, in the byte order of their names; there is none only if no version is left. If each version is in one package, each version holds exactly what the markers of its own package say (served, storage, deprecation, subresources, columns, selectable fields), and the only version is stored. A CRD without any stored or any served version is always reported, so one without errors has both; a marker that cannot be applied is reported on its package and nothing else is. It crashes exactly for a metadata marker with good annotations and a label without '='. (Several storage versions, and two packages of one version, go unnoticed; v10 comes before v2.)", "quantifier": "all package sets, all marker sets, all map iteration orders", "why_tests_cant": "all histories of packages/markers and orders", "anchors": ["pkg/crd/spec.go:Parser.NeedCRDFor", "pkg/crd/markers/crd.go"]}
{"id": "C15", "title": "CRD metadata name", "statement": "The name of the emitted CRD is <plural>.<group> for the final plural, even if a resource marker changed the plural after the default was computed. Names, scope, short names and categories are those of the resource markers if these agree and the defaults if there are none; annotations and labels are exactly those of the metadata markers.", "quantifier": "all kinds, all resource markers, all map iteration orders", "why_tests_cant": "marker orders", "anchors": ["pkg/crd/spec.go:Parser.NeedCRDFor", "pkg/crd/markers/crd.go:Resource.ApplyToCRD", "pkg/crd/markers/crd.go:Metadata.ApplyToCRD"]}
{"id": "C16", "title": "Distinct CRDs are written to distinct files", "statement": "The generator writes every CRD once per requested CRD version, each in the file of its group and plural; for CRDs of distinct (group, plural) with group names free of '_' those files are distinct (with several CRD versions, if plurals are free of '.'); without that hypothesis two CRDs can be written to the same file. What is written is the CRD with the attribution annotation and a top-level metadata schema that only says object. It fails only for a CRD version other than v1, before writing. (Errors do not stop the writing; a kind without versions is written as an empty CRD in _.yaml.)", "quantifier": "all pairs of CRDs", "why_tests_cant": "arbitrary names", "anchors": ["pkg/crd/gen.go:Generator.Generate", "pkg/crd/gen.go:FixTopLevelMetadata", "pkg/crd/conv.go:AsVersion"]}
{"id": "C17", "title": "Marker lookup finds the definition the user wrote", "statement": "For every registry and marker text, lookup returns the definition of the requested target whose name is the marker's full name (the text before the first '=') if one is registered; otherwise, if there are arguments, the one whose name is the full name without its last ':' part; otherwise none. The arguments handed to the parser start with that last part for definitions with named arguments and after the '=' for anonymous ones. The answer does not depend on the registration order unless two definitions share name and target. (Shorter prefixes are never tried.)", "quantifier": "all registries, all marker texts", "why_tests_cant": "arbitrary names and nesting", "anchors": ["pkg/markers/reg.go:Registry.Lookup", "pkg/markers/parse.go:splitMarker"]}
{"id": "C18", "title": "Marker arguments: printing then parsing gives the value back", "statement": "For every argument type (int, int32, float, bool, string, slice, map, any, pointer) and every text of the marker grammar for it (numbers, quoted, raw and bare strings, {a,b}, a;b, {k: v}, nested, with white space where it is allowed) the parser returns exactly the value the text denotes and consumes exactly that text; a text denotes one value; every value has a canonical text (printing then parsing gives it back); raw arguments are never truncated; parsing always terminates.", "quantifier": "all argument types, all values", "why_tests_cant": "recursive grammar over arbitrary strings", "anchors": ["pkg/markers/parse.go:Argument.Parse", "pkg/markers/parse.go:parseSlice", "pkg/markers/parse.go:parseMap", "pkg/markers/parse.go:parseString"]}
{"id": "C19", "title": "Strict marker parsing rejects missing and unknown arguments", "statement": "A successful parse of a marker with named arguments assigns every required argument, assigns only declared arguments, with values of their types, the last one given per argument; it fails if a required one is missing (strict) or an unknown one is present. The arguments of a marker are the exported fields of its struct, by tag or lower-camel name, optional iff tagged so or pointers.", "quantifier": "all definitions, all argument lists", "why_tests_cant": "all subsets and orders of arguments", "anchors": ["pkg/markers/parse.go:Definition.Parse", "pkg/markers/parse.go:Definition.loadFields"]}
{"id": "C20", "title": "Doc extraction never leaks markers and never loses prose", "statement": "The description taken from a Go comment is made of the lines of its non-marker comments, in order, with runs of blank lines squeezed to one: lines starting with TODO outside code blocks and everything from a '---' line outside code blocks are left out, and nothing else; a description made of line comments contains no marker line; plain prose is kept unchanged.", "quantifier": "all comments", "why_tests_cant": "arbitrary text", "anchors": ["pkg/markers/zip.go:extractDoc", "pkg/markers/collect.go:isMarkerComment"]}
{"id": "C21", "title": "Command line options: exactly the requested generators run, once each", "statement": "If option parsing succeeds, the generators configured are exactly the non-output, non-paths options, each given once; every output rule for a named generator refers to a requested generator; the last rule given for a generator (or default) wins; input paths are the concatenation of all paths options in order; an unknown option, duplicate generator or orphan output rule is an error.", "quantifier": "all option lists", "why_tests_cant": "arbitrary lists and orders", "anchors": ["pkg/genall/options.go:protoFromOptions", "pkg/genall/options.go:FromOptionsWithConfig"]}
{"id": "C22", "title": "Run reports failure exactly if something failed, and one failing generator does not stop the others", "statement": "Runtime.Run invokes every generator exactly once in order whatever the earlier ones returned, and returns true iff there are no generators, or a generator returned an error, or a package has a non-type-checking error.", "quantifier": "all generator lists and outcomes", "why_tests_cant": "all failure combinations", "anchors": ["pkg/genall/genall.go:Runtime.Run", "pkg/genall/genall.go:Generators"]}
{"id": "C23", "title": "Output routing", "statement": "Each generator's artifacts go to its own output rule if one is given and to the default otherwise; the artifacts rule sends package-less output to the config directory, code to the code override if given and otherwise next to the package's sources, and fails for a package without files.", "quantifier": "all rule sets, all packages, all generators", "why_tests_cant": "all combinations", "anchors": ["pkg/genall/output.go:OutputRules.ForGenerator", "pkg/genall/output.go:OutputArtifacts.Open"]}
{"id": "C24", "title": "Webhook manifests contain every configured webhook once, in the right object, sorted", "statement": "If generation succeeds at most one file is written; the mutating (validating) object contains, root package after root package, exactly the webhooks of the mutating (validating) markers of the package, each once, ordered by name with equal names keeping marker order; no object is emitted for an empty list. Each webhook is for exactly the requests its marker asks for. Generation is refused, with nothing written, exactly if some package has two configuration markers of one kind or some marker is unacceptable. (Sorting and conflict detection do not extend across packages.)", "quantifier": "all roots and marker lists", "why_tests_cant": "all lists and error positions", "anchors": ["pkg/webhook/parser.go:Generator.Generate", "pkg/webhook/parser.go:Config.ToMutatingWebhook", "pkg/webhook/parser.go:Config.ToValidatingWebhook"]}
{"id": "C25", "title": "Admission webhooks written out satisfy the v1 constraints", "statement": "Every webhook in a written configuration has side effects None or NoneOnDryRun, an allowed review version list, a client config with exactly one of URL and service, and a timeout between 1 and 30 equal to the one requested or absent if none was requested. The timeout part fails for requests outside the int32 range.", "quantifier": "all markers", "why_tests_cant": "integer wrap-around and all combinations", "anchors": ["pkg/webhook/parser.go:Generator.Generate", "pkg/webhook/parser.go:Config.timeoutSeconds", "pkg/webhook/parser.go:Config.sideEffects", "pkg/webhook/parser.go:Config.clientConfig"]}
{"id": "C26", "title": "YAML set/get/delete laws", "statement": "After setting a path in a YAML document, reading that path yields the new value and reading any path that diverges from it yields what it did before; after deleting a path reading it yields nothing and other paths are unchanged (for mappings without duplicate keys; only the first duplicate is removed). Nothing else in the document changes, key order is kept and new keys are appended. Setting fails exactly if reading fails; deleting an absent path succeeds without a change.", "quantifier": "all YAML trees, all paths", "why_tests_cant": "recursive documents", "anchors": ["pkg/schemapatcher/internal/yaml/nested.go", "pkg/schemapatcher/internal/yaml/set.go"]}
{"id": "C27", "title": "Schema patching touches only schemata", "statement": "Patching an existing CRD manifest leaves every field outside the version schemata and spec.validation exactly as it was, sets the schema of every listed version for which a new schema is known and removes the schema of the others. Versions keep their number and order, patching twice is patching once, every manifest read is written once and those without matching kinds are written unchanged. The result does not depend on map orders if no two packages share a group and version (it does otherwise). The patcher panics if a version entry has no name, and not otherwise.", "quantifier": "all manifests, all schema sets", "why_tests_cant": "arbitrary documents", "anchors": ["pkg/schemapatcher/gen.go:partialCRDSet.setVersionedSchemata", "pkg/schemapatcher/gen.go:Generator.Generate"]}
{"id": "C28", "title": "Generated DeepCopy yields an equal, fully independent value", "statement": "For every type made of basic types, structs, pointers, slices, string-keyed maps and named types, and every heap value of that type, running the generated DeepCopyInto gives a value structurally equal to the input, sharing no mutable memory with it, and leaves the input heap unchanged.", "quantifier": "all types of the fragment, all heap values", "why_tests_cant": "recursive types and heaps", "anchors": ["pkg/deepcopy/traverse.go:copyMethodMaker.genDeepCopyIntoBlock", "pkg/deepcopy/traverse.go:fineToShallowCopy"]}
{"id": "C29", "title": "Shallow copying is used only where it is a deep copy", "statement": "If the generator decides a type may be shallow-copied then a plain assignment of any value of the type shares no mutable memory with the original.", "quantifier": "all types, all values", "why_tests_cant": "recursive types", "anchors": ["pkg/deepcopy/traverse.go:fineToShallowCopy"]}
{"id": "C30", "title": "Import aliases in generated code are unambiguous", "statement": "Whatever sequence of package paths is requested, every request is answered; two requests get the same alias exactly if their paths name the same package (a path through a vendor directory names the vendored package), no alias equals the name of the package being generated, an alias is an identifier whenever the last part of the path is not all digits, and the import declarations written bind each package to its alias and no name twice.", "quantifier": "all request sequences of import paths", "why_tests_cant": "unbounded histories", "anchors": ["pkg/deepcopy/traverse.go:importsList.NeedImport"]}
{"id": "C31", "title": "Type checking covers exactly the referenced packages, dependencies first, under every schedule", "statement": "For every acyclic import graph and every interleaving of the goroutines, TypeChecker.Check returns (no deadlock, no endless schedule); exactly the packages reached by interesting references and not checked before are checked, each once and only after every package it references; their types do not depend on the schedule as far as they do not depend on imports that are not referenced; IllTyped is set if the package or a reference has errors and only if it or an import has. The same holds for any sequence of Check calls.", "quantifier": "all import DAGs, all schedules", "why_tests_cant": "schedules cannot be enumerated by tests", "anchors": ["pkg/loader/refs.go:TypeChecker.Check", "pkg/loader/refs.go:TypeChecker.check", "pkg/loader/loader.go:Package.NeedTypesInfo"]}
{"id": "C32", "title": "Root packages are shared", "statement": "The pass over the import graphs after loading returns, for every graph; afterwards each import is what it was or the root whose ID is its path; and if every root comes from its own call of packages.Load, or all from one, every import reachable from a root that names a root is that root's own instance, so that marker information is shared.", "quantifier": "all package graphs, all map iteration orders", "why_tests_cant": "all graphs", "anchors": ["pkg/loader/loader.go:visitImports", "pkg/loader/loader.go:LoadRootsWithConfig"]}
{"id": "C33", "title": "NonVendorPath", "statement": "The result contains no '/vendor/' and is the suffix of the input after an occurrence of '/vendor/', the last one unless occurrences overlap, and the input itself if there is none; applying it twice changes nothing.", "quantifier": "all paths", "why_tests_cant": "arbitrary strings", "anchors": ["pkg/loader/paths.go:NonVendorPath"]}
{"id": "C34", "title": "Error positions survive aggregation", "statement": "Attaching a node to an aggregated (possibly nested, wrapped or joined) error and reporting it reports every single error once, in order, with its text, at the node; an empty list becomes no error at all.", "quantifier": "all nested error lists", "why_tests_cant": "recursive lists", "anchors": ["pkg/loader/errors.go:ErrFromNode", "pkg/loader/errors.go:MaybeErrList"]}
{"id": "C35", "title": "A validation marker means what it says", "statement": "Where a marker is accepted and the schema had nothing under its keyword, the values the schema admits afterwards are exactly those admitted before that also satisfy the marker (bounds, lengths, patterns, enum, uniqueness, type, ...); documentation and merge markers change no admitted value; nullable adds null and changes nothing else.", "quantifier": "all markers, all schemas, all JSON values", "why_tests_cant": "schemas and values are unbounded", "anchors": ["pkg/crd/markers/validation.go", "pkg/crd/markers/topology.go"]}
{"id": "C36", "title": "No schema marker is dropped silently", "statement": "For every order, each schema marker of a type or field is either reported as an error or its value is in the resulting schema (for kubebuilder:validation:items markers in the schema of the items), provided no two markers set the same keyword; and nothing but the keywords of the markers changes.", "quantifier": "all marker sets, all schemas, all orders", "why_tests_cant": "marker combinations and orders cannot be enumerated", "anchors": ["pkg/crd/schema.go:applyMarkers"]}
{"id": "C37", "title": "NeedSchemaFor ends, and answers every reference once and for all", "statement": "For every set of declared types, overrides and requests, NeedSchemaFor terminates (also when types refer to each other); afterwards exactly the types reachable through requests and the overrides of their packages are in Schemata, each with the one schema its declaration gives; every reference in a stored schema is to a stored type or to one reported as unknown; errors are reported against the package of the type; and the order and number of requests make no difference.", "quantifier": "all type environments (cyclic ones included), all override tables, all request sequences", "why_tests_cant": "type graphs and request histories are unbounded; tests run a few packages in one order", "anchors": ["pkg/crd/parser.go:NeedSchemaFor", "pkg/crd/parser.go:NeedPackage", "pkg/crd/schema.go:requestSchema", "pkg/crd/known_types.go"]}
{"id": "C38", "title": "The schema of a type accepts what encoding/json writes for its values", "statement": "For every set of type declarations without schema markers whose fields are named and required as encoding/json has them, the JSON written for any value (without nil slices, maps and interfaces) is accepted by the generated schema of its type. Outside these conditions there are types whose values the schema rejects: bytes under another name, named fields with nameless tags, tagged unexported fields, large unsigned numbers, nil slices.", "quantifier": "all type declarations of the modelled grammar, all values", "why_tests_cant": "the claim relates all types and all values; tests compare golden schemas", "anchors": ["pkg/crd/schema.go:infoToSchema", "pkg/crd/schema.go:structToSchema", "pkg/crd/schema.go:typeToSchema", "pkg/crd/schema.go:builtinToType"]}
{"id": "C39", "title": "The declarations the schema generator crashes on", "statement": "For every type declaration, infoToSchema panics exactly if a field that counts (or the type itself, if no struct) has a type built with a nameless struct, a predeclared interface such as any or error, an alias of a nameless type, or a type of a package not imported directly; all other declarations give a schema and possibly errors.", "quantifier": "all type declarations of the modelled grammar", "why_tests_cant": "absence of panics is about all declarations; tests only have declarations that work", "anchors": ["pkg/crd/schema.go:structToSchema", "pkg/crd/schema.go:localNamedToSchema", "pkg/crd/schema.go:namedToSchema", "pkg/crd/schema.go:requestSchema"]}
{"id": "C40", "title": "A CRD does not depend on the iteration order of maps", "statement": "If each version is in one package, no type has skipversion beside a marker that needs its version, and the resource and metadata markers of a kind agree, then NeedCRDFor gives the same CRD (or none, or a crash), the same marker errors on the same packages and the same CRD errors for every iteration order of the packages and of the markers and every result of the unstable sort. Without agreeing resource markers the CRD itself differs from run to run, with skipversion beside status the errors do.", "quantifier": "all package and marker sets, all pairs of iteration orders", "why_tests_cant": "orders are chosen by the runtime", "anchors": ["pkg/crd/spec.go:Parser.NeedCRDFor", "pkg/crd/markers/crd.go"]}
{"id": "C41", "title": "The kinds are found, each once, in a fixed order", "statement": "FindKubeKinds returns exactly the (group, name) pairs of the types that embed both TypeMeta and ObjectMeta of metav1, each once, in an order that does not depend on the iteration order of maps as long as type names have no dot.", "quantifier": "all type sets, all iteration orders", "why_tests_cant": "orders are chosen by the runtime", "anchors": ["pkg/crd/gen.go:FindKubeKinds"]}
{"id": "C42", "title": "Generated DeepCopy code compiles", "statement": "For every package whose types avoid five named shapes, the body of every generated DeepCopyInto for which no error was reported passes Go's type checker: every operand, selector, index, assignment, conversion-free assignability and method call is well typed. For each of the five shapes there is a type whose code does not compile although no error is reported.", "quantifier": "all packages of types, all named types of the package", "why_tests_cant": "unboundedly many type shapes; tests compile a handful of fixtures", "anchors": ["pkg/deepcopy/traverse.go:copyMethodMaker.GenerateMethodsFor", "pkg/deepcopy/traverse.go:copyMethodMaker.genDeepCopyIntoBlock"]}
{"id": "C43", "title": "The deepcopy generator returns", "statement": "If no named type contains itself and none leads back to itself through pointers, elements and map values alone, generation returns for every type, with a result; if some named type without manual methods does lead back to itself that way, generation for it never returns.", "quantifier": "all packages of types", "why_tests_cant": "non-termination cannot be observed by a test", "anchors": ["pkg/deepcopy/traverse.go:copyMethodMaker.genDeepCopyIntoBlock", "pkg/deepcopy/traverse.go:fineToShallowCopy", "pkg/deepcopy/traverse.go:copyMethodMaker.resultWillBePointer"]}
{"id": "C44", "title": "Every marker comment is given to one node, the right one", "statement": "For every file: collecting its markers does not panic. A field gets the markers of the closest comment group above it, then of its Godoc; a type gets those of its unparenthesized declaration, then its own, less those known for packages only; the package gets its own in the order of the file, then the groups below everything, then what was moved away from types. No comment is given twice. A marker comment is given to some node exactly if its group is below everything, is the Godoc of a file, type, field or single type declaration, or stands at the top level or closest above a declaration, type or field. Values of a name come in the order of the comments, those of a package in the order of its files. With two types that markers are moved away from, the order of package values (and so which one MarkerValues.Get returns) depends on map iteration.", "quantifier": "all syntax trees with sorted comments, all registries, all iteration orders", "why_tests_cant": "positions of comments relative to nodes are unbounded; tests have a few fixtures and one iteration order per run", "anchors": ["pkg/markers/collect.go:Collector.associateFileMarkers", "pkg/markers/collect.go:markerSubVisitor.Visit", "pkg/markers/collect.go:Collector.parseMarkersInPackage", "pkg/markers/zip.go:PackageMarkers"]}
{"id": "C45", "title": "EachType calls back once for each type declared at the top level", "statement": "For every package: EachType calls back exactly once for each type spec of each top-level declaration, in the order of files and of the source, and for no type declared inside a function or in other files; the TypeInfo it is given has the name, the file and the declaration of that spec, its Godoc (that of the declaration if the spec has none and the declaration is unparenthesized), the markers collected for that spec, and the fields of a struct in order with their own names, tags, documentation and markers; embedded and multi-name fields included.", "quantifier": "all syntax trees, all marker tables", "why_tests_cant": "the nesting of declarations is unbounded", "anchors": ["pkg/markers/zip.go:EachType", "pkg/loader/visit.go:EachType", "pkg/loader/visit.go:typeVisitor.Visit"]}
{"id": "C46", "title": "The object generator writes the methods it is asked for", "statement": "For every package with markers of their declared types: every exported type that is asked for (by itself, else by its package or as an object) and that is not a basic or pointer type without methods gets those of DeepCopyInto and DeepCopy that are not written by hand, and DeepCopyObject if it is asked for and DeepCopy is not by hand; no other method is written; they are in the order of type names. There is a file exactly if some method is due. It imports exactly the packages that its code names, each once under a name of its own, and runtime.Object is named by the alias that is bound to its package. The order of types and of map iteration does not matter but for aliases. If every local type that needs methods is asked for and no error is reported, then the resulting package type-checks and its methods make deep copies (C28, C42). The generator ends without a panic unless a type is made of a predeclared named type: []error makes it panic. object:root gives no DeepCopyObject where DeepCopy is by hand; types with unexported parts give code that does not compile; named pointer types may get methods; aliases depend on the order of types.", "quantifier": "all packages of types, all marker values, all iteration orders", "why_tests_cant": "packages and their type graphs are unbounded; tests compare one golden file", "anchors": ["pkg/deepcopy/gen.go:ObjectGenCtx.generateForPackage", "pkg/deepcopy/gen.go:writeMethods", "pkg/deepcopy/gen.go:enabledOnType", "pkg/deepcopy/gen.go:enabledOnPackage", "pkg/deepcopy/gen.go:genObjectInterface", "pkg/deepcopy/traverse.go:shouldBeCopied", "pkg/deepcopy/traverse.go:copyMethodMaker.GenerateMethodsFor"]}
{"id": "C47", "title": "The packages checked with a package are those its types refer to", "statement": "For every package whose imports are all loaded: the references returned are exactly the packages dot-imported by one of its files and those that some x.Name in a type of a file is about, x being bound by the (last) import of that file with that name, as far as the filter of the generators lets one see; each is there once, whatever the iteration order of maps. A name x that no import of the file gives is reported. If an import of any file cannot be found, no reference at all is returned and one error is added. What the CRD generator and the object generator need (fields with a json tag, outside interface types; anything outside interface types) passes the common filter whichever other generators run.", "quantifier": "all packages, expressions, imports, filters and iteration orders", "why_tests_cant": "type expressions and sets of generators are unbounded", "anchors": ["pkg/loader/refs.go:allReferencedPackages", "pkg/loader/refs.go:mapImports", "pkg/loader/refs.go:referenceCollector.Visit", "pkg/crd/gen.go:filterTypesForCRDs", "pkg/deepcopy/gen.go:Generator.CheckFilter", "pkg/genall/genall.go:Generators.CheckFilters"]}
{"id": "C48", "title": "The roots are loaded where they are, each package once", "statement": "For every list of roots, directory of the configuration and working directory: if LoadRoots succeeds, the roots that are not file paths are loaded together from the configuration's directory; each file path is loaded from the directory it leads to, or, if its last element is ..., for all below that directory, and then so is every directory below such a root that has a go.mod file; there are no other loads (one without patterns if there are no roots). The result is the packages loaded, in that order, the first of each ID. It fails exactly if a load fails (no further load is made), a relative root has no known directory, or a directory cannot be walked. cfg.Dir is restored in every case. Modules in testdata and vendor directories below a root are loaded as well; a root with a go.mod is loaded twice; ... anywhere but at the end is taken as a name; a root such as ... counts as a path.", "quantifier": "all roots, file systems and results of packages.Load", "why_tests_cant": "paths and directory trees are unbounded; tests have four fixtures", "anchors": ["pkg/loader/loader.go:LoadRootsWithConfig"]}
{"id": "C49", "title": "The files of a package are parsed all or not at all; errors are kept unless goroutines interfere", "statement": "For every list of files, results of parsing and schedule of the goroutines, NeedSyntax returns, with all its goroutines ended. Then Syntax is the syntax trees of all files in the order of CompiledGoFiles, or nil if one cannot be parsed; before, it is nil. If Syntax was set nothing is done. Errors reported before are kept; the errors added belong to the files, none is added twice, and if there is one, one is added. If no two goroutines are adding at the same time (as with one bad file) all are added, those of a file in order; otherwise some may be lost, as AddError takes no lock. If all files can be parsed further calls do nothing; otherwise every call parses again and reports the same errors again.", "quantifier": "all files, parse results, initial Errors, capacities of slices, and interleavings of the goroutines; any number of calls", "why_tests_cant": "interleavings; a lost append shows only under some schedules", "anchors": ["pkg/loader/loader.go:Package.NeedSyntax", "pkg/loader/loader.go:Package.AddError"]}
{"id": "C50", "title": "A manifest has one document per object, with everything but what is removed on purpose", "statement": "For every list of objects and every header of whole lines without a line ---: if the file of CRDs (roles, webhook configurations) is written without error, it has first the lines of the header, then for each object, in order, one document, that decodes to the object's JSON without metadata.creationTimestamp and, for CRDs, without the top-level status, every other path being there with the same value (fields of that name deeper in the tree included); with the preserve-unknown-fields option spec.preserveUnknownFields has the given value and nothing else changes. It fails only if an object cannot be encoded or panics as its metadata is not a map. The header is the text of the file with every ' YEAR' replaced, from the left, and nothing else changed; if the year is one line the header has the same lines, comments remain comments, and no separator appears.", "quantifier": "all objects (JSON trees of any depth), transforms, headers, years", "why_tests_cant": "arbitrary trees and texts; a test compares fixed files", "anchors": ["pkg/genall/genall.go:yamlMarshal", "pkg/genall/genall.go:TransformRemoveCreationTimestamp", "pkg/crd/gen.go:transformRemoveCRDStatus", "pkg/crd/gen.go:transformPreserveUnknownFields", "pkg/genall/genall.go:GenerationContext.WriteYAML", "pkg/rbac/parser.go:Generator.Generate", "pkg/webhook/parser.go:Generator.Generate"]}
{"id": "C51", "title": "The markers of a package are collected once and found under its nodes, unless goroutines parse it at the same time", "statement": "MarkersInPackage returns after a bounded number of its own steps whatever other goroutines do. If calls do not overlap, all calls for a package give the same result: an error if a marker is wrong, otherwise for every node of pkg.Syntax exactly its values (none if the files cannot be parsed); the files are parsed at most once and, if the markers are right, the markers too. The same result is given under every interleaving if the package was parsed before. Under every interleaving what is found at a node belongs to it; but if two goroutines parse the package at the same time the markers may be lost, also for all later calls.", "quantifier": "all contents of packages, numbers of goroutines and calls, and interleavings", "why_tests_cant": "interleavings; the loss shows only under some schedules", "anchors": ["pkg/markers/collect.go:Collector.MarkersInPackage", "pkg/markers/zip.go:PackageMarkers", "pkg/markers/zip.go:EachType"]}
{"id": "C52", "title": "Each package is indexed once, and what the parser knows does not depend on the order of the requests", "statement": "For every list of NeedPackage calls: each package is entered once and type-checked at most once; Types has exactly the declared types (the last of a name) of those packages that are not marked kubebuilder:skip, whose markers are right, and that are not overridden by an override that does not add the package; GroupVersions has exactly their groups, with versionName or the package's name as version; Schemata has exactly what the override for the path without vendor directory sets. Orders and repetitions make no difference; a vendored copy has the same override. It panics if and only if a group or version marker of such a package is no string; wrong markers are reported twice.", "quantifier": "all packages, markers, overrides, and sequences of requests", "why_tests_cant": "histories: tests make few requests in one order", "anchors": ["pkg/crd/parser.go:Parser.indexTypes", "pkg/crd/parser.go:Parser.AddPackage", "pkg/crd/parser.go:Parser.NeedPackage", "pkg/crd/known_types.go:AddKnownTypes", "pkg/loader/paths.go:NonVendorPath"]}
{"id": "C53", "title": "The schemas of the known types accept exactly what their values are written as", "statement": "For every JSON value, with the schemas that AddKnownTypes sets: Quantity accepts integers and exactly the strings of the documented grammar of quantities (the pattern, read as a regular expression, is found in a string if and only if the grammar derives it); Time and MicroTime accept date-times; Duration strings; IntOrString integers and strings; RawExtension, Unstructured and Fields objects; JSON anything; ObjectMeta objects, with typed name, namespace, labels, annotations and finalizers if GenerateEmbeddedObjectMeta. This holds for vendored copies too. So whatever is written for their values, other than null, is accepted, and a generated schema whose fields have these types accepts what encoding/json writes. GenerateEmbeddedObjectMeta changes no other schema; overrides of other packages are kept.", "quantifier": "all JSON values, strings, types, vendor paths", "why_tests_cant": "an exact language of strings: a test of a pattern tries a few strings", "anchors": ["pkg/crd/known_types.go:KnownPackages", "pkg/crd/known_types.go:ObjectMetaPackages", "pkg/crd/known_types.go:AddKnownTypes", "pkg/loader/paths.go:NonVendorPath"]}
{"id": "C54", "title": "The help lists every marker that is registered once, in its category and in order", "statement": "For any sequence of registrations, any order of ranging over maps and whatever sort.Slice does to equals: ByCategory lists exactly the definitions in force (the last for each name and target), each once, in the category that its sort group gives it; the categories are sorted and not empty, the markers of a category are sorted by the sort group's Less, and each marker is listed with its target, its texts, and every argument once, by name, with its type, whether it is optional, and the text about the field of the Go type it sets. The options of controller-gen are sorted by generator, from the last, then by rule; the help of them is the same for every order of maps, and printed are the generators, the common options and the rules. The help of markers is the same for every order if no category has one name for two targets. To say a type never panics.", "quantifier": "all registrations, helps, orders of maps and of equals", "why_tests_cant": "map order and unstable sorting: a run shows one order", "anchors": ["pkg/genall/help/types.go:ByCategory", "pkg/genall/help/types.go:ForDefinition", "pkg/genall/help/types.go:ForArgument", "pkg/genall/help/types.go:TypeString", "pkg/genall/help/sort.go:SortByCategory", "pkg/genall/help/sort.go:SortByOption", "pkg/markers/reg.go:AllDefinitions", "pkg/markers/reg.go:HelpFor", "pkg/markers/help.go:FieldsHelp", "cmd/controller-gen/main.go:printMarkerDocs"]}
{"id": "C55", "title": "Apply configurations are generated for the packages and types that are marked, where the markers say", "statement": "For any roots, markers and failures: exactly the packages whose first kubebuilder:ac:generate marker is true and that have Go files are generated for, each once and in the order of the roots; a package that fails does not stop the others, and Generate returns an error if and only if one of them is not loaded or executed well. gengo is given a genclient comment for exactly the types whose own marker is true or that have none and are resources. The output directory and import path are those of the package joined with the output package of the marker (default applyconfiguration), and they are at the same place below the module if that stays within the module. Without a header file, an empty temporary one exists during all calls and is removed at the end, whatever fails.", "quantifier": "all roots, markers, results of gengo, paths", "why_tests_cant": "failures of single packages among others, and paths: tests use one package", "anchors": ["pkg/applyconfiguration/gen.go:Generate", "pkg/applyconfiguration/gen.go:generateForPackage", "pkg/applyconfiguration/gen.go:enabledOnPackage", "pkg/applyconfiguration/gen.go:enabledOnType", "pkg/applyconfiguration/gen.go:outputPkg"]}
{"id": "C56", "title": "controller-gen's exit code says whether everything was generated", "statement": "For all command lines and all results of loading, generators and packages: without the flags for help, version or markers, the exit code is 0 if and only if every option is known and well formed, no generator is given twice, every output rule is for a generator that is given, at least one generator is given, the roots of all paths are loaded with the build tags, every generator was called once, in order and with its own output rule, and returned no error, and no package that the roots reach has an error other than of types. If some of the generators fail the exit code is 1, the others have run, each error is printed in order, and the usage is not. If the options do not ask for a run no generator is called and the usage is printed. Help, version and -w load and write nothing; -w succeeds if and only if the options are accepted, and prints the markers of the generators given.", "quantifier": "all command lines, worlds, results of loading and of generators", "why_tests_cant": "any combination of failures over the whole program; tests call the parts", "anchors": ["cmd/controller-gen/main.go:main", "cmd/controller-gen/main.go:printMarkerDocs", "cmd/controller-gen/main.go:helpForLevels", "pkg/genall/options.go:FromOptionsWithConfig", "pkg/genall/genall.go:ForRootsWithConfig", "pkg/genall/genall.go:Run"]}
{"id": "C57", "title": "The Help methods that helpgen writes return what the godoc says", "statement": "For all packages whose marked types are declared as Go allows with at most one embedded field, all godoc, categories and headers of comments: the file that helpgen writes, read as Go with automatic semicolons and literals, has exactly one Help method per marked type, in order of names, whose value has the category of the first marker, the first line of the godoc without the type's name as summary, the other lines trimmed as details, and the same for every field; whatever characters the texts contain. So each argument of the marker is shown with the godoc of its field. The order of Go's maps does not matter. Every root without an error has its complete file, a root gets an error only if gofmt, opening or writing fails, and roots before a package that cannot be collected are done.", "quantifier": "all packages, types, godoc texts, headers, map orders and failures of gofmt, opening and writing", "why_tests_cant": "texts of any characters must survive quoting and reading back; tests compare one file", "anchors": ["cmd/helpgen/main.go:godocToDetails", "cmd/helpgen/main.go:Generate", "pkg/markers/help.go:FieldsHelp"]}
{"id": "C58", "title": "A marker comment has the value its text says, on the targets it is for", "statement": "For every set of generators, in any order: registering the markers never panics; the markers known are exactly those listed, each with its targets; adding a generator never changes a marker that was understood. For all lists of comments on a package, type or field: if each says something (a flag, one value, named arguments with the required ones, in the grammar of C18), then every marker has exactly its values, in order, of the Go type of the marker, with each field set by the argument of its name, and nothing is reported. Every value of the right size (any strings, lists, rules, webhooks) can be written. A comment that has no name of a marker known there is ignored. Whatever the comment, a value is one of the marker it names. A comment above a type but not in its doc is the package's exactly if its marker is one for packages only. A schema marker that is read is in the schema or reported.", "quantifier": "all sets of generators, all comments, targets, names, texts and values", "why_tests_cant": "the tables have over two hundred entries of 47 types; tests read a few of them", "anchors": ["pkg/crd/markers/register.go:AllDefinitions", "pkg/crd/markers/validation.go:ValidationMarkers", "pkg/rbac/parser.go:RuleDefinition", "pkg/webhook/parser.go:ConfigDefinition", "pkg/deepcopy/gen.go:RegisterMarkers", "pkg/markers/parse.go:Parse"]}
{"id": "C59", "title": "The roles and manifests are what the comments of the sources ask for", "statement": "For all packages of parsed files and all iteration orders of maps. If no error is reported: the roles allow a request exactly if some comment, at a place for the package (below everything; in the package's doc; above something at the top level but not in its doc; closest above a type or declaration but not in its doc), says a rule that allows it, for that namespace. With or without errors: they allow nothing that no comment asks for. The roles are the same objects whatever the iteration orders; the errors the same up to their order. Every webhook that such a comment asks for is in the manifests as asked, under the right kind, and there are no others. In general, the values of a marker that is for packages and not for types are exactly those its comments at these places say; such a comment is never dropped: it has a value, or the package an error. A field, and a type, has the values that the comments in its doc and in the closest group above it say, and no others; from there a schema marker is in the schema of the field, or reported. The collector never panics.", "quantifier": "all packages, files, comments, texts, sets of generators and iteration orders", "why_tests_cant": "it composes the collector, the registry, the marker parser and the generators; a test has one source and one output", "anchors": ["pkg/markers/collect.go:MarkersInPackage", "pkg/markers/collect.go:parseMarkersInPackage", "pkg/markers/zip.go:PackageMarkers", "pkg/rbac/parser.go:GenerateRoles", "pkg/webhook/parser.go:Generate"]}
{"id": "C60", "title": "The schema in a CRD accepts exactly the values of the Go type", "statement": "For every Go type that does not contain itself, with all types below it in whatever packages, all their markers and all iteration orders of maps: if generating and flattening its schema reports nothing, the schema accepts a JSON value without null exactly if it is a value of the type. What the values of a type are is said by the declarations and markers alone: a struct's value is an object with all required fields, each field's value a value of its type, and it is a value of each embedded struct; a list's, a map's by their elements; a named type's value is one of what it names; and every marker, on a field, on its items, on its type and on every type this is a name for, admits the value. No reference is left in the schema. If the schemas of all types needed can be made without error there is a schema. Neither iteration orders nor the limit for descriptions decide what is accepted.", "quantifier": "all type graphs without cycles, markers, iteration orders and JSON values without null", "why_tests_cant": "it composes the parser, the markers and the flattener, and is about all values; a test compares one generated CRD with a file", "anchors": ["pkg/crd/parser.go:NeedFlattenedSchemaFor", "pkg/crd/schema.go:infoToSchema", "pkg/crd/flatten.go:FlattenType", "pkg/crd/flatten.go:FlattenEmbedded", "pkg/crd/spec.go:NeedCRDFor"]}
{"id": "C61", "title": "The CRDs that are written accept exactly the values of the Go types", "statement": "For every set of packages, with their types, markers and groups, and all iteration orders of maps: if the CRD generator ends without an error and nothing is reported for a type, then each version of each CRD written is that of a package of the CRD's group that has the kind, and its schema accepts the values of the kind's Go type in that package (as C60 says what these are): all of them whose metadata is an object; and of the objects without metadata, or with the metadata of some value of the type, no others. Every version of a kind that is not skipped is in a CRD written.", "quantifier": "all type graphs without cycles, groups, versions, markers, iteration orders and JSON values without null", "why_tests_cant": "it composes the whole CRD generator, and is about all values; a test compares one CRD with a file", "anchors": ["pkg/crd/gen.go:Generate", "pkg/crd/gen.go:FixTopLevelMetadata", "pkg/crd/spec.go:NeedCRDFor", "pkg/crd/parser.go:NeedFlattenedSchemaFor"]}
{"id": "C62", "title": "type-scaffold declares the four types, and the help text stays in comments", "statement": "For every kind that is an identifier, every resource without a line break, every additional help text and both options: Scaffold succeeds and what it writes consists of the declarations of KindSpec, KindStatus, Kind and KindList with the documented comments, markers and fields and nothing else; the lines of the help text are comments in the first two. The command writes them if the kind is given and is in CamelCase, with the plural of the kind as resource unless one is given, and otherwise says which it was.", "quantifier": "all kinds, resources, help texts and options", "why_tests_cant": "the tests compare the output for two kinds; the help text is free text put into a template of Go code", "anchors": ["pkg/typescaffold/scaffold.go:Scaffold", "pkg/typescaffold/scaffold.go:Validate", "pkg/typescaffold/resource.go:Validate", "cmd/type-scaffold/main.go:main"]}
{"id": "C63", "title": "The schema patcher, from the sources and the directory to the files written", "statement": "For every set of sources, every directory and every order in which maps are visited: the schemapatch generator fails without writing if a .yaml file cannot be read or is a CRD of a version other than apiextensions.k8s.io/v1, and otherwise writes one file for each .yaml file that is a CRD, under its name, and no other. Such a file is written as it was if no package is the source of one of its versions. Otherwise its versions keep their number, order and all but their schemas, a version with a source gets a schema that accepts exactly the values of the Go type (for types in the class of C60, if no error was reported), a version without loses its schema, and everything outside spec.versions and spec.validation is as it was. Running it again on what it wrote, in place, writes the same.", "quantifier": "all sources, directories, manifests and orders", "why_tests_cant": "tests patch a few manifests from the fixtures; directories, documents and types are unbounded", "anchors": ["pkg/schemapatcher/gen.go:Generate", "pkg/schemapatcher/gen.go:crdsFromDirectory", "pkg/schemapatcher/gen.go:setVersionedSchemata"]}
{"id": "C64", "title": "The CRD generator, from the comments of the sources to the files written", "statement": "For every set of parsed sources and every order in which maps are visited. If a run reports nothing about types, then for each version of each CRD written there is a package with that group and version, and every value that the schema accepts obeys the comments of the package: whatever is anywhere in the value as a value of a declared type or field is as each validation marker in a comment at that type or field says, elements of lists are as the items markers say, and fields that a comment or the tag requires are there (for types in the class of C60). If moreover no comment is wrong, the group and version are those that the comments say, and the schema accepts exactly the values of the type by any reading of the comments. And every type that embeds TypeMeta and ObjectMeta, in a package with a group, is in a CRD with the version of the package, unless a comment says skipversion.", "quantifier": "all sources (files, comments, declarations), options and orders", "why_tests_cant": "tests run the generator on fixture packages and compare files; which comments a type or field has, and what values the schema then accepts, they cannot settle", "anchors": ["pkg/crd/gen.go:Generate", "pkg/crd/parser.go:indexTypes", "pkg/markers/zip.go:EachType", "pkg/markers/collect.go:MarkersInPackage", "pkg/crd/schema.go:infoToSchema"]}
{"id": "C65", "title": "Versions, names and metadata of the CRDs written are those that the comments say", "statement": "For every set of parsed sources without wrong comments and every order in which maps are visited. A CRD with versions is written only for a kind of which some type embeds TypeMeta and ObjectMeta, in a package with the CRD's group. Each version is that of a package and a type, and is as the comments at that type say: served unless unservedversion is said; stored if and only if it is the only version or storageversion is said; deprecated if and only if deprecatedversion is said, with the warning said; with a status subresource if and only if that is said, the scale said, exactly the printer columns and selectable fields said; and skipversion is not said. The names are the default ones if no comment says otherwise, and those of the resource marker if all that are said agree. Annotations and labels are those said, and the annotation with the version of the tool.", "quantifier": "all sources (files, comments, declarations), options and orders", "why_tests_cant": "tests compare the files of a few fixture packages; which markers reach which version under every order and every layout of comments they cannot settle", "anchors": ["pkg/crd/spec.go:NeedCRDFor", "pkg/crd/gen.go:FindKubeKinds", "pkg/crd/markers/crd.go:ApplyToCRD", "pkg/crd/parser.go:indexTypes"]}
{"id": "C66", "title": "The object generator writes the methods that the comments ask for, and no other file or method", "statement": "For every set of packages, layout of comments, header file and results of opening and writing, and every order in which maps are visited. Where comments of a package are right and agree: a type gets the missing ones among DeepCopy, DeepCopyInto and, if object:root or deepcopy-gen:interfaces is said at it, DeepCopyObject, if and only if it is exported, of a kind that can be copied, and wanted: by object:generate or deepcopy-gen at the type; or else by the package or as an object. A package has a file if and only if some type lacks a method; the file is zz_generated.deepcopy.go, once, with the build tag, the header with the year, the notice and the package's name. If comments ask for all types that need methods and there is no error, the package with the file copies deeply and compiles. A wrong comment in a package is an error of that package and no file for it, and does not matter to others; Generate fails exactly if the header cannot be read, and otherwise ends.", "quantifier": "all packages (comments, declarations, types), headers, outcomes of opening and writing, map orders", "why_tests_cant": "tests compare one generated file with a golden one; which comments reach which types under every layout, and what the file means, they cannot settle", "anchors": ["pkg/deepcopy/gen.go:Generate", "pkg/deepcopy/gen.go:generateForPackage", "pkg/deepcopy/gen.go:enabledOnPackage", "pkg/deepcopy/gen.go:enabledOnType", "pkg/deepcopy/gen.go:genObjectInterface", "pkg/deepcopy/gen.go:writeHeader", "pkg/deepcopy/gen.go:writeOut"]}
{"id": "C67", "title": "The text of zz_generated.deepcopy.go is Go, and says what the generator means: no line is lost, merged or misread", "statement": "For every set of declared types and markers, header that consists of comments, package name and layout of other packages: if the object generator makes a file for the package and reports no type without a name, and the types, fields and aliases are identifiers, then the text before formatting is read by Go's lexical rules (including the semicolons put in at the ends of lines) and grammar as one file, in one way only: the package clause, the import specs, and for each type, in order, the methods DeepCopyInto, DeepCopy and DeepCopyObject that are due, with the receivers, results and bodies that are the statements of the model (so that C28 and C66 are about the text). Each type of another package is called by the alias of an import of that package.", "quantifier": "all declarations, markers, headers, names, aliases; all nestings of pointers, slices, maps and structs", "why_tests_cant": "a golden file shows the text for one set of types; that braces, newlines, operators and selectors come out right for every nesting takes an induction over the generator against a parser", "anchors": ["pkg/deepcopy/traverse.go:GenerateMethodsFor", "pkg/deepcopy/traverse.go:genDeepCopyIntoBlock", "pkg/deepcopy/traverse.go:Syntax", "pkg/deepcopy/traverse.go:ImportSpecs", "pkg/deepcopy/traverse.go:Line", "pkg/deepcopy/gen.go:writeHeader", "pkg/deepcopy/gen.go:writeMethods"]}
{"id": "C68", "title": "The printed help says all that the documentation says, in columns that line up, with colours and without", "statement": "For every category and list of marker documentation, and both with and without colours, writing the help never panics, and what is seen of it is: at the first level a heading and a table with one row for each marker, in order: +name:field=<type>,field=<type> (optional fields in brackets, a field without a name at once after the marker), the target, what to use instead, the summary; at the second and third level each marker with its summary and fields, indented by tabs line by line, and at the third also all details. In every table (without a limit on the width) there is one place where each column begins in every row, and every cell is followed by at least the padding. A span is as long as VisualLength says.", "quantifier": "all documentation, all texts (also of several lines), all table shapes, all amounts of padding", "why_tests_cant": "a test compares one table; that columns line up for all cells, and that escape sequences change neither the widths nor the indentation, is a statement about all of them", "anchors": ["pkg/genall/help/pretty/help.go:MarkersSummary", "pkg/genall/help/pretty/help.go:MarkersDetails", "pkg/genall/help/pretty/help.go:MarkerSyntaxHelp", "pkg/genall/help/pretty/table.go:ColumnWidths", "pkg/genall/help/pretty/print.go:Table", "pkg/genall/help/pretty/print.go:writePadding", "pkg/genall/help/pretty/print.go:indented"]}
{"id": "C69", "title": "Every level of the help goes to the right place, and the JSON of the help says exactly what the documentation says", "statement": "For every registry and its help: at the fourth level (-wwww, -hhhh) the standard output is one JSON array and nothing else is printed; it has an object for each category in order (also for the one without a name), no object has two members of one name, and the documentation can be read from it in one way only: every marker with its name, target, texts, category, what to use instead and its fields with their types, so that different help is different JSON. At levels one to three nothing goes to the standard output, and what is seen on the standard error is the text of each category that has a name, in order, with colours and without. Every definition in force is in the JSON under its group, and at the third level its text is printed if its group has a name.", "quantifier": "all registries, help, orders of maps, levels", "why_tests_cant": "tools read this JSON; that embedded structs and omitempty lose nothing and make no member twice is a statement about all documentation", "anchors": ["cmd/controller-gen/main.go:helpForLevels", "pkg/genall/help/types.go:MarkerDoc", "pkg/genall/help/types.go:FieldHelp", "pkg/genall/help/types.go:CategoryDoc", "pkg/genall/help/types.go:ByCategory", "pkg/genall/help/pretty/help.go:MarkersDetails"]}
{"id": "C70", "title": "controller-gen -wwww lists exactly the markers that comments can use with the chosen generators, with exactly their arguments", "statement": "For every choice of generators, whatever help is registered and in whatever order maps are walked: the JSON of -wwww has an object with a name and a target exactly if one of the generators knows a marker of that name for that target, that is, exactly if a comment with the name alone is looked up as that marker there; and the fields of that object are exactly the arguments that the marker takes.", "quantifier": "all choices of generators, help, orders of maps, names, targets", "why_tests_cant": "tests look at some markers; that no marker of a generator is missing from its help, and none is listed that comments cannot use, is about all of them", "anchors": ["cmd/controller-gen/main.go:printMarkerDocs", "pkg/genall/options.go:RegistryFromOptions", "pkg/genall/help/types.go:ByCategory", "pkg/markers/reg.go:Lookup"]}
