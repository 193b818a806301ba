#!/usr/bin/env python3
"""Writes /verif/MANIFEST.json."""
import json, os
C = []
def c(prop, status, theorems, note=""):
    C.append(dict(property=prop, status=status, theorems=theorems, note=note))

c("C01", "proved", ["rbac_no_escalation", "rbac_no_escalation_unconditional_refuted"],
  "The second theorem shows the hypothesis on '&' is needed.")
c("C02", "proved", ["rbac_exact", "rbac_completeness_unconditional_refuted"],
  "Proved under the stated compatibility condition; the unconditional claim is refuted.")
c("C03", "proved", ["rbac_deterministic", "rbac_determinism_unconditional_refuted"],
  "Proved under the stated compatibility condition; the unconditional claim is refuted.")
c("C04", "proved", ["rbac_one_object_per_namespace", "rbac_object_shape"])
c("C05", "proved", ["ref_round_trip", "ref_links_distinct", "ref_resolves", "ref_round_trip_unconditional_refuted", "ref_links_distinct_unconditional_refuted"],
  "Round trip and injectivity for '~'-free names; refuted for import paths with '~' such as git.sr.ht/~user/repo.")
c("C06", "proved", ["desc_negative_limit", "desc_zero_limit", "desc_positive_limit", "desc_cut_at_sentence", "desc_cut_at_word", "desc_cut_hard", "desc_within_limit_refuted", "desc_idempotent_refuted", "desc_utf8_refuted"],
  "For every pair of rune predicates, every map order, every well-formed schema. The unwanted parts (limit not a bound, not idempotent, splits characters) are refutations.")
c("C07", "proved", ["walk_calls", "walk_visits_once", "walk_visits_all", "walk_edits"],
  "Any visitor that does not edit, with arbitrary state; editing visitors for keyword edits that leave $ref alone. Visitors that restructure nodes are not covered by the trace theorem.")
c("C08", "proved", ["flatten_deterministic", "flatten_equivalent", "flatten_accepts", "flatten_exclusive_refuted", "flatten_exclusive_rejects_refuted", "flatten_null_refuted", "flatten_mixed_refuted"],
  "Equivalence for all schemas and values under the stated conditions; each condition is shown to be needed by a refutation.")
c("C09", "proved", ["flatten_type_inlines", "flatten_types_independent", "flatten_remainders", "flatten_items_under_allOf_refuted", "flatten_alias_chain_refuted"],
  "References are assumed to be leaves (the generator produces no siblings of $ref with subschemas).")
c("C10", "proved", ["inline_docs", "flatten_docs", "inline_constraints"])
c("C26", "proved", ["yaml_get_finds", "yaml_set_succeeds", "yaml_set_get", "yaml_set_frame", "yaml_set_only", "yaml_set_idempotent", "yaml_set_present", "yaml_delete_get", "yaml_delete_frame", "yaml_delete_only", "yaml_delete_fails", "yaml_delete_duplicates_refuted"],
  "For all documents and paths. Alias nodes are not followed, as in the code.")
c("C27", "proved", ["patch_only_schemata", "patch_frame", "patch_validation_gone", "patch_version_schemata", "patch_idempotent", "patch_no_panic", "patch_nameless_version_refuted", "patcher_files", "patcher_deterministic", "patcher_same_version_refuted", "patcher_load"],
  "The YAML decoder and encoder, and ToYAML of a schema, are not modelled (any function from schemata to nodes).")
c("C24", "proved", ["webhook_manifest", "webhook_refused", "webhook_deterministic", "webhook_requests", "webhook_sorted_refuted", "webhook_config_conflict_refuted", "webhook_names_unique_refuted", "webhook_failure_policy_refuted"],
  "Exact contents of the manifests, exact refusal condition, and equivalence of the generated rules with the markers for every request. Refuted: sorting across packages, detection of conflicting configuration names, unique webhook names, failure policy validation.")
c("C25", "proved", ["webhook_v1_valid", "webhook_timeout", "webhook_timeout_range_refuted"],
  "The timeout is the requested one only within int32; the refutation shows 2^32+1 written as 1.")
c("C33", "proved", ["nonvendor_suffix", "nonvendor_last", "nonvendor_idempotent", "nonvendor_last_refuted"],
  "Holds except that for overlapping occurrences (/vendor/vendor/) the result is not what follows the last one; refutation and exact condition are proved.")
c("C34", "proved", ["error_leaves", "error_positions", "error_maybe_list", "error_inner_position_refuted", "error_wrapping_refuted", "error_kind_refuted"],
  "Stated on what Package.AddError reports; refuted: earlier positions, wrapping text and error kinds do not survive.")
c("C17", "proved", ["marker_lookup_plain", "marker_lookup_flat", "marker_lookup", "marker_forms", "marker_lookup_order", "marker_arguments", "marker_arguments_anonymous", "marker_arguments_none", "marker_longer_prefix_refuted", "marker_struct_full_name_refuted", "marker_registered_twice_refuted"],
  "Refuted: prefixes shorter than all but the last part; a struct marker addressed by its full name takes its own last part for an argument; duplicates overwrite.")
c("C21", "proved", ["options_accepted", "options_no_panic", "options_generators", "output_rule", "controller_gen_options", "controller_gen_rule_names", "options_empty_refuted"],
  "Argument parsing is a parameter here. An empty option panics.")
c("C22", "proved", ["run_calls", "run_calls_unique", "run_nothing"],
  "Generators are arbitrary functions of a shared world; packages.Visit is assumed to visit exactly the reachable packages.")
c("C23", "proved", ["output_rule", "output_destination", "output_open_fails", "write_yaml_content", "write_yaml_succeeds", "write_yaml_only", "write_yaml_atomic_refuted"],
  "filepath.Join and Dir and the outcome of file system calls are parameters. Writing is not atomic (refuted).")
c("C20", "proved", ["description_lines", "description_texts", "description_no_marker", "description_prose", "description_characters", "description_of_type", "description_code_block_refuted", "description_block_marker_refuted", "description_open_fence_refuted"],
  "go/ast CommentGroup.Text is modelled for ASCII. Refuted: '+' lines in code blocks are dropped; markers in block comments stay in the description; an unclosed fence keeps TODO lines.")
c("C18", "proved", ["marker_parse_ends", "marker_value_parsed", "marker_value_consumed", "marker_value_unique", "marker_value_written", "marker_round_trip", "marker_print_injective", "marker_raw", "marker_space_after_string_refuted", "marker_empty_value_refuted", "marker_space_before_minus_refuted", "marker_guess_refuted", "marker_list_in_map_refuted", "marker_empty_list_refuted", "marker_int32_refuted", "marker_raw_quote_refuted"],
  "Grammar in ParseSpec. text/scanner modelled on bytes (ScanModel); whether ParseFloat accepts a text is a parameter. Several texts outside the grammar are accepted with surprising values, see the _refuted theorems.")
c("C19", "proved", ["marker_fields_sound", "marker_fields_parsed", "marker_fields_missing", "marker_fields_unknown", "marker_fields_none", "marker_struct_arguments", "marker_struct_bad", "marker_argument_name", "marker_argument_name_default", "marker_argument_optional", "marker_argument_type", "marker_any_definition", "marker_twice_refuted", "marker_trailing_space_refuted"],
  "Markers with their own ParseMarker are not modelled. Duplicates overwrite silently.")
c("C12", "proved", ["marker_accepted", "marker_rejected", "marker_stored", "marker_appended", "marker_default"],
  "All 29 kinds of marker values of validation.go and topology.go. Numbers are rationals (every float64 a marker can hold is one).")
c("C13", "proved", ["marker_order", "marker_order_exact", "marker_type_list_type_refuted", "marker_map_struct_type_refuted", "marker_rule_order_refuted"],
  "For every map order and every result sort.Slice may give. Without the hypotheses it is false: Type and listType have the same priority though listType looks at the type; mapType and structType set one keyword; several rules keep their order only if the sort is stable (sort.Slice is for at most 12 markers).")
c("C35", "proved", ["marker_meaning", "marker_meaning_nullable", "marker_override_refuted"],
  "Against the validation semantics of ValidSpec; regular expressions, formats, CEL, divisibility and JSON equality are parameters there.")
c("C36", "proved", ["marker_not_lost", "markers_only", "marker_stomped_refuted"],
  "If several markers set one keyword the earlier is lost silently (stomped).")
c("C11", "proved", ["field_role", "struct_schema", "required_names", "property_names", "required_declared", "inline_required_refuted", "tag_without_name_refuted", "same_name_refuted", "pointer_markers_refuted"],
  "The schema is exactly what the fields contribute, each by its one role. That every required name is a property needs that no inline field is marked required; refuted otherwise.")
c("C37", "proved", ["schema_requests_end", "schema_requests_panic", "schema_requests_result", "schema_requests_errors", "schema_refs_answered", "schema_requests_order"],
  "Package loading and type checking are given; overrides are tables of schemas (known_types.go), no override requests other types in the model.")
c("C38", "proved", ["encoded_accepted", "encoded_bytes_refuted", "encoded_nameless_refuted", "encoded_unexported_refuted", "encoded_unsigned_refuted", "encoded_nil_refuted"],
  "encoding/json as documented, without nil values, interfaces, MarshalJSON and shadowed fields.")
c("C39", "proved", ["struct_crash", "type_crash", "no_crash_refuted"],
  "Exact characterisation for types without marshalling methods.")
c("C14", "proved", ["crd_versions", "crd_none", "crd_version_contents", "crd_checks", "crd_without_errors", "crd_marker_errors", "crd_panics", "crd_one_storage_refuted", "crd_distinct_versions_refuted", "crd_version_order_refuted", "crd_labels_refuted"],
  "Against CrdSpec: the versions kept, version_spec from the markers of the package. The schema of each version is an oracle here (C05-C12 are about it). The refuted theorems show what goes unnoticed.")
c("C15", "proved", ["crd_name", "crd_names", "crd_names_from", "crd_metadata"],
  "Pluralisation and lower-casing are oracles.")
c("C16", "proved", ["files_written", "files_failed", "files_distinct", "files_distinct_versions", "files_distinct_refuted", "files_empty_refuted", "files_errors_refuted"],
  "Writing is the list of (file, CRD) handed to WriteYAML; the header and YAML transforms are not modelled here.")
c("C40", "proved", ["crd_any_order", "crd_skip_status_refuted", "crd_resources_refuted"], "")
c("C41", "proved", ["kinds_found"], "The embedded metav1 types of each type are given (go/types is not modelled).")
c("C28", "proved", ["deep_copy_into_correct", "deep_copy_ptr_correct", "deep_copy_ptr_nil", "deep_copy_val_correct", "copy_independent", "deep_copy_nil_value_refuted", "deep_copy_into_nil_refuted", "deep_copy_cycle_refuted"],
  "Against a heap semantics of the generated statements (DeepSpec). Sharing between parts of the value is allowed, cycles are not (refuted). The record `program` excludes shapes for which the code does not compile, does not return or panics; these are refuted separately here and under C42, C43.")
c("C29", "proved", ["shallow_copy_is_deep", "shallow_refused"], "")
c("C42", "proved", ["generated_code_checks", "checker_identity", "generated_code_checks_refuted"],
  "Typing rules of the fragment in DeepTypes.v; 'declared and not used' is not modelled.")
c("C43", "proved", ["generator_returns", "generator_runs_forever", "generator_returns_refuted"], "")
c("C30", "proved", ["imports_answered", "aliases_unambiguous", "alias_not_root", "alias_identifier", "specs_bind_aliases", "alias_identifier_refuted", "alias_usable_refuted", "alias_name_refuted"],
  "Refuted: an alias may be empty (path ending in digits), a keyword, the blank identifier or the receiver's name.")
c("C31", "proved", ["check_ends", "check_exactly", "check_order", "check_types", "outcome_unique", "check_ill", "checks_in_turn", "check_deterministic_refuted", "check_cycle_refuted"],
  "Refuted: IllTyped, and what a package sees of an import it does not reference, depend on the schedule; with a reference cycle Check may deadlock.")
c("C32", "proved", ["visit_returns", "visit_sound_all", "roots_shared", "roots_shared_one_load", "roots_shared_refuted", "roots_shared_order_refuted"],
  "Refuted when one of several loads has several roots: an import may be missed, depending on the order of map iteration.")
c("C44","proved",["collect_returns","field_markers","type_markers","package_markers","nodes_visited", "top_level", "only_these","collected_once","collected_iff","order_independent","values_in_order","package_in_order","package_order_refuted"],
  "Syntax trees keep identity, kind, Pos, End, Doc and Comment of nodes; well_formed states what go/parser guarantees. package_order_refuted: with two types, map iteration decides.")
c("C45","proved",["types_visited","visited_iff","infos_given","fields_given"],
  "Syntax trees keep files, general declarations, type specs and other nodes; go_file states what go/parser guarantees. Markers are given by node (C44), documentation by extractDoc (C20).")
c("C46","proved",["methods_given","methods_only","methods_sorted","file_written","imports_exact","unknown_reported","generated_program","generated_package","order_irrelevant","generator_ends","predeclared_panics_refuted","root_gets_object_refuted","all_code_compiles_refuted","no_pointer_methods_refuted","imports_by_order_refuted"],
  "On top of C28, C30, C42, C43. Code is statements, not text; gofmt is a parameter.")
c("C47","proved",["refs_exact","unimported_reported","missing_import","generators_keep_refs","nodes_seen","crd_sees","object_sees"],
  "Expressions are trees of nodes; which types a file has is C45.")
c("C48","proved",["loads_exact","result_exact","ids_once","errors_exact","no_roots","dir_restored","testdata_skipped_refuted","calls_once_refuted","dots_anywhere_refuted","dot_names_refuted"],
  "Paths as on Unix, without symbolic links. The working directory has no part called ... or go.mod; WalkDir gives cleaned paths.")
c("C49","proved",["syntax_bounded","syntax_returns","syntax_exact","syntax_late","syntax_kept","errors_sound","exclusive_complete","one_file","no_errors","again_same","again_reported","again_grows","syntax_errors_kept_refuted","syntax_errors_order_refuted","syntax_errors_once_refuted"],
  "Interleavings of reads and writes of slice headers, slice elements and the WaitGroup; Go promises less for data races.")
c("C50","proved",["crd_transforms_exact","other_transforms_exact","header_exact","header_lines","crd_file","other_file","file_written","year_everywhere_refuted","header_end_refuted","preserve_set_refuted"],
  "json.Marshal and the YAML encoder are oracles: the encoder's text is assumed to be whole lines without a line ---, and to decode to the same tree.")
c("C51","proved",["call_returns","nothing_invented","in_turn_right","parsed_right","markers_concurrent_refuted","markers_lost_for_good_refuted","errors_once_refuted"],
  "One package; what its markers are is given (C44). NeedSyntax parses in one step here; C49 has its goroutines.")
c("C52","proved",["index_exact","index_any_order","index_again","vendored_override","all_types_known_refuted","add_first_refuted","version_alone_refuted"],
  "Overrides of the form of those in known_types.go; PackageMarkers and EachType are given (C44, C45).")
c("C53","proved",["quantity_pattern_exact","known_exact","known_accepted","known_encoded","embedded_only_meta","known_types_added","known_null_refuted"],
  "Refuted: the zero Time and MicroTime and an empty RawExtension are written as null, which their schemas reject. Regular expressions: the syntax without counted repetitions, negated classes and escapes of letters; validation is assumed to use them as specified for the pattern of quantities.")
c("C54","proved",["help_complete","help_stable","both_strict_weak","options_order","options_group","markers_category","printed_exact","markers_stable","options_stable","options_printed","types_total","types_shown_refuted","markers_stable_refuted","markers_printed_refuted"],
  "Refuted: which of two markers with one name in a category comes first is left to sort.Slice (the validation markers are registered for types and fields); numbers and maps have an empty type name; markers without help or category are not printed below level 4. The layout of the text and the JSON are not modelled.")
c("C55","proved",["apply_runs","apply_errors","apply_called","apply_generate","output_in_module","apply_wrong_marker_refuted","apply_type_alone_refuted","apply_type_disabled_refuted","apply_genclient_once_refuted","output_in_module_refuted","apply_temp_left_refuted"],
  "Refuted: a package with a wrong marker is skipped without an error; the type marker does not enable a type in a package that is not enabled, although its help says so, nor disable a type with a genclient comment; such a comment is added a second time; an output package out of the module has another import path than its place; the temporary header stays if closing it fails. gengo and applyconfiguration-gen are oracles.")
c("C56","proved",["main_success","main_run","main_refused","main_informs","main_markers","main_bad_flags","main_all_generators_refuted","main_level_refuted","main_options_checked_refuted","main_type_errors_refuted"],
  "Composes C21, C22 and C23. Refuted: the usage's example that runs all generators without naming one fails; more than four -w print nothing; --version and -h do not look at the options; errors of types do not count. cobra's parsing of flags is given; writing to the terminal does not fail.")
c("C57","proved",["helpgen_roots","helpgen_done","helpgen_unread","helpgen_stable","godoc_unique","godoc_exists","helpgen_arguments","helpgen_header_refuted","helpgen_year_refuted","helpgen_embedded_refuted","helpgen_unformatted_refuted"],
  "gofmt is assumed to keep the meaning of a file. Refuted: the header is optional (without it helpgen panics); YEAR becomes the year (the space before it goes too, as in the repository's own files); a type with two embedded fields (its file has a duplicate key); a file that gofmt refuses is not written. What EachType finds is C45.")
c("C58","proved",["marker_tables_start","marker_known","marker_generator_added","marker_generator_order","marker_comments_read","marker_comment_collected","marker_comment_ignored","marker_value_sound","marker_writable","marker_moved","marker_comment_applied","marker_typo_refuted","marker_extra_part_refuted","marker_default_ref_refuted","marker_other_generator_refuted"],
  "ParseFloat and json.Unmarshal are oracles. Texts for raw arguments (k8s:deepcopy-gen) are not in the grammar. Refuted: unknown markers are reported (a misspelt name, a space before the '=' or a marker on a wrong target is ignored without an error); a name with one part too many is an error (the part is dropped); +default=ref(...) gives a default (it is read as none).")
c("C59","proved",["source_result","source_package_complete","source_package_sound","source_package_exact","source_not_dropped","source_roles_return","source_roles_no_escalation","source_roles_exact","source_roles_deterministic","source_webhooks_complete","source_webhooks_sound","source_field_complete","source_field_sound","source_field_applied","source_type_complete","source_type_sound","source_error_drops_refuted","source_godoc_refuted","source_webhook_order_refuted"],
  "The hypotheses on rules are those of C01 and C02. The exact statements are for comments with the marker's name that are in the grammar of C18. Refuted: an error concerns only its own comment (one wrong comment, even of another generator's marker, and none of the package's rules are in the roles, which are written all the same); a rule in the doc of a type is used or reported (it is dropped); the manifests do not depend on iteration orders (two webhooks of one name, each above a type).")
c("C60","proved",["emit_values","emit_no_refs","emit_returns","emit_deterministic","emit_values_exclusive_refuted","emit_no_refs_chain_refuted"],
  "Conditions, each stated on types and markers (the record tame): no type contains itself; no tilde in package paths or names; no two types of one name in a chain of types each of which is only a name for the next (refuted without: a reference is left in the CRD); one marker for each keyword and no exclusive bounds (refuted without: an exclusive bound on a field makes the bound of its alias exclusive); fields of one struct have different names; schemas that are set have no references. The schema has no node with both properties and a schema for others. Values without null. What a single marker admits is that of C35; schemas that are set are taken as they are.")
c("C61","proved",["run_values","run_complete","run_reported_refuted"],
  "The conditions on types and markers are those of C60 (tame, unmixed), those on groups and versions those of C14 (no version in two packages of a group; each kind of marker under one name). Refuted: CRDs are written only if nothing was reported (a field of type complex64: the error is reported, the CRD that is written accepts anything for the field).")
c("C62","proved",["scaffold_declares","scaffold_help_inert","scaffold_command","scaffold_namespaced_refuted","scaffold_resource_line_refuted"],
  "The output is read back by a reader of comment groups and struct types (ScaffoldSpec). Refuted: --namespaced has an effect on what the command writes (it has none, since clients cannot be asked for); the command writes only the four types (a resource with a line break in it is accepted and declares what it likes).")
c("C63","proved",["patcher_unsupported","patcher_written","patcher_values","patcher_again","patcher_crash","patcher_missing_kind_refuted"],
  "C27 (patching of documents) and C60 (the schema of a type) put together with the reading of the directory. Refuted: the patcher ends normally for every directory (it panics if a manifest lists a version whose package has no type of that name; the CRD generator leaves such packages out).")
c("C64","proved",["origin_enforced","origin_groups","origin_values","origin_complete","origin_error_refuted"],
  "C44 and C58 (comments to markers) put together with C60 and C61 (types and markers to CRDs). Refuted: a wrong comment has no effect on other kinds (one comment that cannot be parsed and the package is left out: none of its CRDs is written and Generate returns no error; the error is reported on the package).")
c("C65","proved",["origin_versions","origin_kinds","origin_names","origin_metadata"],
  "C14, C15 and C41 (CRDs from markers) put together with C44 and C58 (markers from comments). The order of columns and selectable fields is by C14 that of the marker set; said does not speak of order.")
c("C66","proved",["copies_written","copies_only","copies_file","copies_unknown","copies_program","copies_compile","copies_files","copies_error","copies_end","copies_failed","copies_spare_refuted"],
  "C28, C45 and the object generator of one package put together with C44 and C58 (markers from comments), over all roots and with the file. The printed text of method bodies and gofmt are not modelled; bodies are as in C28. copies_spare_refuted: one wrong comment takes away the file of its whole package while Generate returns no error.")
c("C67","proved",["text_unique","text_file","text_imports","text_keyword_refuted"],
  "The lines are modelled as the generator writes them; a lexer and a parser for the part of Go in use are the specification (TextSpec). What gofmt makes of the text is not modelled. That aliases are identifiers is a hypothesis, and needed: text_keyword_refuted, the alias of github.com/json-iterator/go is the keyword go.")
c("C68","proved",["pretty_summary","pretty_details","pretty_help","pretty_width","pretty_table","pretty_columns","pretty_indent","pretty_newlines","pretty_characters_refuted","pretty_limit_refuted","pretty_skip_refuted","pretty_colours_refuted"],
  "For the details no name of a field may begin with a newline (with colours the line that holds only the escape sequence would be indented: pretty_colours_refuted). Refuted: columns line up in characters and not only in bytes; a limit on the width keeps columns apart; SkipRow works in a table of its own.")
c("C69","proved",["levels_json","levels_lossless","levels_text","levels_complete","levels_more_refuted"],
  "Composes C54 and C68. JSON is a value here, not a text. For the texts no name of a field may begin with a newline. Refuted: any number of -w prints help; five or more print nothing.")
c("C70","proved",["which_listed","which_usable","which_fields"],
  "Composes the tables of the generators (TablesModel), the registry, C54 and C69. which_usable is for names without an equals sign, which is where the registry ends a name. The options that name the generators are not read again here.")
#END

here = os.path.dirname(os.path.abspath(__file__))
props = [json.loads(l)["id"] for l in open(os.path.join(here, "..", "properties.jsonl"))]
done = {x["property"] for x in C}
for i in props:
    if i not in done:
        C.append(dict(property=i, status="partial", theorems=[], note="not proved yet"))
C.sort(key=lambda x: x["property"])
with open(os.path.join(here, "..", "MANIFEST.json"), "w") as f:
    json.dump({"claims": C}, f, indent=1)
    f.write("\n")
