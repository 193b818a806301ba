C01 RbacProps.rbac_no_escalation: Closed under the global context
C01 RbacProps.rbac_no_escalation_unconditional_refuted: Closed under the global context
C02 RbacProps.rbac_exact: Closed under the global context
C02 RbacProps.rbac_completeness_unconditional_refuted: Closed under the global context
C03 RbacProps.rbac_deterministic: Closed under the global context
C03 RbacProps.rbac_determinism_unconditional_refuted: Closed under the global context
C04 RbacProps.rbac_one_object_per_namespace: Closed under the global context
C04 RbacProps.rbac_object_shape: Closed under the global context
C05 RefProps.ref_round_trip: Closed under the global context
C05 RefProps.ref_links_distinct: Closed under the global context
C05 RefProps.ref_resolves: Closed under the global context
C05 RefProps.ref_round_trip_unconditional_refuted: Closed under the global context
C05 RefProps.ref_links_distinct_unconditional_refuted: Closed under the global context
C06 DescProps.desc_negative_limit: Closed under the global context
C06 DescProps.desc_zero_limit: Closed under the global context
C06 DescProps.desc_positive_limit: Closed under the global context
C06 DescProps.desc_cut_at_sentence: Closed under the global context
C06 DescProps.desc_cut_at_word: Closed under the global context
C06 DescProps.desc_cut_hard: Closed under the global context
C06 DescProps.desc_within_limit_refuted: Closed under the global context
C06 DescProps.desc_idempotent_refuted: Closed under the global context
C06 DescProps.desc_utf8_refuted: Closed under the global context
C07 WalkProps.walk_calls: Closed under the global context
C07 WalkProps.walk_visits_once: Closed under the global context
C07 WalkProps.walk_visits_all: Closed under the global context
C07 WalkProps.walk_edits: Closed under the global context
C08 FlattenProps.flatten_deterministic: Closed under the global context
C08 FlattenProps.flatten_equivalent: Closed under the global context
C08 FlattenProps.flatten_accepts: Closed under the global context
C08 FlattenProps.flatten_exclusive_refuted: Closed under the global context
C08 FlattenProps.flatten_exclusive_rejects_refuted: Closed under the global context
C08 FlattenProps.flatten_null_refuted: Closed under the global context
C08 FlattenProps.flatten_mixed_refuted: Closed under the global context
C09 FlattenProps.flatten_type_inlines: Closed under the global context
C09 FlattenProps.flatten_types_independent: Closed under the global context
C09 FlattenProps.flatten_remainders: Closed under the global context
C09 FlattenProps.flatten_items_under_allOf_refuted: Closed under the global context
C09 FlattenProps.flatten_alias_chain_refuted: Closed under the global context
C10 FlattenProps.inline_docs: Closed under the global context
C10 FlattenProps.flatten_docs: Closed under the global context
C10 FlattenProps.inline_constraints: Closed under the global context
C11 StructProps.field_role: Closed under the global context
C11 StructProps.struct_schema: Closed under the global context
C11 StructProps.required_names: Closed under the global context
C11 StructProps.property_names: Closed under the global context
C11 StructProps.required_declared: Closed under the global context
C11 StructProps.inline_required_refuted: Closed under the global context
C11 StructProps.tag_without_name_refuted: Closed under the global context
C11 StructProps.same_name_refuted: Closed under the global context
C11 StructProps.pointer_markers_refuted: Closed under the global context
C12 MarkProps.marker_accepted: Closed under the global context
C12 MarkProps.marker_rejected: Closed under the global context
C12 MarkProps.marker_stored: Closed under the global context
C12 MarkProps.marker_appended: Closed under the global context
C12 MarkProps.marker_default: Closed under the global context
C13 MarkProps.marker_order: Closed under the global context
C13 MarkProps.marker_order_exact: Closed under the global context
C13 MarkProps.marker_type_list_type_refuted: Closed under the global context
C13 MarkProps.marker_map_struct_type_refuted: Closed under the global context
C13 MarkProps.marker_rule_order_refuted: Closed under the global context
C14 CrdProps.crd_versions: Closed under the global context
C14 CrdProps.crd_none: Closed under the global context
C14 CrdProps.crd_version_contents: Closed under the global context
C14 CrdProps.crd_checks: Closed under the global context
C14 CrdProps.crd_without_errors: Closed under the global context
C14 CrdProps.crd_marker_errors: Closed under the global context
C14 CrdProps.crd_panics: Closed under the global context
C14 CrdProps.crd_one_storage_refuted: Closed under the global context
C14 CrdProps.crd_distinct_versions_refuted: Closed under the global context
C14 CrdProps.crd_version_order_refuted: Closed under the global context
C14 CrdProps.crd_labels_refuted: Closed under the global context
C15 CrdProps.crd_name: Closed under the global context
C15 CrdProps.crd_names: Closed under the global context
C15 CrdProps.crd_names_from: Closed under the global context
C15 CrdProps.crd_metadata: Closed under the global context
C16 CrdProps.files_written: Closed under the global context
C16 CrdProps.files_failed: Closed under the global context
C16 CrdProps.files_distinct: Closed under the global context
C16 CrdProps.files_distinct_versions: Closed under the global context
C16 CrdProps.files_distinct_refuted: Closed under the global context
C16 CrdProps.files_empty_refuted: Closed under the global context
C16 CrdProps.files_errors_refuted: Closed under the global context
C17 RegistryProps.marker_lookup_plain: Closed under the global context
C17 RegistryProps.marker_lookup_flat: Closed under the global context
C17 RegistryProps.marker_lookup: Closed under the global context
C17 RegistryProps.marker_forms: Closed under the global context
C17 RegistryProps.marker_lookup_order: Closed under the global context
C17 RegistryProps.marker_arguments: Closed under the global context
C17 RegistryProps.marker_arguments_anonymous: Closed under the global context
C17 RegistryProps.marker_arguments_none: Closed under the global context
C17 RegistryProps.marker_longer_prefix_refuted: Closed under the global context
C17 RegistryProps.marker_struct_full_name_refuted: Closed under the global context
C17 RegistryProps.marker_registered_twice_refuted: Closed under the global context
C18 ParseProps.marker_parse_ends: Closed under the global context
C18 ParseProps.marker_value_parsed: Closed under the global context
C18 ParseProps.marker_value_consumed: Closed under the global context
C18 ParseProps.marker_value_unique: Closed under the global context
C18 ParseProps.marker_value_written: Closed under the global context
C18 ParseProps.marker_round_trip: Closed under the global context
C18 ParseProps.marker_print_injective: Closed under the global context
C18 ParseProps.marker_raw: Closed under the global context
C18 ParseProps.marker_space_after_string_refuted: Closed under the global context
C18 ParseProps.marker_empty_value_refuted: Closed under the global context
C18 ParseProps.marker_space_before_minus_refuted: Closed under the global context
C18 ParseProps.marker_guess_refuted: Closed under the global context
C18 ParseProps.marker_list_in_map_refuted: Closed under the global context
C18 ParseProps.marker_empty_list_refuted: Closed under the global context
C18 ParseProps.marker_int32_refuted: Closed under the global context
C18 ParseProps.marker_raw_quote_refuted: Closed under the global context
C19 ParseProps.marker_fields_sound: Closed under the global context
C19 ParseProps.marker_fields_parsed: Closed under the global context
C19 ParseProps.marker_fields_missing: Closed under the global context
C19 ParseProps.marker_fields_unknown: Closed under the global context
C19 ParseProps.marker_fields_none: Closed under the global context
C19 ParseProps.marker_struct_arguments: Closed under the global context
C19 ParseProps.marker_struct_bad: Closed under the global context
C19 ParseProps.marker_argument_name: Closed under the global context
C19 ParseProps.marker_argument_name_default: Closed under the global context
C19 ParseProps.marker_argument_optional: Closed under the global context
C19 ParseProps.marker_argument_type: Closed under the global context
C19 ParseProps.marker_any_definition: Closed under the global context
C19 ParseProps.marker_twice_refuted: Closed under the global context
C19 ParseProps.marker_trailing_space_refuted: Closed under the global context
C20 DocProps.description_lines: Closed under the global context
C20 DocProps.description_texts: Closed under the global context
C20 DocProps.description_no_marker: Closed under the global context
C20 DocProps.description_prose: Closed under the global context
C20 DocProps.description_characters: Closed under the global context
C20 DocProps.description_of_type: Closed under the global context
C20 DocProps.description_code_block_refuted: Closed under the global context
C20 DocProps.description_block_marker_refuted: Closed under the global context
C20 DocProps.description_open_fence_refuted: Closed under the global context
C21 GenallProps.options_accepted: Closed under the global context
C21 GenallProps.options_no_panic: Closed under the global context
C21 GenallProps.options_generators: Closed under the global context
C21 GenallProps.output_rule: Closed under the global context
C21 GenallProps.controller_gen_options: Closed under the global context
C21 GenallProps.controller_gen_rule_names: Closed under the global context
C21 GenallProps.options_empty_refuted: Closed under the global context
C22 GenallProps.run_calls: Closed under the global context
C22 GenallProps.run_calls_unique: Closed under the global context
C22 GenallProps.run_nothing: Closed under the global context
C23 GenallProps.output_rule: Closed under the global context
C23 GenallProps.output_destination: Closed under the global context
C23 GenallProps.output_open_fails: Closed under the global context
C23 GenallProps.write_yaml_content: Closed under the global context
C23 GenallProps.write_yaml_succeeds: Closed under the global context
C23 GenallProps.write_yaml_only: Closed under the global context
C23 GenallProps.write_yaml_atomic_refuted: Closed under the global context
C24 WebhookProps.webhook_manifest: Closed under the global context
C24 WebhookProps.webhook_refused: Closed under the global context
C24 WebhookProps.webhook_deterministic: Closed under the global context
C24 WebhookProps.webhook_requests: Closed under the global context
C24 WebhookProps.webhook_sorted_refuted: Closed under the global context
C24 WebhookProps.webhook_config_conflict_refuted: Closed under the global context
C24 WebhookProps.webhook_names_unique_refuted: Closed under the global context
C24 WebhookProps.webhook_failure_policy_refuted: Closed under the global context
C25 WebhookProps.webhook_v1_valid: Closed under the global context
C25 WebhookProps.webhook_timeout: Closed under the global context
C25 WebhookProps.webhook_timeout_range_refuted: Closed under the global context
C26 YamlProps.yaml_get_finds: Closed under the global context
C26 YamlProps.yaml_set_succeeds: Closed under the global context
C26 YamlProps.yaml_set_get: Closed under the global context
C26 YamlProps.yaml_set_frame: Closed under the global context
C26 YamlProps.yaml_set_only: Closed under the global context
C26 YamlProps.yaml_set_idempotent: Closed under the global context
C26 YamlProps.yaml_set_present: Closed under the global context
C26 YamlProps.yaml_delete_get: Closed under the global context
C26 YamlProps.yaml_delete_frame: Closed under the global context
C26 YamlProps.yaml_delete_only: Closed under the global context
C26 YamlProps.yaml_delete_fails: Closed under the global context
C26 YamlProps.yaml_delete_duplicates_refuted: Closed under the global context
C27 YamlProps.patch_only_schemata: Closed under the global context
C27 YamlProps.patch_frame: Closed under the global context
C27 YamlProps.patch_validation_gone: Closed under the global context
C27 YamlProps.patch_version_schemata: Closed under the global context
C27 YamlProps.patch_idempotent: Closed under the global context
C27 YamlProps.patch_no_panic: Closed under the global context
C27 YamlProps.patch_nameless_version_refuted: Closed under the global context
C27 YamlProps.patcher_files: Closed under the global context
C27 YamlProps.patcher_deterministic: Closed under the global context
C27 YamlProps.patcher_same_version_refuted: Closed under the global context
C27 YamlProps.patcher_load: Closed under the global context
C28 DeepProps.deep_copy_into_correct: Closed under the global context
C28 DeepProps.deep_copy_ptr_correct: Closed under the global context
C28 DeepProps.deep_copy_ptr_nil: Closed under the global context
C28 DeepProps.deep_copy_val_correct: Closed under the global context
C28 DeepProps.copy_independent: Closed under the global context
C28 DeepTypesProps.deep_copy_nil_value_refuted: Closed under the global context
C28 DeepTypesProps.deep_copy_into_nil_refuted: Closed under the global context
C28 DeepTypesProps.deep_copy_cycle_refuted: Closed under the global context
C29 DeepProps.shallow_copy_is_deep: Closed under the global context
C29 DeepProps.shallow_refused: Closed under the global context
C30 ImportProps.imports_answered: Closed under the global context
C30 ImportProps.aliases_unambiguous: Closed under the global context
C30 ImportProps.alias_not_root: Closed under the global context
C30 ImportProps.alias_identifier: Closed under the global context
C30 ImportProps.specs_bind_aliases: Closed under the global context
C30 ImportProps.alias_identifier_refuted: Closed under the global context
C30 ImportProps.alias_usable_refuted: Closed under the global context
C30 ImportProps.alias_name_refuted: Closed under the global context
C31 CheckProps.check_ends: Closed under the global context
C31 CheckProps.check_exactly: Closed under the global context
C31 CheckProps.check_order: Closed under the global context
C31 CheckProps.check_types: Closed under the global context
C31 CheckProps.outcome_unique: Closed under the global context
C31 CheckProps.check_ill: Closed under the global context
C31 CheckProps.checks_in_turn: Closed under the global context
C31 CheckProps.check_deterministic_refuted: Closed under the global context
C31 CheckProps.check_cycle_refuted: Closed under the global context
C32 LoadProps.visit_returns: Closed under the global context
C32 LoadProps.visit_sound_all: Closed under the global context
C32 LoadProps.roots_shared: Closed under the global context
C32 LoadProps.roots_shared_one_load: Closed under the global context
C32 LoadProps.roots_shared_refuted: Closed under the global context
C32 LoadProps.roots_shared_order_refuted: Closed under the global context
C33 ErrorsProps.nonvendor_suffix: Closed under the global context
C33 ErrorsProps.nonvendor_last: Closed under the global context
C33 ErrorsProps.nonvendor_idempotent: Closed under the global context
C33 ErrorsProps.nonvendor_last_refuted: Closed under the global context
C34 ErrorsProps.error_leaves: Closed under the global context
C34 ErrorsProps.error_positions: Closed under the global context
C34 ErrorsProps.error_maybe_list: Closed under the global context
C34 ErrorsProps.error_inner_position_refuted: Closed under the global context
C34 ErrorsProps.error_wrapping_refuted: Closed under the global context
C34 ErrorsProps.error_kind_refuted: Closed under the global context
C35 MarkProps.marker_meaning: Closed under the global context
C35 MarkProps.marker_meaning_nullable: Closed under the global context
C35 MarkProps.marker_override_refuted: Closed under the global context
C36 MarkProps.marker_not_lost: Closed under the global context
C36 MarkProps.markers_only: Closed under the global context
C36 MarkProps.marker_stomped_refuted: Closed under the global context
C37 NeedProps.schema_requests_end: Closed under the global context
C37 NeedProps.schema_requests_panic: Closed under the global context
C37 NeedProps.schema_requests_result: Closed under the global context
C37 NeedProps.schema_requests_errors: Closed under the global context
C37 NeedProps.schema_refs_answered: Closed under the global context
C37 NeedProps.schema_requests_order: Closed under the global context
C38 MarshalProps.encoded_accepted: Closed under the global context
C38 MarshalProps.encoded_bytes_refuted: Closed under the global context
C38 MarshalProps.encoded_nameless_refuted: Closed under the global context
C38 MarshalProps.encoded_unexported_refuted: Closed under the global context
C38 MarshalProps.encoded_unsigned_refuted: Closed under the global context
C38 MarshalProps.encoded_nil_refuted: Closed under the global context
C39 StructProps.struct_crash: Closed under the global context
C39 StructProps.type_crash: Closed under the global context
C39 StructProps.no_crash_refuted: Closed under the global context
C40 CrdProps.crd_any_order: Closed under the global context
C40 CrdProps.crd_skip_status_refuted: Closed under the global context
C40 CrdProps.crd_resources_refuted: Closed under the global context
C41 CrdProps.kinds_found: Closed under the global context
C42 DeepTypesProps.generated_code_checks: Closed under the global context
C42 DeepTypesProps.checker_identity: Closed under the global context
C42 DeepTypesProps.generated_code_checks_refuted: Closed under the global context
C43 DeepTypesProps.generator_returns: Closed under the global context
C43 DeepTypesProps.generator_runs_forever: Closed under the global context
C43 DeepTypesProps.generator_returns_refuted: Closed under the global context
C44 CollectProps.collect_returns: Closed under the global context
C44 CollectProps.field_markers: Closed under the global context
C44 CollectProps.type_markers: Closed under the global context
C44 CollectProps.package_markers: Closed under the global context
C44 CollectProps.nodes_visited: Closed under the global context
C44 CollectProps.top_level: Closed under the global context
C44 CollectProps.only_these: Closed under the global context
C44 CollectProps.collected_once: Closed under the global context
C44 CollectProps.collected_iff: Closed under the global context
C44 CollectProps.order_independent: Closed under the global context
C44 CollectProps.values_in_order: Closed under the global context
C44 CollectProps.package_in_order: Closed under the global context
C44 CollectProps.package_order_refuted: Closed under the global context
C45 VisitProps.types_visited: Closed under the global context
C45 VisitProps.visited_iff: Closed under the global context
C45 VisitProps.infos_given: Closed under the global context
C45 VisitProps.fields_given: Closed under the global context
C46 ObjectProps.methods_given: Closed under the global context
C46 ObjectProps.methods_only: Closed under the global context
C46 ObjectProps.methods_sorted: Closed under the global context
C46 ManifestProps.file_written: Closed under the global context
C46 ObjectProps.file_written: Closed under the global context
C46 ObjectProps.imports_exact: Closed under the global context
C46 ObjectProps.unknown_reported: Closed under the global context
C46 ObjectProps.generated_program: Closed under the global context
C46 ObjectProps.generated_package: Closed under the global context
C46 ObjectProps.order_irrelevant: Closed under the global context
C46 ObjectProps.generator_ends: Closed under the global context
C46 ObjectProps.predeclared_panics_refuted: Closed under the global context
C46 ObjectProps.root_gets_object_refuted: Closed under the global context
C46 ObjectProps.all_code_compiles_refuted: Closed under the global context
C46 ObjectProps.no_pointer_methods_refuted: Closed under the global context
C46 ObjectProps.imports_by_order_refuted: Closed under the global context
C47 RefsProps.refs_exact: Closed under the global context
C47 RefsProps.unimported_reported: Closed under the global context
C47 RefsProps.missing_import: Closed under the global context
C47 RefsProps.generators_keep_refs: Closed under the global context
C47 RefsProps.nodes_seen: Closed under the global context
C47 RefsProps.crd_sees: Closed under the global context
C47 RefsProps.object_sees: Closed under the global context
C48 RootsProps.loads_exact: Closed under the global context
C48 RootsProps.result_exact: Closed under the global context
C48 RootsProps.ids_once: Closed under the global context
C48 RootsProps.errors_exact: Closed under the global context
C48 RootsProps.no_roots: Closed under the global context
C48 RootsProps.dir_restored: Closed under the global context
C48 RootsProps.testdata_skipped_refuted: Closed under the global context
C48 RootsProps.calls_once_refuted: Closed under the global context
C48 RootsProps.dots_anywhere_refuted: Closed under the global context
C48 RootsProps.dot_names_refuted: Closed under the global context
C49 SyntaxProps.syntax_bounded: Closed under the global context
C49 SyntaxProps.syntax_returns: Closed under the global context
C49 SyntaxProps.syntax_exact: Closed under the global context
C49 SyntaxProps.syntax_late: Closed under the global context
C49 SyntaxProps.syntax_kept: Closed under the global context
C49 SyntaxProps.errors_sound: Closed under the global context
C49 SyntaxProps.exclusive_complete: Closed under the global context
C49 SyntaxProps.one_file: Closed under the global context
C49 SyntaxProps.no_errors: Closed under the global context
C49 SyntaxProps.again_same: Closed under the global context
C49 SyntaxProps.again_reported: Closed under the global context
C49 SyntaxProps.again_grows: Closed under the global context
C49 SyntaxProps.syntax_errors_kept_refuted: Closed under the global context
C49 SyntaxProps.syntax_errors_order_refuted: Closed under the global context
C49 SyntaxProps.syntax_errors_once_refuted: Closed under the global context
C50 ManifestProps.crd_transforms_exact: Closed under the global context
C50 ManifestProps.other_transforms_exact: Closed under the global context
C50 ManifestProps.header_exact: Closed under the global context
C50 ManifestProps.header_lines: Closed under the global context
C50 ManifestProps.crd_file: Closed under the global context
C50 ManifestProps.other_file: Closed under the global context
C50 ManifestProps.file_written: Closed under the global context
C50 ObjectProps.file_written: Closed under the global context
C50 ManifestProps.year_everywhere_refuted: Closed under the global context
C50 ManifestProps.header_end_refuted: Closed under the global context
C50 ManifestProps.preserve_set_refuted: Closed under the global context
C51 CacheProps.call_returns: Closed under the global context
C51 CacheProps.nothing_invented: Closed under the global context
C51 CacheProps.in_turn_right: Closed under the global context
C51 CacheProps.parsed_right: Closed under the global context
C51 CacheProps.markers_concurrent_refuted: Closed under the global context
C51 CacheProps.markers_lost_for_good_refuted: Closed under the global context
C51 CacheProps.errors_once_refuted: Closed under the global context
C52 IndexProps.index_exact: Closed under the global context
C52 IndexProps.index_any_order: Closed under the global context
C52 IndexProps.index_again: Closed under the global context
C52 IndexProps.vendored_override: Closed under the global context
C52 IndexProps.all_types_known_refuted: Closed under the global context
C52 IndexProps.add_first_refuted: Closed under the global context
C52 IndexProps.version_alone_refuted: Closed under the global context
C53 KnownProps.quantity_pattern_exact: Closed under the global context
C53 KnownProps.known_exact: Closed under the global context
C53 KnownProps.known_accepted: Closed under the global context
C53 KnownProps.known_encoded: Closed under the global context
C53 KnownProps.embedded_only_meta: Closed under the global context
C53 KnownProps.known_types_added: Closed under the global context
C53 KnownProps.known_null_refuted: Closed under the global context
C54 HelpProps.help_complete: Closed under the global context
C54 HelpProps.help_stable: Closed under the global context
C54 HelpProps.both_strict_weak: Closed under the global context
C54 HelpProps.options_order: Closed under the global context
C54 HelpProps.options_group: Closed under the global context
C54 HelpProps.markers_category: Closed under the global context
C54 HelpProps.printed_exact: Closed under the global context
C54 HelpProps.markers_stable: Closed under the global context
C54 HelpProps.options_stable: Closed under the global context
C54 HelpProps.options_printed: Closed under the global context
C54 HelpProps.types_total: Closed under the global context
C54 HelpProps.types_shown_refuted: Closed under the global context
C54 HelpProps.markers_stable_refuted: Closed under the global context
C54 HelpProps.markers_printed_refuted: Closed under the global context
C55 ApplyProps.apply_runs: Closed under the global context
C55 ApplyProps.apply_errors: Closed under the global context
C55 ApplyProps.apply_called: Closed under the global context
C55 ApplyProps.apply_generate: Closed under the global context
C55 ApplyProps.output_in_module: Closed under the global context
C55 ApplyProps.apply_wrong_marker_refuted: Closed under the global context
C55 ApplyProps.apply_type_alone_refuted: Closed under the global context
C55 ApplyProps.apply_type_disabled_refuted: Closed under the global context
C55 ApplyProps.apply_genclient_once_refuted: Closed under the global context
C55 ApplyProps.output_in_module_refuted: Closed under the global context
C55 ApplyProps.apply_temp_left_refuted: Closed under the global context
C56 MainProps.main_success: Closed under the global context
C56 MainProps.main_run: Closed under the global context
C56 MainProps.main_refused: Closed under the global context
C56 MainProps.main_informs: Closed under the global context
C56 MainProps.main_markers: Closed under the global context
C56 MainProps.main_bad_flags: Closed under the global context
C56 MainProps.main_all_generators_refuted: Closed under the global context
C56 MainProps.main_level_refuted: Closed under the global context
C56 MainProps.main_options_checked_refuted: Closed under the global context
C56 MainProps.main_type_errors_refuted: Closed under the global context
C57 HelpgenProps.helpgen_roots: Closed under the global context
C57 HelpgenProps.helpgen_done: Closed under the global context
C57 HelpgenProps.helpgen_unread: Closed under the global context
C57 HelpgenProps.helpgen_stable: Closed under the global context
C57 HelpgenProps.godoc_unique: Closed under the global context
C57 HelpgenProps.godoc_exists: Closed under the global context
C57 HelpgenProps.helpgen_arguments: Closed under the global context
C57 HelpgenProps.helpgen_header_refuted: Closed under the global context
C57 HelpgenProps.helpgen_year_refuted: Closed under the global context
C57 HelpgenProps.helpgen_embedded_refuted: Closed under the global context
C57 HelpgenProps.helpgen_unformatted_refuted: Closed under the global context
C58 TablesProps.marker_tables_start: Closed under the global context
C58 TablesProps.marker_known: Closed under the global context
C58 TablesProps.marker_generator_added: Closed under the global context
C58 TablesProps.marker_generator_order: Closed under the global context
C58 TablesProps.marker_comments_read: Closed under the global context
C58 TablesProps.marker_comment_collected: Closed under the global context
C58 TablesProps.marker_comment_ignored: Closed under the global context
C58 TablesProps.marker_value_sound: Closed under the global context
C58 TablesProps.marker_writable: Closed under the global context
C58 TablesProps.marker_moved: Closed under the global context
C58 TablesProps.marker_comment_applied: Closed under the global context
C58 TablesProps.marker_typo_refuted: Closed under the global context
C58 TablesProps.marker_extra_part_refuted: Closed under the global context
C58 TablesProps.marker_default_ref_refuted: Closed under the global context
C58 TablesProps.marker_other_generator_refuted: Closed under the global context
C59 SourceProps.source_result: Closed under the global context
C59 SourceProps.source_package_complete: Closed under the global context
C59 SourceProps.source_package_sound: Closed under the global context
C59 SourceProps.source_package_exact: Closed under the global context
C59 SourceProps.source_not_dropped: Closed under the global context
C59 SourceProps.source_roles_return: Closed under the global context
C59 SourceProps.source_roles_no_escalation: Closed under the global context
C59 SourceProps.source_roles_exact: Closed under the global context
C59 SourceProps.source_roles_deterministic: Closed under the global context
C59 SourceProps.source_webhooks_complete: Closed under the global context
C59 SourceProps.source_webhooks_sound: Closed under the global context
C59 SourceProps.source_field_complete: Closed under the global context
C59 SourceProps.source_field_sound: Closed under the global context
C59 SourceProps.source_field_applied: Closed under the global context
C59 SourceProps.source_type_complete: Closed under the global context
C59 SourceProps.source_type_sound: Closed under the global context
C59 SourceProps.source_error_drops_refuted: Closed under the global context
C59 SourceProps.source_godoc_refuted: Closed under the global context
C59 SourceProps.source_webhook_order_refuted: Closed under the global context
C60 EmitProps.emit_values: Closed under the global context
C60 EmitProps.emit_no_refs: Closed under the global context
C60 EmitProps.emit_returns: Closed under the global context
C60 EmitProps.emit_deterministic: Closed under the global context
C60 EmitProps.emit_values_exclusive_refuted: Closed under the global context
C60 EmitProps.emit_no_refs_chain_refuted: Closed under the global context
C61 WholeProps.run_values: Closed under the global context
C61 WholeProps.run_complete: Closed under the global context
C61 WholeProps.run_reported_refuted: Closed under the global context
C62 ScaffoldProps.scaffold_declares: Closed under the global context
C62 ScaffoldProps.scaffold_help_inert: Closed under the global context
C62 ScaffoldProps.scaffold_command: Closed under the global context
C62 ScaffoldProps.scaffold_namespaced_refuted: Closed under the global context
C62 ScaffoldProps.scaffold_resource_line_refuted: Closed under the global context
C63 PatcherProps.patcher_unsupported: Closed under the global context
C63 PatcherProps.patcher_written: Closed under the global context
C63 PatcherProps.patcher_values: Closed under the global context
C63 PatcherProps.patcher_again: Closed under the global context
C63 PatcherProps.patcher_crash: Closed under the global context
C63 PatcherProps.patcher_missing_kind_refuted: Closed under the global context
C64 OriginProps.origin_enforced: Closed under the global context
C64 OriginProps.origin_groups: Closed under the global context
C64 OriginProps.origin_values: Closed under the global context
C64 OriginProps.origin_complete: Closed under the global context
C64 OriginProps.origin_error_refuted: Closed under the global context
C65 OriginProps2.origin_versions: Closed under the global context
C65 OriginProps2.origin_kinds: Closed under the global context
C65 OriginProps2.origin_names: Closed under the global context
C65 OriginProps2.origin_metadata: Closed under the global context
C66 CopiesProps.copies_written: Closed under the global context
C66 CopiesProps.copies_only: Closed under the global context
C66 CopiesProps.copies_file: Closed under the global context
C66 CopiesProps.copies_unknown: Closed under the global context
C66 CopiesProps.copies_program: Closed under the global context
C66 CopiesProps.copies_compile: Closed under the global context
C66 CopiesProps.copies_files: Closed under the global context
C66 CopiesProps.copies_error: Closed under the global context
C66 CopiesProps.copies_end: Closed under the global context
C66 CopiesProps.copies_failed: Closed under the global context
C66 CopiesProps.copies_spare_refuted: Closed under the global context
C67 TextProps.text_unique: Closed under the global context
C67 TextProps.text_file: Closed under the global context
C67 TextProps.text_imports: Closed under the global context
C67 TextProps.text_keyword_refuted: Closed under the global context
C68 PrettyProps.pretty_summary: Closed under the global context
C68 PrettyProps.pretty_details: Closed under the global context
C68 PrettyProps.pretty_help: Closed under the global context
C68 PrettyProps.pretty_width: Closed under the global context
C68 PrettyProps.pretty_table: Closed under the global context
C68 PrettyProps.pretty_columns: Closed under the global context
C68 PrettyProps.pretty_indent: Closed under the global context
C68 PrettyProps.pretty_newlines: Closed under the global context
C68 PrettyProps.pretty_characters_refuted: Closed under the global context
C68 PrettyProps.pretty_limit_refuted: Closed under the global context
C68 PrettyProps.pretty_skip_refuted: Closed under the global context
C68 PrettyProps.pretty_colours_refuted: Closed under the global context
C69 LevelsProps.levels_json: Closed under the global context
C69 LevelsProps.levels_lossless: Closed under the global context
C69 LevelsProps.levels_text: Closed under the global context
C69 LevelsProps.levels_complete: Closed under the global context
C69 LevelsProps.levels_more_refuted: Closed under the global context
C70 WhichProps.which_listed: Closed under the global context
C70 WhichProps.which_usable: Closed under the global context
C70 WhichProps.which_fields: Closed under the global context
