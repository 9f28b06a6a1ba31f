{
 "claims": [
  {
   "property": "C01",
   "status": "proved",
   "theorems": [
    "C01_identifier_grammar"
   ],
   "note": ""
  },
  {
   "property": "C02",
   "status": "proved",
   "theorems": [
    "C02_namespace_grammar"
   ],
   "note": ""
  },
  {
   "property": "C03",
   "status": "proved",
   "theorems": [
    "C03_parse_display",
    "C03_display_parse",
    "C03_is_valid",
    "C03_display_injective"
   ],
   "note": ""
  },
  {
   "property": "C04",
   "status": "proved",
   "theorems": [
    "C04_equality_is_equivalence",
    "C04_equality_ignores_case",
    "C04_lowercase_preserves_validity"
   ],
   "note": "ASCII lower-casing"
  },
  {
   "property": "C05",
   "status": "proved",
   "theorems": [
    "C05_equal_ids_hash_equally_refuted",
    "C05_key_match",
    "C05_lookup"
   ],
   "note": "C05_equal_ids_hash_equally_refuted: the Hash/Eq contract is broken."
  },
  {
   "property": "C06",
   "status": "proved",
   "theorems": [
    "C06_total_order",
    "C06_dictionary_order",
    "C06_cmp_consistent_with_eq_refuted"
   ],
   "note": "C06_cmp_consistent_with_eq_refuted: Ord and Eq disagree."
  },
  {
   "property": "C07",
   "status": "proved",
   "theorems": [
    "C07_shape_only",
    "C07_make_member_and_shape",
    "C07_is_valid_member",
    "C07_constructors_check",
    "C07_namespace_makes_ids"
   ],
   "note": ""
  },
  {
   "property": "C08",
   "status": "proved",
   "theorems": [
    "C08_key_invariant",
    "C08_equal_keys_refuted"
   ],
   "note": "C08_equal_keys_refuted: the proviso is needed."
  },
  {
   "property": "C09",
   "status": "proved",
   "theorems": [
    "C09_other_entries_unchanged",
    "C09_fresh",
    "C09_existing_body_never_replaced",
    "C09_existing_merged",
    "C09_conflict_exact"
   ],
   "note": ""
  },
  {
   "property": "C10",
   "status": "proved",
   "theorems": [
    "C10_trait_conflict_resolution",
    "C10_other_traits_unchanged",
    "C10_combination_is_unique"
   ],
   "note": ""
  },
  {
   "property": "C11",
   "status": "proved",
   "theorems": [
    "C11_metadata_conflict_resolution",
    "C11_other_keys_unchanged"
   ],
   "note": ""
  },
  {
   "property": "C12",
   "status": "proved",
   "theorems": [
    "C12_merge_keeps_everything",
    "C12_merge_succeeds_exactly_when_compatible"
   ],
   "note": ""
  },
  {
   "property": "C13",
   "status": "proved",
   "theorems": [
    "C13_failing_merge_leaves_model_unchanged_refuted",
    "C13_failing_merge_keeps_receiver",
    "C13_failing_merge_leaves_part_of_the_merge"
   ],
   "note": "C13_failing_merge_leaves_model_unchanged_refuted: merge is not atomic."
  },
  {
   "property": "C14",
   "status": "proved",
   "theorems": [
    "C14_merge_idempotent",
    "C14_merge_order_independent",
    "C14_refuted"
   ],
   "note": "C14_refuted: each exception is needed."
  },
  {
   "property": "C15",
   "status": "proved",
   "theorems": [
    "C15_merging_never_panics_refuted",
    "C15_merge_panics_only_on_different_member_names",
    "C15_different_member_names_never_merge"
   ],
   "note": "C15_merging_never_panics_refuted."
  },
  {
   "property": "C16",
   "status": "proved",
   "theorems": [
    "C16_queries_tell_the_truth_refuted",
    "C16_other_queries"
   ],
   "note": "C16_queries_tell_the_truth_refuted also proves that the four queries are inverted on every argument."
  },
  {
   "property": "C17",
   "status": "proved",
   "theorems": [
    "C17_completeness",
    "C17_names_partition",
    "C17_namespaces"
   ],
   "note": ""
  },
  {
   "property": "C18",
   "status": "proved",
   "theorems": [
    "C18_no_unresolved_references_exact"
   ],
   "note": ""
  },
  {
   "property": "C19",
   "status": "proved",
   "theorems": [
    "C19_correct_type_references_exact",
    "C19_no_error_iff_well_kinded",
    "C19_one_issue_per_offence",
    "C19_messages"
   ],
   "note": ""
  },
  {
   "property": "C20",
   "status": "proved",
   "theorems": [
    "C20_all_run_in_order",
    "C20_failure_aborts",
    "C20_fail_fast_stops_refuted",
    "C20_standard_actions"
   ],
   "note": "C20_fail_fast_stops_refuted also proves that the flag has no effect at all."
  },
  {
   "property": "C21",
   "status": "proved",
   "theorems": [
    "C21_naming_conventions_exact_on_linted_places",
    "C21_element_traits_refuted",
    "C21_messages"
   ],
   "note": "C21_element_traits_refuted: element traits are never looked at."
  },
  {
   "property": "C22",
   "status": "proved",
   "theorems": [
    "C22_unwelcome_terms",
    "C22_each_name_once",
    "C22_used_again",
    "C22_every_unwelcome_name_reported",
    "C22_identifiers_refuted"
   ],
   "note": "C22_identifiers_refuted: resource identifiers are never looked at."
  },
  {
   "property": "C23",
   "status": "proved",
   "theorems": [
    "C23_canonical"
   ],
   "note": ""
  },
  {
   "property": "C24",
   "status": "proved",
   "theorems": [
    "C24_lines_determine_model_refuted",
    "C24_error_order_refuted",
    "C24_lines_determine_structure",
    "C24_lines_determine_lined_models"
   ],
   "note": "Equivalence for models meeting the stated conditions; the unconditional claim is refuted (order of id lists, unescaped keys); structure determined for all models with valid names. Injectivity of Rust's string Debug is a hypothesis."
  },
  {
   "property": "C25",
   "status": "proved",
   "theorems": [
    "C25_value_round_trip",
    "C25_json_round_trip",
    "C25_written_is_json",
    "C25_json_refuted",
    "C25_value_refuted"
   ],
   "note": "The restrictions are needed: C25_json_refuted, C25_value_refuted."
  },
  {
   "property": "C26",
   "status": "proved",
   "theorems": [
    "C26_json_image",
    "C26_round_trip",
    "C26_image_stable",
    "C26_map_refuted",
    "C26_trait_refuted"
   ],
   "note": "The exceptions are needed: C26_map_refuted, C26_trait_refuted."
  },
  {
   "property": "C27",
   "status": "proved",
   "theorems": [
    "C27_writer_panics_iff",
    "C27_refuted"
   ],
   "note": ""
  },
  {
   "property": "C28",
   "status": "proved",
   "theorems": [
    "C28_every_history_is_covered",
    "C28_resolution_exact",
    "C28_resolves_to_shapes_refuted"
   ],
   "note": ""
  },
  {
   "property": "C29",
   "status": "proved",
   "theorems": [
    "C29_declared_shape_is_built",
    "C29_nothing_else_is_built",
    "C29_kind_is_preserved_refuted",
    "C29_declared_in_own_namespace_refuted",
    "C29_declaration_kept_refuted"
   ],
   "note": "The unrestricted readings are refuted: C29_kind_is_preserved_refuted, C29_declared_in_own_namespace_refuted, C29_declaration_kept_refuted."
  },
  {
   "property": "C30",
   "status": "proved",
   "theorems": [
    "C30_errors_are_unresolvable_names",
    "C30_builds",
    "C30_panics_only_if",
    "C30_duplicate_declaration_reported_refuted",
    "C30_conflicting_declaration_reported_refuted",
    "C30_conflicting_traits_reported_refuted"
   ],
   "note": "Silently dropped conflicts: the three C30_*_reported_refuted theorems."
  },
  {
   "property": "C31",
   "status": "proved",
   "theorems": [
    "C31_calls_up_to_first_error",
    "C31_all_calls",
    "C31_first_error",
    "C31_one_call_each"
   ],
   "note": ""
  },
  {
   "property": "C32",
   "status": "proved",
   "theorems": [
    "C32_simple",
    "C32_shape_type",
    "C32_comparator",
    "C32_error_source",
    "C32_version",
    "C32_refused"
   ],
   "note": ""
  },
  {
   "property": "C33",
   "status": "proved",
   "theorems": [
    "C33_round_trip",
    "C33_parsed_shape",
    "C33_panics_on_numbers_only",
    "C33_read_back_iff",
    "C33_reread",
    "C33_ge_le_refuted",
    "C33_quote_unreadable_refuted",
    "C33_quote_injection_refuted",
    "C33_float_refuted",
    "C33_unreadable_refuted",
    "C33_number_panic_refuted"
   ],
   "note": "pest is modelled as PEG evaluation with implicit blanks; f64 Display and FromStr are parameters. The exceptions are witnessed by the C33_*_refuted theorems."
  },
  {
   "property": "C34",
   "status": "proved",
   "theorems": [
    "C34_urn_is_documented",
    "C34_round_trip",
    "C34_injective",
    "C34_accepted",
    "C34_accepted_is_urn_refuted"
   ],
   "note": "rdftk_iri's IRI is modelled as the RFC 3986 splitting. C34_accepted_is_urn_refuted: query and fragment are dropped."
  },
  {
   "property": "C35",
   "status": "proved",
   "theorems": [
    "C35_graph_describes_model",
    "C35_graph_determines_shapes",
    "C35_refuted"
   ],
   "note": "rdftk_core graphs are lists of statements with fresh blank nodes; prefix mappings are left out. C35_refuted: metadata, unresolved shapes, renames, array order and repetition are lost."
  },
  {
   "property": "C36",
   "status": "proved",
   "theorems": [
    "C36_selects",
    "C36_types",
    "C36_unsupported",
    "C36_number_and_collection_as_documented_refuted"
   ],
   "note": "The documentation of number and collection is refuted: C36_number_and_collection_as_documented_refuted."
  },
  {
   "property": "C37",
   "status": "proved",
   "theorems": [
    "C37_lookup_is_last_registration",
    "C37_operations",
    "C37_extensions",
    "C37_mime_types",
    "C37_mime_refuted"
   ],
   "note": "C37_mime_refuted: MIME types survive remove and are unknown to register_all."
  },
  {
   "property": "C38",
   "status": "proved",
   "theorems": [
    "C38_files_read",
    "C38_pushed_paths",
    "C38_assembled_model",
    "C38_order_independent",
    "C38_refuted"
   ],
   "note": "C38_refuted: arrays depend on the order; a file pushed with its directory is merged twice. The file system is a tree without links or I/O failures. That readers give well-formed models is a hypothesis here: C72_assembled discharges it."
  },
  {
   "property": "C39",
   "status": "proved",
   "theorems": [
    "C39_total",
    "C39_steps",
    "C39_layout",
    "C39_free_documents",
    "C39_apply_refuted",
    "C39_quoted_key_refuted",
    "C39_escape_refuted",
    "C39_keyword_refuted",
    "C39_text_block_refuted",
    "C39_exponent_refuted",
    "C39_emoji_refuted",
    "C39_metadata_refuted",
    "C39_duplicate_refuted",
    "C39_panics_refuted"
   ],
   "note": "Matching ends on every text; C39_layout: documents with the same tokens are read alike (same_tokens in Spec/LayoutSpec.v, text blocks included); C39_free_documents: all layouts of the documents of writable models. The unrestricted reading of the IDL is refuted by the C39_*_refuted theorems."
  },
  {
   "property": "C40",
   "status": "proved",
   "theorems": [
    "C40_round_trip",
    "C40_identity",
    "C40_metadata_key_refuted",
    "C40_trait_refuted",
    "C40_set_refuted",
    "C40_member_traits_refuted",
    "C40_namespace_refuted",
    "C40_target_refuted",
    "C40_renames_refuted",
    "C40_apply_refuted",
    "C40_metadata_object_refuted"
   ],
   "note": "f64 Display/FromStr and str Debug are parameters; every restriction of the statement is witnessed by a C40_*_refuted theorem."
  },
  {
   "property": "C41",
   "status": "proved",
   "theorems": [
    "C41_reader_panics_only",
    "C41_refuted"
   ],
   "note": "Both exceptions occur (C41_refuted, C41_ex)."
  },
  {
   "property": "C42",
   "status": "proved",
   "theorems": [
    "C42_apply_absolute",
    "C42_apply_to_a_member",
    "C42_applied_traits_reach_the_shape",
    "C42_reference_captures_its_name",
    "C42_apply_elsewhere_is_harmless_refuted",
    "C42_conflict_reported_refuted",
    "C42_members_can_be_reached_refuted"
   ],
   "note": "With the refutations C42_*_refuted."
  },
  {
   "property": "C43",
   "status": "proved",
   "theorems": [
    "C43_service_chain",
    "C43_operation_chain",
    "C43_resource_chain",
    "C43_structure_chain",
    "C43_collections",
    "C43_members"
   ],
   "note": "Calls are modelled on the shape builder; the typed wrappers of TopLevelShapeBuilder are variants."
  },
  {
   "property": "C44",
   "status": "proved",
   "theorems": [
    "C44_trait_constructors",
    "C44_limits_are_kept_refuted",
    "C44_error_source_round_trip",
    "C44_prelude_names",
    "C44_set_value"
   ],
   "note": "usize is 64 bits wide. C44_limits_are_kept_refuted: limits of 2^63 and more are written as negative numbers."
  },
  {
   "property": "C45",
   "status": "proved",
   "theorems": [
    "C45_service_history",
    "C45_one_outcome",
    "C45_has",
    "C45_operation_history",
    "C45_resource_history",
    "C45_structure_history",
    "C45_member_names_are_fixed_refuted",
    "C45_list_member_name_is_fixed_refuted",
    "C45_list_history",
    "C45_map_history"
   ],
   "note": "C45_member_names_are_fixed_refuted and C45_list_member_name_is_fixed_refuted: Map::from and set_member."
  },
  {
   "property": "C46",
   "status": "proved",
   "theorems": [
    "C46_selector_calls",
    "C46_selector_text",
    "C46_selector_read",
    "C46_builders_are_not_empty",
    "C46_attribute_calls",
    "C46_scoped_numbers_refuted",
    "C46_scoped_calls_with_texts",
    "C46_prefix_is_kept_refuted",
    "C46_comparisons_with_quoted_prefix",
    "C46_add_attribute_from"
   ],
   "note": "C46_scoped_numbers_refuted, C46_prefix_is_kept_refuted. The conversions between builders (From) are the identity on the modelled data."
  },
  {
   "property": "C47",
   "status": "proved",
   "theorems": [
    "C47_array_calls",
    "C47_object_calls",
    "C47_equal_objects",
    "C47_built_values_round_trip"
   ],
   "note": "ValueBuilder's other constructors are the value constructors themselves."
  },
  {
   "property": "C48",
   "status": "proved",
   "theorems": [
    "C48_document",
    "C48_overflow",
    "C48_edge_ids",
    "C48_edge_ids_distinct_refuted",
    "C48_one_node_per_shape",
    "C48_targets_are_nodes",
    "C48_targets_are_nodes_refuted",
    "C48_keys_declared",
    "C48_escaping_refuted"
   ],
   "note": "The sink is assumed not to fail. Refuted readings: C48_edge_ids_distinct_refuted, C48_targets_are_nodes_refuted, C48_escaping_refuted; C48_keys_declared shows the graph's own data item uses an undeclared key."
  },
  {
   "property": "C49",
   "status": "proved",
   "theorems": [
    "C49_outcome",
    "C49_diagram",
    "C49_classes",
    "C49_order",
    "C49_own_package_refuted",
    "C49_lifecycle_refuted",
    "C49_documentation_refuted"
   ],
   "note": "The sink is assumed not to fail; Display for f64 and Debug for str are parameters (one line; Debug starts with a quote). Refuted readings: C49_own_package_refuted, C49_lifecycle_refuted, C49_documentation_refuted."
  },
  {
   "property": "C50",
   "status": "proved",
   "theorems": [
    "C50_outcome",
    "C50_outline",
    "C50_each_once",
    "C50_links",
    "C50_order",
    "C50_paths_refuted",
    "C50_identifiers_refuted",
    "C50_labels_refuted",
    "C50_once_refuted",
    "C50_no_dangling_refuted",
    "C50_urls_refuted"
   ],
   "note": "Label::safe_from and Display for f64 are parameters; the order of the namespace set is a parameter (a permutation). Refuted readings: C50_paths_refuted, C50_identifiers_refuted, C50_labels_refuted, C50_once_refuted, C50_no_dangling_refuted, C50_urls_refuted."
  },
  {
   "property": "C51",
   "status": "proved",
   "theorems": [
    "C51_inputs",
    "C51_exit",
    "C51_validate_report",
    "C51_validate_clean",
    "C51_lint_report",
    "C51_convert_json",
    "C51_convert_smithy",
    "C51_convert_smithy_needs_a_namespace",
    "C51_output_file",
    "C51_format",
    "C51_command_line",
    "C51_errors_fail_refuted"
   ],
   "note": "Readers, serde_json's printer (the reader undoes it on the JSON written), somedoc's renderer, heck's functions (one line in, one line out) and terminal styles are parameters; argument parsing is not modelled. Refuted: C51_errors_fail_refuted; C51_output_file shows that nothing is written to an output file."
  },
  {
   "property": "C52",
   "status": "proved",
   "theorems": [
    "C52_read",
    "C52_errors",
    "C52_shapes_panic",
    "C52_same_graph",
    "C52_round_trip",
    "C52_models_can_be_read_back_refuted",
    "C52_text_panics"
   ],
   "note": "The code reads no shapes (unimplemented!): exact outcomes proved, that models can be read back is refuted. Equality of RDF terms is taken from rdftk_core as that of IRIs, blank node names and literals."
  },
  {
   "property": "C53",
   "status": "proved",
   "theorems": [
    "C53_write_to_string",
    "C53_read_from_file",
    "C53_write_to_file",
    "C53_file_holds_the_text_refuted"
   ],
   "note": "A writer is any finite sequence of pieces that gives up when the sink refuses one, as the writers of the workspace do. That the file holds the text afterwards is refuted: it is opened with File::open."
  },
  {
   "property": "C54",
   "status": "proved",
   "theorems": [
    "C54_equality",
    "C54_equality_laws",
    "C54_key",
    "C54_comparison",
    "C54_attribute",
    "C54_selector",
    "C54_one_outcome",
    "C54_nan_is_never_removed",
    "C54_scoped",
    "C54_scoped_panics",
    "C54_assertion",
    "C54_values_are_kept_refuted",
    "C54_assertions_with_texts",
    "C54_function",
    "C54_variables",
    "C54_conversions"
   ],
   "note": "That assertions keep a prefix and numbers as given is refuted: they become texts (C54_assertions_with_texts says which)."
  },
  {
   "property": "C55",
   "status": "proved",
   "theorems": [
    "C55_questions",
    "C55_history",
    "C55_applied_and_kept",
    "C55_append"
   ],
   "note": "Trait ids compare without case; values combine as in C10."
  },
  {
   "property": "C56",
   "status": "proved",
   "theorems": [
    "C56_exactly_one",
    "C56_recognises",
    "C56_constructors",
    "C56_members",
    "C56_supports_members_refuted",
    "C56_member_setters"
   ],
   "note": "C56_supports_members_refuted: has_members says yes for services, operations and resources. From<f32> is left out (widening of floats)."
  },
  {
   "property": "C57",
   "status": "proved",
   "theorems": [
    "C57_text",
    "C57_round_trip",
    "C57_queries"
   ],
   "note": ""
  },
  {
   "property": "C58",
   "status": "proved",
   "theorems": [
    "C58_issue_constructors",
    "C58_levels",
    "C58_issue_layout",
    "C58_issue_text",
    "C58_error_text",
    "C58_standard_issues"
   ],
   "note": "Debug for Option<String> inside a text is a parameter (self-delimiting)."
  },
  {
   "property": "C59",
   "status": "proved",
   "theorems": [
    "C59_order",
    "C59_laws",
    "C59_by_value_refuted"
   ],
   "note": "f64 is its bit pattern; its value is counted in units of 2^-1074. C59_by_value_refuted."
  },
  {
   "property": "C60",
   "status": "proved",
   "theorems": [
    "C60_order_independent",
    "C60_same_document",
    "C60_second_trip",
    "C60_stable",
    "C60_unchanged_refuted"
   ],
   "note": "At the level of serde_json::Value. C60_unchanged_refuted."
  },
  {
   "property": "C61",
   "status": "proved",
   "theorems": [
    "C61_order_independent",
    "C61_stable",
    "C61_via_json",
    "C61_then_json",
    "C61_metadata_refuted"
   ],
   "note": "For models writable in the IDL in the sense of C40 (Spec/SmithySpec.v). C61_metadata_refuted."
  },
  {
   "property": "C62",
   "status": "proved",
   "theorems": [
    "C62_names",
    "C62_validation",
    "C62_naming",
    "C62_unwelcome",
    "C62_unwelcome_loci_refuted",
    "C62_query"
   ],
   "note": "camel/mixed/snake case functions of the heck crate are parameters. C62_unwelcome_loci_refuted."
  },
  {
   "property": "C63",
   "status": "proved",
   "theorems": [
    "C63_reordered",
    "C63_json",
    "C63_json_unchanged",
    "C63_full_refuted"
   ],
   "note": "At the level of serde_json::Value; non-empty arrays grow (C14). C63_full_refuted."
  },
  {
   "property": "C64",
   "status": "proved",
   "theorems": [
    "C64_graphml",
    "C64_plantuml",
    "C64_rdf",
    "C64_rdf_says",
    "C64_rdf_identifiers_refuted",
    "C64_rdf_refuted"
   ],
   "note": "Identifiers of a resource are numbered, so at most one is assumed in RDF (C64_rdf_refuted)."
  },
  {
   "property": "C65",
   "status": "proved",
   "theorems": [
    "C65_decides",
    "C65_symmetric",
    "C65_transitive",
    "C65_reflexive",
    "C65_observed",
    "C65_reflexive_refuted",
    "C65_hash_refuted"
   ],
   "note": "the derived PartialEq impls, decided by a specification in terms of lookups; symmetry, transitivity, exact failure of reflexivity (NaN) and dependence on the hash function for ids that differ in case."
  },
  {
   "property": "C66",
   "status": "proved",
   "theorems": [
    "C66_document_is_its_calls",
    "C66_without_section",
    "C66_other_versions_are_refused"
   ],
   "note": "document trees of Spec/IdlSpec.v (text blocks included; no apply statements: those are in C68)."
  },
  {
   "property": "C67",
   "status": "proved",
   "theorems": [
    "C67_model_of_document"
   ],
   "note": "for documents without clashing names; clashes are treated exactly by C29/C30 through C66."
  },
  {
   "property": "C68",
   "status": "proved",
   "theorems": [
    "C68_accepted",
    "C68_refused",
    "C68_panics_only",
    "C68_one_meaning"
   ],
   "note": "accepted iff every statement means something (Spec/IdlFaultSpec.v), exact calls, and necessary conditions for a panic; traits are those of C66 (an argument list mixing a bare value with named arguments is not in the trees)."
  },
  {
   "property": "C69",
   "status": "proved",
   "theorems": [
    "C69_others_are_refused",
    "C69_only_documents",
    "C69_beginning",
    "C69_brackets"
   ],
   "note": "Syntax soundness of the IDL parser against an independent grammar (Spec/IdlLanguageSpec.v); C69_brackets and C69_beginning are consequences that can be checked on a text."
  },
  {
   "property": "C70",
   "status": "proved",
   "theorems": [
    "C70_reads_exactly",
    "C70_one_meaning",
    "C70_layout",
    "C70_blanks_around",
    "C70_others_refused",
    "C70_displayed"
   ],
   "note": "An if-and-only-if against an independent description of texts (Spec/SelectorTextSpec.v): tokens and layout. Completeness in Proofs/SelectorLayout.v, soundness in Proofs/SelectorTextSound.v."
  },
  {
   "property": "C71",
   "status": "proved",
   "theorems": [
    "C71_reads_exactly",
    "C71_one_meaning",
    "C71_model_of_text",
    "C71_blanks_around",
    "C71_written_says",
    "C71_texts_distinct",
    "C71_model_round_trip",
    "C71_convert",
    "C71_depth_limit",
    "C71_every_model_refuted"
   ],
   "note": "An if-and-only-if against the grammar of RFC 8259 (Spec/JsonTextSpec.v). serde_json is a dependency: Model/JsonText.v transcribes its documented behaviour. The reading and printing of floats are parameters; models with floats need the printed text of each to be read as the same float (float_reads). The unrestricted claim is refuted (C71_every_model_refuted): 128 levels of nesting."
  },
  {
   "property": "C72",
   "status": "proved",
   "theorems": [
    "C72_json_reader",
    "C72_json_text_reader",
    "C72_idl_reader",
    "C72_builder",
    "C72_refuted",
    "C72_registry",
    "C72_assembled",
    "C72_tool"
   ],
   "note": "The readers are those of C26/C71 and C33/C39 (number parsing is a parameter). C72_refuted: the restriction on `uses` is needed. C72_assembled and C72_tool discharge the hypothesis on the readers of C38 and C51."
  },
  {
   "property": "C73",
   "status": "proved",
   "theorems": [
    "C73_parts",
    "C73_tool"
   ],
   "note": "Spec/ProjectSpec.v: parts_of, file_holds. The model has no NaN (NaN is not equal to itself). Printing and reading of floats, Debug of strings and the order of paths are parameters; the file system is a tree. C73_ex: a project with a JSON and an IDL file."
  },
  {
   "property": "C74",
   "status": "proved",
   "theorems": [
    "C74_inputs",
    "C74_lint_and_validate",
    "C74_convert_and_document",
    "C74_cargo"
   ],
   "note": "structopt's parser of words and crate search_path are parameters (not part of the repository); so are the printers and renderers of C51. The readers are the real ones (C72)."
  },
  {
   "property": "C75",
   "status": "proved",
   "theorems": [
    "C75_conversions"
   ],
   "note": "The model must be kept by the representations that are used (hypotheses of C26/C71 for JSON, of C40 for the IDL; what they leave out otherwise is said there): metadata only if the IDL is not used (C75_ex_metadata), maps only if JSON is not."
  }
 ]
}