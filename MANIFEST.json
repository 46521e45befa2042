{
 "claims": [
  {
   "property": "C01",
   "status": "proved",
   "theorems": [
    "C01_resolve_innermost",
    "C01_every_qname_splits"
   ],
   "note": ""
  },
  {
   "property": "C02",
   "status": "proved",
   "theorems": [
    "C02_resolve_failure"
   ],
   "note": ""
  },
  {
   "property": "C03",
   "status": "proved",
   "theorems": [
    "C03_resolve_default"
   ],
   "note": ""
  },
  {
   "property": "C04",
   "status": "proved",
   "theorems": [
    "C04_prefix_result",
    "C04_prefix_inverse",
    "C04_prefix_inverse_refuted",
    "C04_prefix_shadowed_default_refuted",
    "C04_prefix_unknown_namespace_refuted"
   ],
   "note": "inverse law under no_shadowing; three refutations of the unconditional documentation"
  },
  {
   "property": "C05",
   "status": "proved",
   "theorems": [
    "C05_join_scope"
   ],
   "note": ""
  },
  {
   "property": "C06",
   "status": "proved",
   "theorems": [
    "C06_scopes_behave_as_values",
    "C06_captured_scope_never_clobbered",
    "C06_join_of_join_clobbers_refuted"
   ],
   "note": "refinement for all histories in which no JoinScope result is extended; refutation for the others"
  },
  {
   "property": "C07",
   "status": "proved",
   "theorems": [
    "C07_attr_first_match",
    "C07_setattr",
    "C07_setattr_leaves_others"
   ],
   "note": ""
  },
  {
   "property": "C08",
   "status": "proved",
   "theorems": [
    "C08_searchfunc_exact",
    "C08_searchfunc_document_order",
    "C08_searchfunc_once",
    "C08_flatten_all_descendants",
    "C08_search_by_name",
    "C08_document_order_is_strict"
   ],
   "note": ""
  },
  {
   "property": "C09",
   "status": "proved",
   "theorems": [
    "C09_parse_document",
    "C09_parse_only_documents",
    "C09_foreign_xmlns_attribute_refuted",
    "C09_attribute_values"
   ],
   "note": ""
  },
  {
   "property": "C10",
   "status": "proved",
   "theorems": [
    "C10_depth_limit",
    "C10_truncated_document",
    "C10_no_fuel_error"
   ],
   "note": ""
  },
  {
   "property": "C11",
   "status": "proved",
   "theorems": [
    "C11_content_off_by_one",
    "C11_errors_unchanged",
    "C11_content_refuted",
    "C11_no_space_refuted",
    "C11_empty_panics_refuted"
   ],
   "note": ""
  },
  {
   "property": "C12",
   "status": "proved",
   "theorems": [
    "C12_marshal_declares_every_scope",
    "C12_parsed_subtrees",
    "C12_subtree_duplicate_declaration_refuted",
    "C12_detached_scope_refuted"
   ],
   "note": ""
  },
  {
   "property": "C13",
   "status": "proved",
   "theorems": [
    "C13_parse_inverts_marshal",
    "C13_scopes_up_to_sorting",
    "C13_fixed_point",
    "C13_quote_in_attribute_refuted",
    "C13_attribute_in_default_namespace_refuted",
    "C13_undeclared_namespace_refuted",
    "C13_mixed_content_refuted"
   ],
   "note": ""
  },
  {
   "property": "C14",
   "status": "proved",
   "theorems": [
    "C14_diff_scope_extension",
    "C14_diff_scope_longest_common_prefix"
   ],
   "note": ""
  },
  {
   "property": "C15",
   "status": "proved",
   "theorems": [
    "C15_encode_terminates",
    "C15_acyclic_graph_as_tree",
    "C15_cycles_become_comments",
    "C15_deep_trees_truncated_refuted",
    "C15_parsed_trees_not_truncated"
   ],
   "note": ""
  },
  {
   "property": "C16",
   "status": "proved",
   "theorems": [
    "C16_encode_reports_write_errors",
    "C16_encode_writes_marshal",
    "C16_transient_failure_refuted"
   ],
   "note": ""
  },
  {
   "property": "C17",
   "status": "proved",
   "theorems": [
    "C17_marshal_indent_layout",
    "C17_only_adds_space",
    "C17_prefix_has_no_effect",
    "C17_prefix_ignored_refuted"
   ],
   "note": ""
  },
  {
   "property": "C18",
   "status": "proved",
   "theorems": [
    "C18_equal_ignores_order_and_space",
    "C18_equal_same_order",
    "C18_equal_reflexive",
    "C18_repeated_names_order_sensitive_refuted",
    "C18_joined_key_refuted"
   ],
   "note": ""
  },
  {
   "property": "C19",
   "status": "proved",
   "theorems": [
    "C19_equal_sound",
    "C19_deep_trees_never_equal",
    "C19_symmetry_refuted",
    "C19_repeated_attribute_refuted"
   ],
   "note": ""
  },
  {
   "property": "C20",
   "status": "proved",
   "theorems": [
    "C20_equal_only_reorders"
   ],
   "note": ""
  },
  {
   "property": "C21",
   "status": "proved",
   "theorems": [
    "C21_flatten_visits_every_vertex_once"
   ],
   "note": ""
  },
  {
   "property": "C22",
   "status": "proved",
   "theorems": [
    "C22_flatten_visits_dependencies_first"
   ],
   "note": ""
  },
  {
   "property": "C23",
   "status": "proved",
   "theorems": [
    "C23_flatten_depends_on_edge_set_only"
   ],
   "note": ""
  },
  {
   "property": "C24",
   "status": "proved",
   "theorems": [
    "C24_len_counts_distinct_targets",
    "C24_sets_sorted_and_duplicate_free"
   ],
   "note": ""
  },
  {
   "property": "C25",
   "status": "proved",
   "theorems": [
    "C25_parse_builtin",
    "C25_names_distinct",
    "C25_w3c_names",
    "C25_xml_attributes_refuted",
    "C25_builtin_schema",
    "C25_builtin_schema_complete_refuted"
   ],
   "note": ""
  },
  {
   "property": "C26",
   "status": "proved",
   "theorems": [
    "C26_imports",
    "C26_lists_unique",
    "C26_each_include_once_refuted"
   ],
   "note": ""
  },
  {
   "property": "C27",
   "status": "proved",
   "theorems": [
    "C27_parsed_memory",
    "C27_default_types",
    "C27_default_resolves",
    "C27_foreign_type_refuted"
   ],
   "note": "for scopes without shadowed prefixes; refuted otherwise"
  },
  {
   "property": "C28",
   "status": "proved",
   "theorems": [
    "C28_choices_optional"
   ],
   "note": ""
  },
  {
   "property": "C29",
   "status": "proved",
   "theorems": [
    "C29_expanded",
    "C29_long_form",
    "C29_every_type_has_content",
    "C29_idempotent",
    "C29_nested_refuted"
   ],
   "note": ""
  },
  {
   "property": "C30",
   "status": "proved",
   "theorems": [
    "C30_unpacked",
    "C30_unpacked_all",
    "C30_no_groups_left",
    "C30_no_groups_no_change",
    "C30_siblings_refuted",
    "C30_nested_refuted"
   ],
   "note": "under groups_apart, for shared memory; two refutations show groups left behind otherwise"
  },
  {
   "property": "C31",
   "status": "proved",
   "theorems": [
    "C31_has_cycle_exact"
   ],
   "note": ""
  },
  {
   "property": "C32",
   "status": "proved",
   "theorems": [
    "C32_merged",
    "C32_attributes",
    "C32_type",
    "C32_type_lost_refuted",
    "C32_foreign_attribute_refuted",
    "C32_type_unnamed_refuted"
   ],
   "note": "for attributes that do not clash across namespaces; three refutations, including the default type that overrides the definition's"
  },
  {
   "property": "C33",
   "status": "proved",
   "theorems": [
    "C33_named_together",
    "C33_in_order",
    "C33_reference_resolves",
    "C33_reference_says",
    "C33_unexpected_iff",
    "C33_error_iff",
    "C33_union_refuted",
    "C33_shifted_refuted",
    "C33_clash_refuted"
   ],
   "note": "for schemas where each element has one anonymous type, nothing after it has one, and a top-level declaration with one comes before all others with one; unions with several anonymous members, what follows an anonymous type in its parent, and a type already called _anon1 refuted by witnesses; fuel covers the height of the tree"
  },
  {
   "property": "C34",
   "status": "proved",
   "theorems": [
    "C34_copied",
    "C34_named",
    "C34_copied_together",
    "C34_copy_tree",
    "C34_distinct_names",
    "C34_two_types_refuted",
    "C34_four_types_refuted"
   ],
   "note": "refinement to a tree function in every memory with enough room in the root's child slice, and for every growth policy when a top-level declaration with an anonymous type comes first; without room refuted: the type is copied but stays in place"
  },
  {
   "property": "C35",
   "status": "proved",
   "theorems": [
    "C35_flattened",
    "C35_no_refs_left",
    "C35_error_iff",
    "C35_no_panic",
    "C35_cycle_check_is_dead",
    "C35_refs_left_refuted",
    "C35_recursive_never_ends"
   ],
   "note": "error characterised exactly; result and absence of references when definitions are completed first (timely); refuted otherwise; divergence of recursive groups proved for every fuel"
  },
  {
   "property": "C36",
   "status": "proved",
   "theorems": [
    "C36_read_by_name",
    "C36_resolved",
    "C36_error",
    "C36_order",
    "C36_unique_names",
    "C36_keyed"
   ],
   "note": "error/success characterised for every order; order independence under unique type names and chains within the depth limit"
  },
  {
   "property": "C37",
   "status": "proved",
   "theorems": [
    "C37_declared",
    "C37_shared_namespace_refuted"
   ],
   "note": "positive theorem under its two conditions; refuted for documents that share a namespace"
  },
  {
   "property": "C38",
   "status": "proved",
   "theorems": [
    "C38_mixed",
    "C38_panic",
    "C38_document_order_refuted"
   ],
   "note": "Mixed characterised; the panic is characterised and exhibited"
  },
  {
   "property": "C39",
   "status": "proved",
   "theorems": [
    "C39_ends_in_builtin",
    "C39_cycle_accepted_refuted"
   ],
   "note": "chains end in a builtin when finite; cyclic bases are accepted (refuted)"
  },
  {
   "property": "C40",
   "status": "proved",
   "theorems": [
    "C40_element_kept",
    "C40_wildcard_type",
    "C40_integers",
    "C40_booleans",
    "C40_plural",
    "C40_element",
    "C40_element_accepted",
    "C40_invalid_max_is_an_error_refuted",
    "C40_wildcard"
   ],
   "note": ""
  },
  {
   "property": "C41",
   "status": "proved",
   "theorems": [
    "C41_merge",
    "C41_firsts_distinct",
    "C41_complex_type"
   ],
   "note": ""
  },
  {
   "property": "C42",
   "status": "proved",
   "theorems": [
    "C42_find_type"
   ],
   "note": ""
  },
  {
   "property": "C43",
   "status": "proved",
   "theorems": [
    "C43_generator",
    "C43_first_comer_keeps_its_name",
    "C43_struct",
    "C43_plain_fields",
    "C43_field_names",
    "C43_attribute_suffix",
    "C43_wildcard_refuted",
    "C43_text_refuted",
    "C43_thousand_refuted"
   ],
   "note": "up to 1001 requests, for structs without wildcard and text; the other fields in general; three refutations"
  },
  {
   "property": "C44",
   "status": "proved",
   "theorems": [
    "C44_expand",
    "C44_nearest",
    "C44_again",
    "C44_after_flatten",
    "C44_same_name_refuted",
    "C44_ring_refuted",
    "C44_restriction_refuted"
   ],
   "note": "C44_expand: expandComplexTypes returns; every wanted derived type gets exactly the fields of `inherits` (C44_nearest: the nearest type of the lineage having that name) and Extends=false, everything else is unchanged. Hypotheses: base chains end in a Builtin, distinct type names, no duplicates in the list; C44_after_flatten shows that flatten's result meets them. C44_again: idempotent across schemas. Without distinct names / with cycles / for restrictions the claim fails: *_refuted."
  },
  {
   "property": "C45",
   "status": "proved",
   "theorems": [
    "C45_merge",
    "C45_distinct"
   ],
   "note": ""
  },
  {
   "property": "C46",
   "status": "proved",
   "theorems": [
    "C46_names",
    "C46_no_filter"
   ],
   "note": ""
  },
  {
   "property": "C47",
   "status": "proved",
   "theorems": [
    "C47_dedup",
    "C47_named_types"
   ],
   "note": ""
  },
  {
   "property": "C48",
   "status": "proved",
   "theorems": [
    "C48_simple_type",
    "C48_flatten",
    "C48_list_refuted"
   ],
   "note": "for every resolved set of types, recursive ones included; attribute filters by name; list types lost under restriction is refuted"
  },
  {
   "property": "C49",
   "status": "proved",
   "theorems": [
    "C49_revert",
    "C49_revert_all",
    "C49_method_reverts_last",
    "C49_allow_type",
    "C49_allow_first_refuted",
    "C49_allow_twice_refuted",
    "C49_other_config_refuted",
    "C49_wsdlgen",
    "C49_only_ports_refuted",
    "C49_log_level_refuted"
   ],
   "note": "options as data with an interpreter; Configs on a heap; the exceptions are proved as *_refuted for all configurations they concern"
  },
  {
   "property": "C50",
   "status": "proved",
   "theorems": [
    "C50_found",
    "C50_missing",
    "C50_masked_refuted",
    "C50_asked_twice_refuted"
   ],
   "note": "for distinct namespaces; two refutations for repeated ones"
  },
  {
   "property": "C51",
   "status": "proved",
   "theorems": [
    "C51_flatten_order_refuted",
    "C51_sorted_once",
    "C51_any_order",
    "C51_collision_refuted"
   ],
   "note": "for the specs in any order; collision refuted; dependence of flattening on the map order refuted"
  },
  {
   "property": "C52",
   "status": "proved",
   "theorems": [
    "C52_total",
    "C52_panics",
    "C52_go_types",
    "C52_notation_refuted"
   ],
   "note": ""
  },
  {
   "property": "C53",
   "status": "proved",
   "theorems": [
    "C53_lists",
    "C53_panic",
    "C53_every_atomic_refuted"
   ],
   "note": ""
  },
  {
   "property": "C54",
   "status": "proved",
   "theorems": [
    "C54_strings",
    "C54_ints",
    "C54_uints",
    "C54_items",
    "C54_accepts_ints",
    "C54_bytes_refuted"
   ],
   "note": ""
  },
  {
   "property": "C55",
   "status": "proved",
   "theorems": [
    "C55_hex",
    "C55_hex_text",
    "C55_base64",
    "C55_base64_text",
    "C55_base64_wrapped",
    "C55_hex_space_refuted",
    "C55_base64_space_refuted"
   ],
   "note": ""
  },
  {
   "property": "C56",
   "status": "proved",
   "theorems": [
    "C56_loaded",
    "C56_returns",
    "C56_cycle",
    "C56_no_follow",
    "C56_once_refuted",
    "C56_no_location_refuted",
    "C56_error_reported_refuted",
    "C56_nothing_missing_refuted"
   ],
   "note": "file system and XML parser are arbitrary; C56_loaded, C56_returns and C56_cycle cover every import graph. The exceptions are *_refuted (C56_error_reported_refuted holds for every GenCode)."
  },
  {
   "property": "C57",
   "status": "proved",
   "theorems": [
    "C57_array",
    "C57_shared",
    "C57_plain",
    "C57_others",
    "C57_schema",
    "C57_copy",
    "C57_again",
    "C57_attributes_kept_refuted",
    "C57_builtin_item_refuted",
    "C57_sized_arrays_refuted",
    "C57_returns_refuted",
    "C57_order_refuted"
   ],
   "note": "C57_array gives the result for every array type whose base chain ends (C57_plain: all others unchanged). The array of Elements shared by a base and its copies is modelled (C57_shared, C57_copy). Exceptions as *_refuted."
  },
  {
   "property": "C58",
   "status": "proved",
   "theorems": [
    "C58_never_a_keyword",
    "C58_others_unchanged",
    "C58_collisions"
   ],
   "note": ""
  },
  {
   "property": "C59",
   "status": "proved",
   "theorems": [
    "C59_quoted_denotes",
    "C59_literal_denotes",
    "C59_one_meaning",
    "C59_all_strings_refuted"
   ],
   "note": ""
  },
  {
   "property": "C60",
   "status": "proved",
   "theorems": [
    "C60_every_line_is_a_comment",
    "C60_text_kept",
    "C60_text_cut",
    "C60_lines_total",
    "C60_in_order",
    "C60_text_after_a_long_line_refuted"
   ],
   "note": ""
  },
  {
   "property": "C61",
   "status": "proved",
   "theorems": [
    "C61_struct_fields"
   ],
   "note": ""
  },
  {
   "property": "C62",
   "status": "proved",
   "theorems": [
    "C62_one_rule",
    "C62_command_line_order"
   ],
   "note": ""
  },
  {
   "property": "C63",
   "status": "proved",
   "theorems": [
    "C63_messages",
    "C63_definition",
    "C63_one_binding",
    "C63_no_binding",
    "C63_one_action",
    "C63_soap12_action_refuted",
    "C63_every_service_refuted",
    "C63_own_action_refuted"
   ],
   "note": "all trees; C63_definition also shows that the relation reads_definition determines documentation and ports, C63_messages the messages. Exceptions as *_refuted. strings.ToUpper is an arbitrary function."
  },
  {
   "property": "C64",
   "status": "proved",
   "theorems": [
    "C64_declared",
    "C64_parameter_name",
    "C64_result_struct_unused",
    "C64_result_count_refuted",
    "C64_input_struct_refuted",
    "C64_distinct_parameters_refuted",
    "C64_hidden_type_refuted",
    "C64_distinct_fields_refuted",
    "C64_date_refuted"
   ],
   "note": "C64_declared gives the declarations of every operation; the cases in which they are wrong Go or wrong SOAP are *_refuted and C64_result_struct_unused (universal). strings.Title, NameOf for types not built in, DocType and the Go parser are arbitrary."
  },
  {
   "property": "C65",
   "status": "proved",
   "theorems": [
    "C65_methods",
    "C65_fails",
    "C65_operation_fails",
    "C65_one_way_fails",
    "C65_filter_ignored",
    "C65_only_ports_refuted"
   ],
   "note": "C65_methods and C65_fails: which methods there are; C65_filter_ignored: OnlyPorts never matters (universal), with the counterexample to its documentation."
  },
  {
   "property": "C66",
   "status": "proved",
   "theorems": [
    "C66_copy_in_place",
    "C66_long_documents_corrupted_refuted"
   ],
   "note": ""
  },
  {
   "property": "C68",
   "status": "proved",
   "theorems": [
    "C68_ranges",
    "C68_byte_refuted"
   ],
   "note": ""
  },
  {
   "property": "C69",
   "status": "proved",
   "theorems": [
    "C69_dateTime",
    "C69_date",
    "C69_time",
    "C69_gDay",
    "C69_gMonth",
    "C69_gMonthDay",
    "C69_gYear",
    "C69_gYearMonth",
    "C69_white_space",
    "C69_far_years_refuted",
    "C69_offset_seconds_refuted"
   ],
   "note": ""
  },
  {
   "property": "C67",
   "status": "proved",
   "theorems": [
    "C67_element_type_and_name",
    "C67_element_namespace_refuted",
    "C67_attribute",
    "C67_prohibited_left_out_refuted",
    "C67_attribute_namespace_refuted"
   ],
   "note": ""
  },
  {
   "property": "C70",
   "status": "proved",
   "theorems": [
    "C70_documentation",
    "C70_uncompiled",
    "C70_facets",
    "C70_patterns",
    "C70_patterns_kept_refuted"
   ],
   "note": ""
  },
  {
   "property": "C71",
   "status": "proved",
   "theorems": [
    "C71_linked",
    "C71_bounds",
    "C71_linked_datetime_refuted"
   ],
   "note": ""
  },
  {
   "property": "C72",
   "status": "proved",
   "theorems": [
    "C72_fields",
    "C72_inherited",
    "C72_simple",
    "C72_element_tag",
    "C72_attribute_tag"
   ],
   "note": "struct tags are read by a model of encoding/xml's typeinfo.go"
  },
  {
   "property": "C73",
   "status": "proved",
   "theorems": [
    "C73_overlays",
    "C73_complete",
    "C73_repeated_refuted"
   ],
   "note": "types match for fields that are not repeated; refuted for repeated ones"
  },
  {
   "property": "C74",
   "status": "proved",
   "theorems": [
    "C74_simple_type"
   ],
   "note": ""
  },
  {
   "property": "C75",
   "status": "proved",
   "theorems": [
    "C75_fields",
    "C75_closed",
    "C75_recursive_refuted"
   ],
   "note": "for non-recursive types of depth up to 1000; refuted for recursive ones"
  },
  {
   "property": "C76",
   "status": "proved",
   "theorems": [
    "C76_returns",
    "C76_doubles"
   ],
   "note": "attribute filters by name"
  },
  {
   "property": "C77",
   "status": "proved",
   "theorems": [
    "C77_effects"
   ],
   "note": "regular expressions and user functions are arbitrary; logging left out"
  },
  {
   "property": "C78",
   "status": "proved",
   "theorems": [
    "C78_slice",
    "C78_only",
    "C78_all",
    "C78_unmarshal",
    "C78_round_trip",
    "C78_returns",
    "C78_array_type",
    "C78_methods",
    "C78_methods_refuted",
    "C78_names_refuted",
    "C78_errors_refuted"
   ],
   "note": "C78_slice, C78_only: which types; the methods as programs on token streams with arbitrary decoding and encoding of single items; encoding/xml's treatment of Unmarshalers is a few lines of the model; exceptions as *_refuted"
  },
  {
   "property": "C79",
   "status": "proved",
   "theorems": [
    "C79_closed",
    "C79_present",
    "C79_nothing_else",
    "C79_recursive_refuted",
    "C79_mixed_refuted",
    "C79_list_refuted"
   ],
   "note": "C79_closed, C79_present under `generable` (resolved, distinct names, ranked by containment up to depth 1000, mixed content over mixed content, built-ins with a Go type, lists with methods); attribute filters look at names only; the store is that after pre-processing, so SOAP arrays whose base was copied (two types of one name) are not covered; methods are not part of the declarations here; without the hypotheses refuted by witnesses"
  },
  {
   "property": "C80",
   "status": "proved",
   "theorems": [
    "C80_declared",
    "C80_plain",
    "C80_replaced_refuted",
    "C80_excluded_refuted",
    "C80_helper_used_refuted"
   ],
   "note": "same hypotheses as C79; the types replaced and those filtered out are *_refuted"
  },
  {
   "property": "C81",
   "status": "proved",
   "theorems": [
    "C81_round_trip",
    "C81_unexported_refuted",
    "C81_nested_refuted",
    "C81_declaration_refuted"
   ],
   "note": "encoding/xml (typeinfo.go, marshal.go, read.go) modelled on trees of names, attributes and text as far as the generated tags need it; text-level encoding is the relation reads_back; values of types that are not structs, their printing, reading and emptiness are arbitrary (hypothesis: they survive); the exceptions are *_refuted"
  },
  {
   "property": "C82",
   "status": "proved",
   "theorems": [
    "C82_elements",
    "C82_in_order",
    "C82_dates_in_order_refuted",
    "C82_optional_left_out_refuted"
   ],
   "note": "same model of encoding/xml as C81; complex types without mixed content; the exceptions are *_refuted"
  },
  {
   "property": "C83",
   "status": "proved",
   "theorems": [
    "C83_decoded",
    "C83_order_irrelevant",
    "C83_unknown_element",
    "C83_unknown_attribute",
    "C83_nothing_required",
    "C83_last_occurrence_refuted"
   ],
   "note": "same model of encoding/xml as C81; at most one wildcard in a type; names apart as in C81; read errors of simple values are arbitrary"
  },
  {
   "property": "C84",
   "status": "proved",
   "theorems": [
    "C84_request",
    "C84_not_sent",
    "C84_result",
    "C84_no_answer",
    "C84_ignored",
    "C84_response_refuted",
    "C84_arguments_unused"
   ],
   "note": "encoding of the envelope follows encoding/xml on trees; the HTTP server, http.NewRequest, the request hook and how arguments and results are written and read are arbitrary functions; context, response hook and the struct after a read error are left out; the lost response is C84_response_refuted and, for all responses, C84_ignored"
  },
  {
   "property": "C85",
   "status": "proved",
   "theorems": [
    "C85_kept",
    "C85_returns",
    "C85_still_anonymous",
    "C85_named",
    "C85_any_order",
    "C85_generable",
    "C85_order_refuted",
    "C85_clash_refuted"
   ],
   "note": "UseFieldNames as the only pre-processing step; the order of Go's map is the arbitrary list l; the exceptions are *_refuted"
  },
  {
   "property": "C86",
   "status": "proved",
   "theorems": [
    "C86_same_code",
    "C86_text_refuted",
    "C86_names_refuted"
   ],
   "note": "C79's hypotheses plus steady, wild_named, names_apart (among the types that are selected or referred to by such); orders are arbitrary lists with the same elements; methods are not part of the declarations here, they are functions of the specs; text over text and equal Go names are *_refuted"
  },
  {
   "property": "C87",
   "status": "proved",
   "theorems": [
    "C87_parses",
    "C87_code",
    "C87_order",
    "C87_missing",
    "C87_masked_refuted",
    "C87_repeated_refuted",
    "C87_imports_last_refuted",
    "C87_refused",
    "C87_unknown"
   ],
   "note": "hypotheses stated on what the documents declare (documents, imports_first, orderly), ranks up to depth 1000; documents are read and normalised beforehand (C87_case goes from XML trees); addStandardHelpers is the list of helper types; the documents' order is refuted by C87_imports_last_refuted (a panic); the report of missing namespaces counts documents: C87_masked_refuted, C87_repeated_refuted"
  },
  {
   "property": "C88",
   "status": "proved",
   "theorems": [
    "C88_documents",
    "C88_shape",
    "C88_firm_refuted"
   ],
   "note": "C79's hypotheses plus wild_named (wildcards are the nameless elements, as the parser makes them) and firm; types are those before gen runs; shape, struct_for, elem_field etc. in SgShapeSpec.v do not mention gen; the elements lost without firm are C88_firm_refuted; documentation of simple types is C75; C88_documents is the same from the documents on"
  },
  {
   "property": "C89",
   "status": "proved",
   "theorems": [
    "C89_total",
    "C89_documentation",
    "C89_paragraphs",
    "C89_after_other",
    "C89_element",
    "C89_attribute",
    "C89_appinfo_refuted",
    "C89_markup_refuted"
   ],
   "note": "encoding/xml is a token stream (Token, Skip, DecodeElement into []byte); raw, the tokens of a text without tags, is any function whose results have no tags; documentation before the first other child only: C89_after_other says exactly what is lost, C89_appinfo_refuted and C89_markup_refuted are witnesses"
  },
  {
   "property": "C90",
   "status": "proved",
   "theorems": [
    "C90_file",
    "C90_bodies",
    "C90_helpers",
    "C90_type_t_refuted",
    "C90_field_t_refuted",
    "C90_field_method_refuted",
    "C90_slices_refuted"
   ],
   "note": "of a body only what it refers to in the same file is modelled; what the bodies do is C54, C55, C69, C78, C81-C83; distinct methods, valid local declarations and fields apart from methods need the stated conditions, and the four refutations are their witnesses"
  },
  {
   "property": "C91",
   "status": "proved",
   "theorems": [
    "C91_history",
    "C91_repeated",
    "C91_apart",
    "C91_remembered",
    "C91_cli",
    "C91_cli_fresh",
    "C91_wsdl",
    "C91_wsdl_left",
    "C91_other_documents_refuted",
    "C91_unreadable_refuted",
    "C91_rules_refuted",
    "C91_namespaces_refuted",
    "C91_comment_refuted"
   ],
   "note": "Configs are on a heap (OptModel) with the helpers left and the file system; parsing, generating, formatting and whether a file can be written are arbitrary functions; flags are already parsed; the witnesses use the model of GenCode (C87) on two documents"
  },
  {
   "property": "C92",
   "status": "proved",
   "theorems": [
    "C92_documents",
    "C92_documents_decoded",
    "C92_round_trip",
    "C92_elements",
    "C92_decoded",
    "C92_kinds_refuted"
   ],
   "note": "composes the model of generation (SgGen) with that of encoding/xml (BindModel): the conditions of C81-C83 on generated structs follow from conditions on the types of the schema; how simple values are written and read is an arbitrary codec that inverts itself; replacing structs by slices (SOAP arrays) is off; C92_documents and C92_documents_decoded start from the documents, with only clear_code (names and kinds of fields) stated of the parsed types"
  },
  {
   "property": "C93",
   "status": "proved",
   "theorems": [
    "C93_tree_as_read",
    "C93_exact",
    "C93_characters",
    "C93_annotation",
    "C93_part_of_document",
    "C93_parse_loses_nothing",
    "C93_generated_types",
    "C93_mixed_content_refuted",
    "C93_quote_refuted",
    "C93_prefix_read_as_attribute_refuted",
    "C93_attribute_values"
   ],
   "note": "of xml.Unmarshal what does not depend on the type is in UnmModel: the Decoder read up to the end of the first element; documents with comments, processing instructions, CDATA and character references are outside DecodeModel"
  },
  {
   "property": "C94",
   "status": "proved",
   "theorems": [
    "C94_calendar",
    "C94_left_out",
    "C94_element",
    "C94_attribute",
    "C94_instant",
    "C94_always_written",
    "C94_reproduced_refuted",
    "C94_zone_refuted"
   ],
   "note": "IsZero is computed from civil fields (C94_calendar ties the day count to the calendar); of encoding/xml: a MarshalXML that writes nothing leaves no trace, nameless attributes are skipped"
  },
  {
   "property": "C95",
   "status": "proved",
   "theorems": [
    "C95_normal_unchanged",
    "C95_reaches_normal",
    "C95_twice",
    "C95_among",
    "C95_group_in_choice_refuted"
   ],
   "note": "on the memory model of Normalize; fuel at least three times the height, as expansion adds two levels per complexType"
  },
  {
   "property": "C96",
   "status": "proved",
   "theorems": [
    "C96_parse_inverts_indent",
    "C96_scopes_up_to_sorting",
    "C96_again",
    "C96_equal",
    "C96_equal_marshal",
    "C96_content_refuted",
    "C96_indent_refuted"
   ],
   "note": "on the byte-level Decoder model of C13; hypotheses on names and values as there"
  },
  {
   "property": "C97",
   "status": "proved",
   "theorems": [
    "C97_normalize",
    "C97_output",
    "C97_plain_output",
    "C97_read_again",
    "C97_again",
    "C97_ns_ignored",
    "C97_ns_restricts_refuted",
    "C97_no_panic"
   ],
   "note": "encoding/xml, the sorting of name spaces and the contents of StandardSchema are parameters; the claim that -ns restricts the output is refuted; the documents of the example are those of the package without annotations; the theorem about printing again is for files with one schema and the modelled decoder, and says nothing of whether the second run succeeds"
  },
  {
   "property": "C98",
   "status": "proved",
   "theorems": [
    "C98_decl",
    "C98_calls",
    "C98_comment",
    "C98_error_kept_refuted",
    "C98_parameters_dropped_refuted",
    "C98_blocks",
    "C98_snippets",
    "C98_source",
    "C98_marked",
    "C98_format_again_refuted"
   ],
   "note": "the Go parser, text/template, fmt.Sprintf, go/format and imports.Process are arbitrary functions that fail or return a value; the name of the program is a parameter"
  },
  {
   "property": "C99",
   "status": "proved",
   "theorems": [
    "C99_elements",
    "C99_foreign_type_refuted"
   ],
   "note": "documents as in C87 (read, normalised, what they import first), whose top-level elements have distinct names and nothing declared inside them, and no type of which uses the type that stands for a document (_self)"
  },
  {
   "property": "C100",
   "status": "proved",
   "theorems": [
    "C100_client",
    "C100_missing"
   ],
   "note": "documents as in C99; the method bodies are those of C64 and C65"
  },
  {
   "property": "C101",
   "status": "proved",
   "theorems": [
    "C101_flags",
    "C101_xsdgen",
    "C101_wsdlgen",
    "C101_xsdparse",
    "C101_late_flag_refuted"
   ],
   "note": "Go's package flag is modelled from its source (parseOne); messages and the exit status are left out; regexp.Compile is an arbitrary function"
  },
  {
   "property": "C102",
   "status": "proved",
   "theorems": [
    "C102_read",
    "C102_code",
    "C102_fields",
    "C102_malformed"
   ],
   "note": "for plain schemas; types that extend or restrict others, references and anonymous types are in C87, C88 and C95 apart; the decoder, the sorting of name spaces and the growth of slices are arbitrary functions; the conditions on what is parsed (documents, imports_first) are checked on the real standard schemas in C102_case_standard"
  },
  {
   "property": "C103",
   "status": "proved",
   "theorems": [
    "C103_xsdgen",
    "C103_files",
    "C103_wsdlgen",
    "C103_source",
    "C103_source_alone",
    "C103_wsdl_source",
    "C103_wsdl_source_alone",
    "C103_missing_file_refuted"
   ],
   "note": "the generator, the formatter, regular expressions, the file system and wsdl.Parse are arbitrary functions (C87, C90, C98, C63-C65 are about them); what is written to standard error is left out; C103_source and C103_wsdl_source need a formatter that does not look at the file name and an output that is not among the files read"
  },
  {
   "property": "C104",
   "status": "proved",
   "theorems": [
    "C104_tells",
    "C104_lines",
    "C104_elements_refuted"
   ],
   "note": "for definitions whose names have no newlines, port names no spaces, operations no (, and types of parts that are not empty and have no comma, ) or newline; C104_elements_refuted shows the exception"
  },
  {
   "property": "C105",
   "status": "proved",
   "theorems": [
    "C105_head",
    "C105_mixed",
    "C105_simple_content",
    "C105_accepted",
    "C105_refused",
    "C105_documentation",
    "C105_simple_type",
    "C105_restriction_attributes_refuted",
    "C105_paragraphs_refuted"
   ],
   "note": "elements and attributes of complex content are in C41; C105_restriction_attributes_refuted and C105_paragraphs_refuted are the exceptions; the documentation theorems are for annotations of documentations that say something (C89)"
  },
  {
   "property": "C106",
   "status": "proved",
   "theorems": [
    "C106_reported",
    "C106_where",
    "C106_descends",
    "C106_child",
    "C106_first",
    "C106_text",
    "C106_head_refuted",
    "C106_element_refuted"
   ],
   "note": "about normalised schemas, as Parse reads them; messages are left out; C106_head_refuted and C106_element_refuted are the exceptions; where two things of one type are wrong, any of them that the order of the code reaches first may be told"
  },
  {
   "property": "C107",
   "status": "proved",
   "theorems": [
    "C107_reported",
    "C107_told",
    "C107_name",
    "C107_name_refuted",
    "C107_unknown",
    "C107_self",
    "C107_text"
   ],
   "note": "from the definitions read from normalised schemas; C107_name_refuted is the case of two documents of a namespace; C107_text gives the local names of types, elements and attributes, and the whole name of what is missing; C107_self is for documents whose top-level elements are plain, as in C99"
  },
  {
   "property": "C108",
   "status": "proved",
   "theorems": [
    "C108_reported",
    "C108_told",
    "C108_untyped_refuted",
    "C108_text",
    "C108_named",
    "C108_text_refuted"
   ],
   "note": "C108_untyped_refuted and C108_text_refuted are where the texts mislead or leave out; the text of go/parser is not modelled"
  },
  {
   "property": "C109",
   "status": "proved",
   "theorems": [
    "C109_reported",
    "C109_told",
    "C109_everything_refuted",
    "C109_lines"
   ],
   "note": "for runs that neither panic nor loop (see C75, C76, C79 for when they do not); the text of go/parser is not modelled; C109_everything_refuted: one thing is told of each type"
  }
 ]
}