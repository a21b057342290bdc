{
 "claims": [
  {
   "property": "C01",
   "status": "proved",
   "theorems": [
    "C01_layers_everywhere",
    "C01_layers_nonempty",
    "C01_bare_ids_refuted",
    "C01_empty_tuple_refuted"
   ],
   "note": "holds for histories in which add_nodes_from receives (id, dict) tuples and no empty layers tuple; the two excluded cases are refuted by reachable counterexamples (defects of the code)"
  },
  {
   "property": "C02",
   "status": "proved",
   "theorems": [
    "C02_layers_append_only",
    "C02_bare_ids_refuted"
   ],
   "note": "bare ids in add_nodes_from replace layers: refuted by C02_bare_ids_refuted"
  },
  {
   "property": "C03",
   "status": "proved",
   "theorems": [
    "C03_adjacency_consistent",
    "C03_remove_node"
   ],
   "note": "all API calls, successful or not"
  },
  {
   "property": "C04",
   "status": "proved",
   "theorems": [
    "C04_add_edge_adds_one",
    "C04_add_edge_with_key",
    "C04_bad_layers_refused"
   ],
   "note": ""
  },
  {
   "property": "C05",
   "status": "proved",
   "theorems": [
    "C05_add_node_merges",
    "C05_bad_layers_refused"
   ],
   "note": ""
  },
  {
   "property": "C06",
   "status": "proved",
   "theorems": [
    "C06_add_nodes_from_tuples",
    "C06_tuple_precedence_refuted"
   ],
   "note": "the documented precedence fails for existing nodes: refuted"
  },
  {
   "property": "C07",
   "status": "proved",
   "theorems": [
    "C07_add_edges_from_precedence",
    "C07_one_edge_per_tuple"
   ],
   "note": ""
  },
  {
   "property": "C08",
   "status": "proved",
   "theorems": [
    "C08_missing_endpoints"
   ],
   "note": "the docstring (edge only between existing nodes) does not hold; the statement describes the code"
  },
  {
   "property": "C09",
   "status": "proved",
   "theorems": [
    "C09_relabel_isomorphism",
    "C09_relabel_fresh_labels"
   ],
   "note": ""
  },
  {
   "property": "C10",
   "status": "proved",
   "theorems": [
    "C10_identity_mapping_loses_attributes",
    "C10_identity_refuted",
    "C10_falsy_label_refuted"
   ],
   "note": "the desired property is false of the code; theorems state what happens instead"
  },
  {
   "property": "C11",
   "status": "proved",
   "theorems": [
    "C11_mapping_is_positional",
    "C11_mapping_errors",
    "C11_longer_document_refuted"
   ],
   "note": "longer second document accepted silently: refuted"
  },
  {
   "property": "C12",
   "status": "proved",
   "theorems": [
    "C12_merge_preserves_receiver",
    "C12_mapping_failure_is_atomic"
   ],
   "note": "requires different root ids, see C14"
  },
  {
   "property": "C13",
   "status": "proved",
   "theorems": [
    "C13_merge_result"
   ],
   "note": "requires different root ids, see C14"
  },
  {
   "property": "C14",
   "status": "proved",
   "theorems": [
    "C14_root_edge_layers_refuted",
    "C14_same_root_refuted",
    "C14_not_atomic_refuted",
    "C14_same_token_ids_refuted"
   ],
   "note": "the desired property is false of the code: each clause is refuted"
  },
  {
   "property": "C15",
   "status": "proved",
   "theorems": [
    "C15_precedence_chain",
    "C15_too_few_tokens"
   ],
   "note": ""
  },
  {
   "property": "C16",
   "status": "proved",
   "theorems": [
    "C16_offsets_address_text",
    "C16_repeated_id_refuted"
   ],
   "note": "needs distinct token ids; refuted otherwise"
  },
  {
   "property": "C17",
   "status": "proved",
   "theorems": [
    "C17_offsets_on_demand",
    "C17_non_token",
    "C17_all_offsets",
    "C17_all_on_demand_refuted",
    "C17_stale_refuted",
    "C17_unlisted_diverges"
   ],
   "note": "stale and unlisted cases refuted/described"
  },
  {
   "property": "C18",
   "status": "proved",
   "theorems": [
    "C18_span_exact",
    "C18_span_sound",
    "C18_cycle_diverges",
    "C18_span_once",
    "C18_span_once_refuted",
    "C18_text_of_node",
    "C18_falsy_id_refuted"
   ],
   "note": ""
  },
  {
   "property": "C19",
   "status": "proved",
   "theorems": [
    "C19_span_offsets",
    "C19_empty_span"
   ],
   "note": ""
  },
  {
   "property": "C20",
   "status": "proved",
   "theorems": [
    "C20_is_continuous"
   ],
   "note": ""
  },
  {
   "property": "C21",
   "status": "proved",
   "theorems": [
    "C21_nodes_by_layer",
    "C21_neighbors_by_layer",
    "C21_nodes_by_attribute",
    "C21_edges_by",
    "C21_edges_by_attribute",
    "C21_edges_by_attribute_many",
    "C21_untyped_edge_refuted"
   ],
   "note": "untyped edges make select_edges_by fail: refuted"
  },
  {
   "property": "C22",
   "status": "proved",
   "theorems": [
    "C22_pointing_chains"
   ],
   "note": ""
  },
  {
   "property": "C23",
   "status": "proved",
   "theorems": [
    "C23_kwic",
    "C23_kwic_out_of_range",
    "C23_negative_refuted"
   ],
   "note": "negative index wraps: refuted"
  },
  {
   "property": "C24",
   "status": "proved",
   "theorems": [
    "C24_preorder",
    "C24_numbers",
    "C24_sorting"
   ],
   "note": ""
  },
  {
   "property": "C25",
   "status": "proved",
   "theorems": [
    "C25_token_mapper"
   ],
   "note": ""
  },
  {
   "property": "C26",
   "status": "proved",
   "theorems": [
    "C26_segment_offsets"
   ],
   "note": ""
  },
  {
   "property": "C27",
   "status": "proved",
   "theorems": [
    "C27_spans",
    "C27_inclusive",
    "C27_no_words",
    "C27_one_prefix",
    "C27_leading_zeros_refuted",
    "C27_tokens"
   ],
   "note": "leading zeros are lost: refuted"
  },
  {
   "property": "C28",
   "status": "proved",
   "theorems": [
    "C28_round_trip",
    "C28_line_break",
    "C28_injective",
    "C28_graphviz",
    "C28_backslash_refuted"
   ],
   "note": "backslash cases refuted"
  },
  {
   "property": "C29",
   "status": "proved",
   "theorems": [
    "C29_freqt",
    "C29_labels",
    "C29_escape",
    "C29_escape_ambiguous_refuted",
    "C29_int_id",
    "C29_document"
   ],
   "note": "escape is ambiguous: refuted"
  },
  {
   "property": "C30",
   "status": "proved",
   "theorems": [
    "C30_no_colon",
    "C30_unchanged",
    "C30_collision_refuted"
   ],
   "note": "collisions: refuted injectivity"
  },
  {
   "property": "C31",
   "status": "proved",
   "theorems": [
    "C31_half_open",
    "C31_chaining"
   ],
   "note": ""
  },
  {
   "property": "C32",
   "status": "proved",
   "theorems": [
    "C32_written_wf",
    "C32_any_tree",
    "C32_accepted_cycle_refuted"
   ],
   "note": "two satellites under one relation: cycle, refuted"
  },
  {
   "property": "C33",
   "status": "proved",
   "theorems": [
    "C33_round_trip",
    "C33_equal_units_refuted",
    "C33_two_types_refuted"
   ],
   "note": "equal EDU texts and two-typed names refuted"
  },
  {
   "property": "C34",
   "status": "proved",
   "theorems": [
    "C34_header_exact",
    "C34_body_independent",
    "C34_header_history_refuted",
    "C34_reading_history_refuted"
   ],
   "note": "history independence refuted; the exact header is proved"
  },
  {
   "property": "C35",
   "status": "proved",
   "theorems": [
    "C35_spans",
    "C35_written"
   ],
   "note": ""
  },
  {
   "property": "C36",
   "status": "proved",
   "theorems": [
    "C36_round_trip",
    "C36_single_unit_refuted",
    "C36_escape_refuted",
    "C36_mark_refuted",
    "C36_comment_refuted",
    "C36_blank_refuted"
   ],
   "note": "each restriction on texts/names is shown necessary by a _refuted theorem"
  },
  {
   "property": "C37",
   "status": "proved",
   "theorems": [
    "C37_hilda",
    "C37_hilda_any",
    "C37_typecast_refuted",
    "C37_dplp",
    "C37_stagedp",
    "C37_underscore_refuted",
    "C37_rst"
   ],
   "note": "class names in texts and underscores in StageDP tokens refuted (defects of the code)"
  },
  {
   "property": "C38",
   "status": "proved",
   "theorems": [
    "C38_converts",
    "C38_several_satellites_refuted"
   ],
   "note": "trees with several satellites always raise NameError: C38_several_satellites_refuted states it for all of them"
  },
  {
   "property": "C39",
   "status": "proved",
   "theorems": [
    "C39_import",
    "C39_tokens",
    "C39_sentence_spans",
    "C39_spans",
    "C39_limit",
    "C39_precedence",
    "C39_no_file",
    "C39_ignore_traces_refuted",
    "C39_word_sentence_refuted",
    "C39_category_refuted",
    "C39_several_words_refuted"
   ],
   "note": "ignore_traces=False has no effect below the top level, single-word sentences raise KeyError, unary constituents lose their category, several words in one constituent are merged: the _refuted theorems"
  },
  {
   "property": "C40",
   "status": "proved",
   "theorems": [
    "C40_text",
    "C40_mentions",
    "C40_balanced",
    "C40_nested",
    "C40_order_refuted",
    "C40_crossing_refuted",
    "C40_once_refuted",
    "C40_error_refuted"
   ],
   "note": "labels are right for nested spans where an outer span that starts at the same token has the id that sorts first; swapped, crossing and repeated spans refuted"
  },
  {
   "property": "C41",
   "status": "proved",
   "theorems": [
    "C41_read",
    "C41_words",
    "C41_write",
    "C41_write_total",
    "C41_write_any",
    "C41_other_anaphora",
    "C41_round_trip",
    "C41_certain_refuted",
    "C41_search_refuted"
   ],
   "note": "certain annotations always come back uncertain and the text around a match inside a word is lost: C41_certain_refuted (for all texts), C41_search_refuted"
  },
  {
   "property": "C42",
   "status": "proved",
   "theorems": [
    "C42_file",
    "C42_balanced",
    "C42_repeated_refuted",
    "C42_line_break_refuted"
   ],
   "note": "a token reached twice leaves its chain open and line breaks in words break rows: the _refuted theorems"
  },
  {
   "property": "C43",
   "status": "proved",
   "theorems": [
    "C43_import",
    "C43_missing_attribute",
    "C43_check",
    "C43_precedence",
    "C43_span",
    "C43_span_members",
    "C43_repeated_refuted",
    "C43_shared_refuted",
    "C43_precedence_span_refuted",
    "C43_units",
    "C43_connective"
   ],
   "note": "spans with shared connective ids and with precedence edges refuted (C43_repeated_refuted, C43_shared_refuted, C43_precedence_span_refuted)"
  },
  {
   "property": "C44",
   "status": "proved",
   "theorems": [
    "C44_import",
    "C44_rejected",
    "C44_span",
    "C44_same_number_refuted",
    "C44_order_refuted",
    "C44_precedence"
   ],
   "note": "order of acts, second acts and equal turn numbers refuted (C44_order_refuted, C44_same_number_refuted)"
  },
  {
   "property": "C45",
   "status": "proved",
   "theorems": [
    "C45_labels",
    "C45_total",
    "C45_parallel_refuted"
   ],
   "note": "parallel edges refuted"
  },
  {
   "property": "C46",
   "status": "proved",
   "theorems": [
    "C46_traversal",
    "C46_ends",
    "C46_succeeds",
    "C46_cycle",
    "C46_cyclic_refuted"
   ],
   "note": "cyclic graphs: order clause refuted"
  },
  {
   "property": "C47",
   "status": "proved",
   "theorems": [
    "C47_brackets",
    "C47_text_order",
    "C47_bracket_token_refuted"
   ],
   "note": "bracket tokens refuted"
  },
  {
   "property": "C48",
   "status": "proved",
   "theorems": [
    "C48_export",
    "C48_lines",
    "C48_unambiguous",
    "C48_same_text_refuted",
    "C48_newline_refuted"
   ],
   "note": "ids with line ends and equal texts of number and string ids: the _refuted theorems"
  },
  {
   "property": "C49",
   "status": "proved",
   "theorems": [
    "C49_output",
    "C49_no_span",
    "C49_discontinuous_refuted",
    "C49_shared_refuted"
   ],
   "note": "discontinuous and shared mentions: the _refuted theorems"
  },
  {
   "property": "C50",
   "status": "proved",
   "theorems": [
    "C50_single_pass",
    "C50_no_key",
    "C50_any_order",
    "C50_order_refuted",
    "C50_empty_refuted"
   ],
   "note": "dict order / empty map refuted"
  },
  {
   "property": "C51",
   "status": "proved",
   "theorems": [
    "C51_integers",
    "C51_number_labels",
    "C51_unknown_ordering",
    "C51_label_attribute",
    "C51_lists_dangle",
    "C51_tokens_refuted",
    "C51_own_number_refuted",
    "C51_loop_refuted",
    "C51_swapped_refuted"
   ],
   "note": "tokens, root and sentences of the result dangle, own numbers and loops at 0 lose data, swapped numbers raise: the _refuted theorems"
  },
  {
   "property": "C52",
   "status": "proved",
   "theorems": [
    "C52_add_prefix"
   ],
   "note": ""
  },
  {
   "property": "C53",
   "status": "proved",
   "theorems": [
    "C53_sorted",
    "C53_numbers"
   ],
   "note": ""
  },
  {
   "property": "C54",
   "status": "proved",
   "theorems": [
    "C54_import",
    "C54_words",
    "C54_text",
    "C54_accepted",
    "C54_rejected",
    "C54_format",
    "C54_text_refuted",
    "C54_same_number_refuted"
   ],
   "note": "precedence=True only for rejection; features named token and equal word ids: the _refuted theorems"
  },
  {
   "property": "C55",
   "status": "proved",
   "theorems": [
    "C55_below",
    "C55_span",
    "C55_whole"
   ],
   "note": ""
  },
  {
   "property": "C56",
   "status": "proved",
   "theorems": [
    "C56_heads",
    "C56_cycle"
   ],
   "note": ""
  },
  {
   "property": "C57",
   "status": "proved",
   "theorems": [
    "C57_back",
    "C57_round",
    "C57_empty_refuted"
   ],
   "note": "empty sentences: the _refuted theorem; coreference columns are not read in this format"
  },
  {
   "property": "C58",
   "status": "proved",
   "theorems": [
    "C58_values",
    "C58_isolation",
    "C58_call",
    "C58_keyword_layers_refuted"
   ],
   "note": "the excluded call: C58_keyword_layers_refuted"
  },
  {
   "property": "C59",
   "status": "proved",
   "theorems": [
    "C59_own_objects",
    "C59_reachable",
    "C59_shared_dict_refuted",
    "C59_shared_layers_refuted",
    "C59_own_dict_refuted",
    "C59_merge_nodes_refuted",
    "C59_merge_root_refuted"
   ],
   "note": "the five _refuted theorems are concrete heaps that violate the condition, two of them as merge_graphs/merge_rootnodes do"
  },
  {
   "property": "C60",
   "status": "proved",
   "theorems": [
    "C60_merge_value",
    "C60_merge_others",
    "C60_merge_argument",
    "C60_merge_argument_nodes",
    "C60_merge_own_objects",
    "C60_merged_layer_refuted"
   ],
   "note": "hypothesis: token attributes are not sets; C60_merged_layer_refuted shows the sharing that remains"
  },
  {
   "property": "C61",
   "status": "proved",
   "theorems": [
    "C61_sentence",
    "C61_rejected",
    "C61_secondary_label_refuted",
    "C61_secondary_unbound_refuted",
    "C61_forward_refuted",
    "C61_self_loop_refuted"
   ],
   "note": "the four _refuted theorems"
  },
  {
   "property": "C62",
   "status": "proved",
   "theorems": [
    "C62_span",
    "C62_tree",
    "C62_connected",
    "C62_single_refuted",
    "C62_secondary_only_refuted"
   ],
   "note": "the two _refuted theorems"
  },
  {
   "property": "C63",
   "status": "proved",
   "theorems": [
    "C63_document",
    "C63_disjoint",
    "C63_span",
    "C63_span_root",
    "C63_rejected",
    "C63_order_refuted",
    "C63_virtual_root_refuted",
    "C63_namespace_refuted"
   ],
   "note": "spans are proved for the namespace tiger only (C63_namespace_refuted shows why)"
  },
  {
   "property": "C64",
   "status": "proved",
   "theorems": [
    "C64_terminals",
    "C64_unconnected",
    "C64_subordinate",
    "C64_subordinate_twice_refuted"
   ],
   "note": ""
  },
  {
   "property": "C65",
   "status": "proved",
   "theorems": [
    "C65_project",
    "C65_accepted",
    "C65_antecedent_level_refuted",
    "C65_antecedent_label_refuted",
    "C65_name_refuted",
    "C65_no_sentences_refuted"
   ],
   "note": "antecedents that name a level only in the _refuted theorems; ignore_sentence_annotations=False is modelled but not part of a theorem"
  },
  {
   "property": "C66",
   "status": "proved",
   "theorems": [
    "C66_span",
    "C66_precedence_refuted",
    "C66_connected_refuted",
    "C66_chains"
   ],
   "note": "with precedence or connected: the _refuted theorems"
  },
  {
   "property": "C67",
   "status": "proved",
   "theorems": [
    "C67_sentences",
    "C67_empty_sentence_refuted",
    "C67_no_sentence_refuted"
   ],
   "note": ""
  },
  {
   "property": "C68",
   "status": "proved",
   "theorems": [
    "C68_text",
    "C68_potential_markables",
    "C68_twice_refuted",
    "C68_virtual_root_refuted"
   ],
   "note": "the two _refuted theorems"
  },
  {
   "property": "C69",
   "status": "proved",
   "theorems": [
    "C69_figure",
    "C69_unique",
    "C69_unique_tree",
    "C69_braces",
    "C69_single_refuted",
    "C69_command_refuted",
    "C69_order_refuted",
    "C69_nuclei_refuted",
    "C69_no_name_refuted",
    "C69_escape_refuted"
   ],
   "note": "the writer to a file (adds a line end) is not modelled; the _refuted theorems"
  },
  {
   "property": "C70",
   "status": "proved",
   "theorems": [
    "C70_accepted",
    "C70_misread_refuted"
   ],
   "note": ""
  },
  {
   "property": "C71",
   "status": "proved",
   "theorems": [
    "C71_nodes",
    "C71_accepted",
    "C71_order_refuted",
    "C71_roots_refuted"
   ],
   "note": "the name of the graph and the attribute tokenized are not modelled; the _refuted theorems"
  },
  {
   "property": "C72",
   "status": "proved",
   "theorems": [
    "C72_edges",
    "C72_layer_refuted"
   ],
   "note": ""
  },
  {
   "property": "C73",
   "status": "proved",
   "theorems": [
    "C73_text",
    "C73_edus"
   ],
   "note": ""
  },
  {
   "property": "C74",
   "status": "proved",
   "theorems": [
    "C74_span",
    "C74_precedence_refuted"
   ],
   "note": "the _refuted theorem"
  },
  {
   "property": "C75",
   "status": "proved",
   "theorems": [
    "C75_relations",
    "C75_graph",
    "C75_precedence_refuted",
    "C75_blank_refuted",
    "C75_namespace_refuted"
   ],
   "note": "the _refuted theorems"
  },
  {
   "property": "C76",
   "status": "proved",
   "theorems": [
    "C76_graph",
    "C76_accepted",
    "C76_single_refuted"
   ],
   "note": "URMLCorpus: C106; the attributes tokenized, segment_types are not modelled; the _refuted theorem"
  },
  {
   "property": "C77",
   "status": "proved",
   "theorems": [
    "C77_root",
    "C77_top",
    "C77_forest_refuted"
   ],
   "note": "the _refuted theorem"
  },
  {
   "property": "C78",
   "status": "proved",
   "theorems": [
    "C78_text",
    "C78_span",
    "C78_twice_refuted",
    "C78_precedence_refuted",
    "C78_none_refuted"
   ],
   "note": "the _refuted theorems"
  },
  {
   "property": "C79",
   "status": "proved",
   "theorems": [
    "C79_graph",
    "C79_order",
    "C79_accepted",
    "C79_beyond_refuted"
   ],
   "note": "times that are no numbers are not modelled; the _refuted theorem"
  },
  {
   "property": "C80",
   "status": "proved",
   "theorems": [
    "C80_text",
    "C80_span"
   ],
   "note": ""
  },
  {
   "property": "C81",
   "status": "proved",
   "theorems": [
    "C81_document",
    "C81_accepted",
    "C81_category",
    "C81_number_refuted"
   ],
   "note": "the _refuted theorem"
  },
  {
   "property": "C82",
   "status": "proved",
   "theorems": [
    "C82_words",
    "C82_attributes",
    "C82_spans",
    "C82_marks",
    "C82_token_layer_refuted"
   ],
   "note": "the _refuted theorem"
  },
  {
   "property": "C83",
   "status": "proved",
   "theorems": [
    "C83_words",
    "C83_ends",
    "C83_no_colon",
    "C83_common_ids_refuted"
   ],
   "note": "that bytes are valid XML characters is assumed; the _refuted theorem"
  },
  {
   "property": "C84",
   "status": "proved",
   "theorems": [
    "C84_tokens",
    "C84_spans",
    "C84_structs",
    "C84_nodes",
    "C84_values",
    "C84_number_refuted",
    "C84_prefix_refuted",
    "C84_root_refuted"
   ],
   "note": "the _refuted theorems"
  },
  {
   "property": "C85",
   "status": "proved",
   "theorems": [
    "C85_dominance",
    "C85_pointers",
    "C85_dangling_refuted",
    "C85_names_refuted"
   ],
   "note": "which of several parallel edges is exported is left open; the _refuted theorems"
  },
  {
   "property": "C86",
   "status": "proved",
   "theorems": [
    "C86_files"
   ],
   "note": ""
  },
  {
   "property": "C87",
   "status": "proved",
   "theorems": [
    "C87_graph",
    "C87_lists",
    "C87_values"
   ],
   "note": "the <text> element is given: what stands above it is not modelled; non-ASCII ids are not modelled"
  },
  {
   "property": "C88",
   "status": "proved",
   "theorems": [
    "C88_accepted",
    "C88_one_word_refuted"
   ],
   "note": "the _refuted theorem"
  },
  {
   "property": "C89",
   "status": "proved",
   "theorems": [
    "C89_words",
    "C89_edges",
    "C89_twice_refuted"
   ],
   "note": "hypothesis: no word is a child of a word; the _refuted theorem"
  },
  {
   "property": "C90",
   "status": "proved",
   "theorems": [
    "C90_span",
    "C90_units",
    "C90_ranges",
    "C90_phrases",
    "C90_sentences",
    "C90_precedence_refuted"
   ],
   "note": "without precedence; the _refuted theorem"
  },
  {
   "property": "C91",
   "status": "proved",
   "theorems": [
    "C91_ignored"
   ],
   "note": "that the document is read is a hypothesis: ignoring elements can remove a node that a later connective needs"
  },
  {
   "property": "C92",
   "status": "proved",
   "theorems": [
    "C92_next",
    "C92_list",
    "C92_again",
    "C92_length",
    "C92_length_refuted"
   ],
   "note": "the _refuted theorem; debug=True is not modelled"
  },
  {
   "property": "C93",
   "status": "proved",
   "theorems": [
    "C93_graph",
    "C93_lists",
    "C93_accepted"
   ],
   "note": "that the text is the bracketed tree t is stated with the model of the bracket reader (dis_file); the form of t is the specification"
  },
  {
   "property": "C94",
   "status": "proved",
   "theorems": [
    "C94_nodes",
    "C94_text",
    "C94_lost",
    "C94_binary",
    "C94_no_span",
    "C94_no_root_text"
   ],
   "note": ""
  },
  {
   "property": "C95",
   "status": "proved",
   "theorems": [
    "C95_document",
    "C95_accepted",
    "C95_text",
    "C95_kept",
    "C95_all_trees_refuted",
    "C95_whole_text_refuted"
   ],
   "note": "the _refuted theorems"
  },
  {
   "property": "C96",
   "status": "proved",
   "theorems": [
    "C96_nodes",
    "C96_edges",
    "C96_determined",
    "C96_sums"
   ],
   "note": "networkx.info is not modelled; keys are printed as bytes"
  },
  {
   "property": "C97",
   "status": "proved",
   "theorems": [
    "C97_faithful",
    "C97_accepted",
    "C97_classes_refuted"
   ],
   "note": "the _refuted theorem"
  },
  {
   "property": "C98",
   "status": "proved",
   "theorems": [
    "C98_element",
    "C98_document"
   ],
   "note": "hypothesis only_labels: annotations in other children are not written"
  },
  {
   "property": "C99",
   "status": "proved",
   "theorems": [
    "C99_accepted",
    "C99_completed",
    "C99_sentences_refuted"
   ],
   "note": "references counting from the end are excluded by hypothesis; the _refuted theorem"
  },
  {
   "property": "C100",
   "status": "proved",
   "theorems": [
    "C100_drawn",
    "C100_rejected",
    "C100_texts",
    "C100_clash_refuted"
   ],
   "note": "drawing (pydot, graphviz) is not modelled; the _refuted theorem"
  },
  {
   "property": "C101",
   "status": "proved",
   "theorems": [
    "C101_layers",
    "C101_parts",
    "C101_top"
   ],
   "note": ""
  },
  {
   "property": "C102",
   "status": "proved",
   "theorems": [
    "C102_prepared",
    "C102_rejected",
    "C102_root_refuted"
   ],
   "note": "str() and which opaque values are lists are parameters (str of a string is the string); what networkx writes is not modelled; the _refuted theorem"
  },
  {
   "property": "C103",
   "status": "proved",
   "theorems": [
    "C103_merged",
    "C103_exists",
    "C103_order",
    "C103_into_new",
    "C103_text_refuted"
   ],
   "note": "choosing and reading files, and removing anaphoricity:root_node are not modelled; the _refuted theorem"
  },
  {
   "property": "C104",
   "status": "proved",
   "theorems": [
    "C104_ids",
    "C104_files",
    "C104_document",
    "C104_index",
    "C104_part_refuted"
   ],
   "note": "ids with wildcards of fnmatch are excluded by hypothesis; the _refuted theorem"
  },
  {
   "property": "C105",
   "status": "proved",
   "theorems": [
    "C105_tree",
    "C105_one",
    "C105_back",
    "C105_round_trip",
    "C105_mark_refuted"
   ],
   "note": "the tree of the .dis reader is that of the model; word_wrap=0"
  },
  {
   "property": "C106",
   "status": "proved",
   "theorems": [
    "C106_next",
    "C106_order",
    "C106_ended",
    "C106_length",
    "C106_elements",
    "C106_list_refuted",
    "C106_loop_refuted"
   ],
   "note": "documents are not nested; generators that are dropped do not run on (reference counting); C106_elements speaks of the emptied elements of the model"
  }
 ]
}