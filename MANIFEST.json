{
 "claims": [
  {
   "property": "C01",
   "status": "proved",
   "theorems": [
    "C01_path_print_parse",
    "C01_why_no_backslash"
   ],
   "note": "Exact; C01_why_no_backslash shows that other paths can be read silently as different steps."
  },
  {
   "property": "C02",
   "status": "proved",
   "theorems": [
    "C02_no_panic_without_long_index",
    "C02_parse_total",
    "C02_panics_exactly_when",
    "C02_short_ascii_expressions_never_panic"
   ],
   "note": "Exact (C02_panics_exactly_when)."
  },
  {
   "property": "C03",
   "status": "proved",
   "theorems": [
    "C03_accepted_starts_with_one_root",
    "C03_accepted_canonical_form",
    "C03_no_backslash",
    "C03_why_no_backslash"
   ],
   "note": "Exact."
  },
  {
   "property": "C04",
   "status": "proved",
   "theorems": [
    "C04_weight_zero",
    "C04_matches_exactly_when",
    "C04_weight_value",
    "C04_why_fewer_than_64"
   ],
   "note": "Exact; C04_why_fewer_than_64 is the overflow."
  },
  {
   "property": "C05",
   "status": "proved",
   "theorems": [
    "C05_path_equality_is_step_equality",
    "C05_parsed_paths",
    "C05_why_built_from_steps"
   ],
   "note": "Exact."
  },
  {
   "property": "C06",
   "status": "proved",
   "theorems": [
    "C06_json_pointer_denotes_path",
    "C06_json_pointer_rejects_exactly_wildcards"
   ],
   "note": "Proved in full."
  },
  {
   "property": "C07",
   "status": "proved",
   "theorems": [
    "C07_string_form_agrees_with_steps",
    "C07_inspection"
   ],
   "note": "Proved for all histories of the listed public operations starting at the root path."
  },
  {
   "property": "C08",
   "status": "proved",
   "theorems": [
    "C08_rule_applied",
    "C08_rule_defined",
    "C08_body_rule_is_most_specific",
    "C08_deeper_path_is_more_specific",
    "C08_exact_step_is_more_specific",
    "C08_why_short_paths"
   ],
   "note": "Exact; the 64-bit boundary is shown by C08_why_short_paths."
  },
  {
   "property": "C09",
   "status": "proved",
   "theorems": [
    "C09_body_selection_ignores_order",
    "C09_no_ties",
    "C09_why_agree",
    "C09_why_headers_agree",
    "C09_first_entry_selection"
   ],
   "note": "Exact (iff); order-dependent selections are shown by C09_why_agree and C09_why_headers_agree."
  },
  {
   "property": "C10",
   "status": "proved",
   "theorems": [
    "C10_rule_roundtrip",
    "C10_plain_rule_roundtrip",
    "C10_rule_comes_back",
    "C10_writing_aborts_exactly_when",
    "C10_why_resolved",
    "C10_why_writable"
   ],
   "note": "Exact; conditions shown necessary by C10_why_*."
  },
  {
   "property": "C11",
   "status": "proved",
   "theorems": [
    "C11_collection_roundtrip",
    "C11_why_one_field",
    "C11_why_not_matchers",
    "C11_why_root_path_rule"
   ],
   "note": "Proved under collection_ok; each condition shown necessary by a C11_why_* theorem."
  },
  {
   "property": "C12",
   "status": "proved",
   "theorems": [
    "C12_v2_body_rules_keep_first_rule",
    "C12_why_one_dollar",
    "C12_why_not_status",
    "C12_v2_collection_keeps_first_rules",
    "C12_why_simple_names"
   ],
   "note": "Proved with conditions shown necessary by C12_why_*."
  },
  {
   "property": "C13",
   "status": "proved",
   "theorems": [
    "C13_equality_reflexive",
    "C13_equality_symmetric",
    "C13_equality_transitive",
    "C13_equal_rules_hash_equally",
    "C13_equal_rules_mean_the_same",
    "C13_why_no_status"
   ],
   "note": "Proved; C13_why_no_status shows the exception, and that removing duplicates drops a rule."
  },
  {
   "property": "C14",
   "status": "proved",
   "theorems": [
    "C14_body_scalar",
    "C14_body_array",
    "C14_body_object",
    "C14_and_needs_every_rule",
    "C14_or_needs_one_rule",
    "C14_no_rules_is_a_mismatch",
    "C14_reports_the_failing_rules",
    "C14_body_scalar_single_entry",
    "C14_body_array_single_entry",
    "C14_why_not_objects",
    "C14_why_a_rule"
   ],
   "note": "Proved in full, for any set of rules in the body; C14_why_* show why objects are the exception."
  },
  {
   "property": "C15",
   "status": "proved",
   "theorems": [
    "C15_sized_rule_in_a_body",
    "C15_type_rule_compares_types",
    "C15_sized_rules",
    "C15_why_nonempty"
   ],
   "note": "Proved in full; C15_why_nonempty shows the empty expected array."
  },
  {
   "property": "C16",
   "status": "proved",
   "theorems": [
    "C16_status_rule_accepts_exactly_its_class",
    "C16_without_rules_status_must_be_equal",
    "C16_other_values",
    "C16_why_status"
   ],
   "note": "Proved in full."
  },
  {
   "property": "C17",
   "status": "proved",
   "theorems": [
    "C17_body_matches_itself"
   ],
   "note": "Proved in full (documents without NaN; serde_json cannot hold one)."
  },
  {
   "property": "C18",
   "status": "proved",
   "theorems": [
    "C18_request_body_must_be_equal"
   ],
   "note": "Proved in full."
  },
  {
   "property": "C19",
   "status": "proved",
   "theorems": [
    "C19_response_body_may_add_entries"
   ],
   "note": "Proved in full."
  },
  {
   "property": "C20",
   "status": "proved",
   "theorems": [
    "C20_allowing_keys_is_more_lenient"
   ],
   "note": "Proved in full, for every rule set."
  },
  {
   "property": "C21",
   "status": "proved",
   "theorems": [
    "C21_names_ignore_case",
    "C21_only_expected_headers_count",
    "C21_extra_headers_are_ignored",
    "C21_without_rules",
    "C21_missing_header_maps",
    "C21_why_names_must_differ"
   ],
   "note": "Proved in full; C21_why_names_must_differ shows the condition on actual names is needed (the verdict depends on the hash map order)."
  },
  {
   "property": "C22",
   "status": "proved",
   "theorems": [
    "C22_structured_values",
    "C22_parameter_order",
    "C22_extra_parameters_are_accepted"
   ],
   "note": "Proved in full for well-formed values (a media type, parameters of the form name=value)."
  },
  {
   "property": "C23",
   "status": "proved",
   "theorems": [
    "C23_query_without_rules",
    "C23_names_reported",
    "C23_no_value_is_an_empty_value"
   ],
   "note": "Proved in full."
  },
  {
   "property": "C24",
   "status": "proved",
   "theorems": [
    "C24_grouping_keeps_every_mismatch",
    "C24_matched_iff_no_mismatch",
    "C24_matched_iff_every_part_matches",
    "C24_hand_made_results",
    "C24_method_or_path"
   ],
   "note": "Proved in full, for results of match_request and for every result whose path mismatch list is not empty."
  },
  {
   "property": "C25",
   "status": "proved",
   "theorems": [
    "C25_methods",
    "C25_any_text",
    "C25_is_an_equivalence"
   ],
   "note": "Proved in full; for other text, equal lower-case forms."
  },
  {
   "property": "C26",
   "status": "proved",
   "theorems": [
    "C26_query_roundtrip",
    "C26_query_comes_back_exactly_when",
    "C26_why_ascii",
    "C26_why_safe_name"
   ],
   "note": "Proved as stated; C26_why_* show a non-ASCII value and a name with an ampersand that do not come back."
  },
  {
   "property": "C27",
   "status": "proved",
   "theorems": [
    "C27_parsing_gives_a_map",
    "C27_encoding_panics_exactly_when",
    "C27_why_digits"
   ],
   "note": "Proved in full (the decoder is a total function of the model without a panic case)."
  },
  {
   "property": "C28",
   "status": "proved",
   "theorems": [
    "C28_http_pacts",
    "C28_message_pacts",
    "C28_v4_pacts",
    "C28_merge_succeeds",
    "C28_nothing_lost",
    "C28_nothing_invented",
    "C28_why_states_alike",
    "C28_why_parameters_alike",
    "C28_why_keys_distinct"
   ],
   "note": "Exact characterisation for the three kinds of pacts plus the consequence 'nothing lost' with its condition; C28_why_* show that the condition cannot be dropped."
  },
  {
   "property": "C29",
   "status": "proved",
   "theorems": [
    "C29_merge_with_itself",
    "C29_incoherent_is_refused",
    "C29_written_again_and_again",
    "C29_why_descriptions_ascend",
    "C29_histories",
    "C29_refused_leaves_the_file"
   ],
   "note": "C29_why_descriptions_ascend is the proved boundary of the V4 claim (n writes give n copies)."
  },
  {
   "property": "C30",
   "status": "proved",
   "theorems": [
    "C30_participants",
    "C30_never_panics",
    "C30_conflicts",
    "C30_only_http_conflicts"
   ],
   "note": "Proved for the whole modelled merge."
  },
  {
   "property": "C31",
   "status": "proved",
   "theorems": [
    "C31_what_a_crash_leaves",
    "C31_failed_merge_leaves_the_file",
    "C31_every_prefix_can_be_left",
    "C31_failed_overwrite_empties_the_file"
   ],
   "note": "Small-step model with crash points at every system call. The stronger claim 'old or new content' is false of the code: C31_every_prefix_can_be_left."
  },
  {
   "property": "C32",
   "status": "proved",
   "theorems": [
    "C32_handle_of_a_pair",
    "C32_different_pairs",
    "C32_call_reaches_its_interaction",
    "C32_message_call_reaches_its_message",
    "C32_unknown_handle",
    "C32_number_zero"
   ],
   "note": "Exact, C32_number_zero is the exception."
  },
  {
   "property": "C33",
   "status": "proved",
   "theorems": [
    "C33_succeeds_iff",
    "C33_failure_changes_nothing",
    "C33_reads_back",
    "C33_rest_of_the_buffer",
    "C33_excess_cleared_iff"
   ],
   "note": "Exact; the excess is cleared completely only in the cases given by C33_excess_cleared_iff (the code clears from offset 2n, not n)."
  },
  {
   "property": "C34",
   "status": "proved",
   "theorems": [
    "C34_deep_merge_is_the_merge",
    "C34_empty_object_is_neutral",
    "C34_idempotent_exactly_without_elements",
    "C34_why_without_elements"
   ],
   "note": "Proved in full."
  },
  {
   "property": "C35",
   "status": "proved",
   "theorems": [
    "C35_commas",
    "C35_headers_come_back_exactly_when",
    "C35_why_no_comma",
    "C35_why_one_value"
   ],
   "note": "Proved in full (both directions)."
  },
  {
   "property": "C36",
   "status": "proved",
   "theorems": [
    "C36_array_contains_each_variant",
    "C36_order_of_the_actual_array_is_irrelevant",
    "C36_without_variants",
    "C36_array_contains_each_variant_single_entry",
    "C36_order_of_the_actual_array_is_irrelevant_single_entry",
    "C36_without_variants_single_entry"
   ],
   "note": "Proved for any set of rules."
  },
  {
   "property": "C37",
   "status": "proved",
   "theorems": [
    "C37_join_distinguishes_keys",
    "C37_key_is_a_field",
    "C37_why_not_numbers"
   ],
   "note": "Exact."
  },
  {
   "property": "C38",
   "status": "proved",
   "theorems": [
    "C38_type_rule_governs_the_sub_document",
    "C38_only_rule_governs",
    "C38_type_rule_governs_the_sub_document_single_entry",
    "C38_type_rule_at_the_root"
   ],
   "note": "Proved for any set of rules."
  },
  {
   "property": "C39",
   "status": "proved",
   "theorems": [
    "C39_order_of_the_rules_is_irrelevant",
    "C39_no_ties",
    "C39_why_agree"
   ],
   "note": "Proved; C39_why_agree shows two orders with different verdicts otherwise."
  },
  {
   "property": "C40",
   "status": "proved",
   "theorems": [
    "C40_decoding_inverts_any_encoding",
    "C40_parsing_any_encoding",
    "C40_decoding_any_text",
    "C40_why_encoded"
   ],
   "note": "Proved in full."
  },
  {
   "property": "C41",
   "status": "proved",
   "theorems": [
    "C41_v3_query_roundtrip",
    "C41_why_strings"
   ],
   "note": "Proved in full; C41_why_strings: a number in a hand-written array is read as the text of the whole array."
  },
  {
   "property": "C42",
   "status": "proved",
   "theorems": [
    "C42_json_value",
    "C42_text_value",
    "C42_why_unsigned",
    "C42_not_empty_collections"
   ],
   "note": "Proved in full; regex, semver, date and float parsing are parameters of the model (world). C42_why_unsigned records the difference between integers in text and in JSON."
  },
  {
   "property": "C43",
   "status": "proved",
   "theorems": [
    "C43_rule_names",
    "C43_unknown_rule_names",
    "C43_category_names"
   ],
   "note": "Array-contains, each-key and each-value names are covered by C10."
  },
  {
   "property": "C44",
   "status": "proved",
   "theorems": [
    "C44_remove_duplicates",
    "C44_remove_duplicates_is_stable"
   ],
   "note": "Rule lists whose nested hash maps have distinct keys (a representation invariant of HashMap)."
  },
  {
   "property": "C45",
   "status": "proved",
   "theorems": [
    "C45_each_value_on_arrays",
    "C45_each_value_on_objects",
    "C45_values_rule_on_objects",
    "C45_definition_in_force",
    "C45_each_value_on_arrays_single_entry",
    "C45_each_value_on_objects_single_entry",
    "C45_values_rule_on_objects_single_entry"
   ],
   "note": "Proved for any set of rules and any documents; the _single_entry theorems give closed forms for scalars."
  },
  {
   "property": "C46",
   "status": "proved",
   "theorems": [
    "C46_each_key",
    "C46_each_key_single_entry",
    "C46_values_are_not_compared"
   ],
   "note": "Proved for any set of rules and any documents; C46_each_key_single_entry gives a closed form for scalars."
  },
  {
   "property": "C47",
   "status": "proved",
   "theorems": [
    "C47_query_parameter",
    "C47_no_expected_value",
    "C47_why_plain_name",
    "C47_header",
    "C47_path"
   ],
   "note": "Proved for one rule list at a name that is not a non-canonical number (C47_why_plain_name: 01 is not found), with rules other than array-contains and each-value."
  },
  {
   "property": "C48",
   "status": "proved",
   "theorems": [
    "C48_json_body",
    "C48_unreadable_json",
    "C48_request_without_rules",
    "C48_json_request",
    "C48_total"
   ],
   "note": "Proved relative to the external parsers (JSON, MIME); header values of Accept/Content-Type well-formed, actual header names distinct ignoring case."
  },
  {
   "property": "C49",
   "status": "proved",
   "theorems": [
    "C49_response_without_rules",
    "C49_json_response"
   ],
   "note": "Proved relative to the external parsers (JSON, MIME)."
  },
  {
   "property": "C50",
   "status": "proved",
   "theorems": [
    "C50_any_body_if_none_is_expected",
    "C50_expected_empty",
    "C50_expected_present",
    "C50_types_differ",
    "C50_types_differ_and_nothing_expected",
    "C50_why_comparable"
   ],
   "note": "Proved in full."
  },
  {
   "property": "C51",
   "status": "proved",
   "theorems": [
    "C51_same_bytes",
    "C51_text_rule",
    "C51_short_body_panics"
   ],
   "note": "Proved in full."
  },
  {
   "property": "C52",
   "status": "proved",
   "theorems": [
    "C52_json_types",
    "C52_xml_types",
    "C52_text_or_binary",
    "C52_text_types",
    "C52_equivalence_is_reflexive",
    "C52_attributes_not_expected",
    "C52_attributes_expected",
    "C52_not_symmetric",
    "C52_suffix_ignored",
    "C52_content_type_of_a_part"
   ],
   "note": "Proved in full. Recorded boundaries: equivalence is not symmetric, and it ignores the suffix (hal+json is equivalent to hal+xml)."
  },
  {
   "property": "C53",
   "status": "proved",
   "theorems": [
    "C53_forms"
   ],
   "note": "Proved relative to the external form decoder (serde_urlencoded)."
  },
  {
   "property": "C54",
   "status": "proved",
   "theorems": [
    "C54_metadata_without_rules",
    "C54_json_message",
    "C54_no_contents_expected",
    "C54_multipart_panics"
   ],
   "note": "Proved in full."
  },
  {
   "property": "C55",
   "status": "proved",
   "theorems": [
    "C55_sync_messages",
    "C55_no_expected_responses"
   ],
   "note": "Proved in full; without expected responses any responses are accepted (C55_no_expected_responses)."
  },
  {
   "property": "C56",
   "status": "proved",
   "theorems": [
    "C56_score",
    "C56_score_in_eight_bits",
    "C56_why_127_parts"
   ],
   "note": "Proved in full; C56_why_127_parts: with 130 matching headers the score is negative in a release build and the computation panics in a debug build."
  },
  {
   "property": "C57",
   "status": "proved",
   "theorems": [
    "C57_plugins_of_both",
    "C57_plugins_with_v3",
    "C57_lists_grow"
   ],
   "note": "Proved."
  },
  {
   "property": "C58",
   "status": "proved",
   "theorems": [
    "C58_readers_see_whole_pacts",
    "C58_unlocked_file_is_whole",
    "C58_why_no_overwriting"
   ],
   "note": "Small-step model; C58_why_no_overwriting is the boundary."
  },
  {
   "property": "C59",
   "status": "proved",
   "theorems": [
    "C59_threads_take_turns",
    "C59_why_one_process"
   ],
   "note": "Serialisability by invariant; C59_why_one_process is the boundary."
  },
  {
   "property": "C60",
   "status": "proved",
   "theorems": [
    "C60_last_error",
    "C60_threads_apart",
    "C60_too_small_loses_the_message"
   ],
   "note": ""
  },
  {
   "property": "C61",
   "status": "proved",
   "theorems": [
    "C61_logs_once"
   ],
   "note": ""
  },
  {
   "property": "C62",
   "status": "proved",
   "theorems": [
    "C62_created",
    "C62_created_message",
    "C62_still_there",
    "C62_untouched",
    "C62_same_description_same_handle",
    "C62_why_65535",
    "C62_why_65535_messages",
    "C62_freed",
    "C62_pacts_once"
   ],
   "note": "C62_why_65535, C62_why_65535_messages: beyond that limit handles are cut or spill into another pact."
  },
  {
   "property": "C63",
   "status": "proved",
   "theorems": [
    "C63_refused_but_done",
    "C63_test_name"
   ],
   "note": "The documentation says that these calls fail; the theorem states what the code does."
  },
  {
   "property": "C64",
   "status": "proved",
   "theorems": [
    "C64_values_of_a_parameter",
    "C64_any_order"
   ],
   "note": "Plain values; values that are integration JSON are not modelled here."
  },
  {
   "property": "C65",
   "status": "proved",
   "theorems": [
    "C65_values_of_a_header",
    "C65_any_order",
    "C65_why_one_value",
    "C65_set_header"
   ],
   "note": "Plain values; values that are integration JSON are not modelled here."
  },
  {
   "property": "C66",
   "status": "proved",
   "theorems": [
    "C66_own_part_only",
    "C66_given_with_param",
    "C66_states_named_once",
    "C66_given",
    "C66_comments",
    "C66_texts",
    "C66_simple",
    "C66_http_calls_on_messages"
   ],
   "note": ""
  },
  {
   "property": "C67",
   "status": "proved",
   "theorems": [
    "C67_body_matching",
    "C67_rules_read_are_body_rules"
   ],
   "note": "Proved in full: the specification (SpecBody.v, conforms) is an inductive relation that does not mention the code."
  },
  {
   "property": "C68",
   "status": "proved",
   "theorems": [
    "C68_expression_is_expanded",
    "C68_gives_a_value_exactly_when",
    "C68_aborts_exactly_when",
    "C68_fails_exactly_when",
    "C68_plain_expression_is_a_name",
    "C68_other_expressions_are_expanded"
   ],
   "note": "Exact in all three outcomes; C68_aborts_exactly_when documents a panic on texts like \"a}${b}\"."
  },
  {
   "property": "C69",
   "status": "proved",
   "theorems": [
    "C69_value_has_the_declared_type",
    "C69_value_of_the_type_is_kept",
    "C69_conversion_fails_exactly_when",
    "C69_conversion_in_bodies_never_aborts",
    "C69_text_aborts_exactly_when",
    "C69_no_type_keeps_the_value",
    "C69_why_negative_texts",
    "C69_why_large_numbers",
    "C69_type_name_round_trip",
    "C69_integers_keep_their_worth",
    "C69_integers_as_text",
    "C69_decimals_keep_their_worth",
    "C69_booleans_keep_their_worth"
   ],
   "note": "f64 conversions are modelled with SpecFloat (IEEE), str::parse::<f64> is an argument. C69_why_negative_texts and C69_why_large_numbers show where body and header conversions disagree."
  },
  {
   "property": "C70",
   "status": "proved",
   "theorems": [
    "C70_generators_come_back_exactly_when",
    "C70_loaded_generators_survive",
    "C70_adding_replaces",
    "C70_why_keys"
   ],
   "note": "The V2 (non-)writing of generators is covered with the pact writing properties."
  },
  {
   "property": "C71",
   "status": "proved",
   "theorems": [
    "C71_exactly_the_addressed_values_change",
    "C71_order_does_not_matter",
    "C71_other_mode_changes_nothing",
    "C71_why_plain_keys",
    "C71_why_overlap"
   ],
   "note": "What a generator produces is an argument here (any outcome per call); see C73 for the outcomes."
  },
  {
   "property": "C72",
   "status": "proved",
   "theorems": [
    "C72_async_message",
    "C72_sync_message",
    "C72_async_as_message",
    "C72_why_async",
    "C72_request",
    "C72_response",
    "C72_message",
    "C72_form_parameter",
    "C72_request_body",
    "C72_response_body",
    "C72_message_body",
    "C72_nothing_to_generate",
    "C72_generators_used",
    "C72_why_printed_again",
    "C72_why_headers"
   ],
   "note": "the values a generator produces are an arbitrary outcome function here; C73 describes the values themselves V4 messages: C72_async_message, C72_sync_message; C72_async_as_message says when the two ways of generating metadata agree, C72_why_async that they do not in general."
  },
  {
   "property": "C73",
   "status": "proved",
   "theorems": [
    "C73_decimals",
    "C73_integers",
    "C73_integers_panic",
    "C73_statuses",
    "C73_why_status_bounds",
    "C73_strings",
    "C73_hexadecimals",
    "C73_uuids",
    "C73_booleans",
    "C73_regex_anchors",
    "C73_json_texts",
    "C73_json_others",
    "C73_json_decimals",
    "C73_accepted",
    "C73_accepted_texts",
    "C73_array_contains",
    "C73_mock_server_url",
    "C73_panics_in_bodies",
    "C73_provider_state_values",
    "C73_status_from_state",
    "C73_why_status_from_state"
   ],
   "note": "The regular expression sampler, the clock with date expressions and the regular expression engine are arguments of the model. Panics inside nested array-contains generators end the call."
  },
  {
   "property": "C74",
   "status": "proved",
   "theorems": [
    "C74_only_definitions",
    "C74_documented_language",
    "C74_one_reading",
    "C74_is_definition",
    "C74_merging_types",
    "C74_why_junk_at_the_end",
    "C74_why_decimal_from_state",
    "C74_why_escapes",
    "C74_why_no_backslash_at_the_end",
    "C74_why_at_least",
    "C74_why_64_bits"
   ],
   "note": "The logos lexer is modelled as longest match (its documented semantics); how much it swallows at an error is an arbitrary function. Texts of error messages are not modelled. Known deviations proved: junk at the end, decimal with provider state, unescaped values, trailing backslash, atLeast not recognised."
  },
  {
   "property": "C75",
   "status": "proved",
   "theorems": [
    "C75_what_a_matcher_says",
    "C75_document",
    "C75_total",
    "C75_no_markers_left",
    "C75_plain_documents",
    "C75_matchers_lead_to_their_values",
    "C75_rules_apply_to_the_values",
    "C75_outcome"
   ],
   "note": "Rules are created by the functions of C10, C43 and C74. Logging and error texts are not modelled."
  },
  {
   "property": "C76",
   "status": "proved",
   "theorems": [
    "C76_plain_text",
    "C76_value_only",
    "C76_matcher",
    "C76_generators",
    "C76_path_and_status",
    "C76_metadata_text",
    "C76_metadata",
    "C76_metadata_panics",
    "C76_why_first_value_again",
    "C76_why_status_needs_a_value"
   ],
   "note": "C76_why_first_value_again: setting the first value again and then a later one loses the rules given first. C76_why_status_needs_a_value: the documented example of pactffi_response_status_v2 has no value and gives status 0."
  },
  {
   "property": "C77",
   "status": "proved",
   "theorems": [
    "C77_filter",
    "C77_filter_decides",
    "C77_why_bad_pattern",
    "C77_selected_are_verified"
   ],
   "note": ""
  },
  {
   "property": "C78",
   "status": "proved",
   "theorems": [
    "C78_interaction",
    "C78_requests",
    "C78_no_panic",
    "C78_why_message_status"
   ],
   "note": ""
  },
  {
   "property": "C79",
   "status": "proved",
   "theorems": [
    "C79_pacts_considered",
    "C79_run",
    "C79_pending"
   ],
   "note": ""
  },
  {
   "property": "C80",
   "status": "proved",
   "theorems": [
    "C80_published",
    "C80_why_version_needed",
    "C80_run_finishes",
    "C80_notices",
    "C80_why_notice_of_failure",
    "C80_description"
   ],
   "note": ""
  },
  {
   "property": "C81",
   "status": "proved",
   "theorems": [
    "C81_url",
    "C81_query",
    "C81_request",
    "C81_refused",
    "C81_why_custom_header",
    "C81_why_method",
    "C81_address",
    "C81_retries",
    "C81_why_no_retries",
    "C81_base_url",
    "C81_wanted_transport",
    "C81_body",
    "C81_answer",
    "C81_metadata"
   ],
   "note": ""
  },
  {
   "property": "C82",
   "status": "proved",
   "theorems": [
    "C82_payload",
    "C82_all_passed",
    "C82_some_failed",
    "C82_each_interaction",
    "C82_published_pact",
    "C82_why_ids_needed"
   ],
   "note": "C82_why_ids_needed: interactions without ids are merged into one entry with an empty id."
  },
  {
   "property": "C83",
   "status": "proved",
   "theorems": [
    "C83_template",
    "C83_no_variables",
    "C83_find_link",
    "C83_round_trip",
    "C83_doc_context",
    "C83_links_of_document",
    "C83_iter_links"
   ],
   "note": "The word characters beyond ASCII of the regular expression class are an argument."
  },
  {
   "property": "C84",
   "status": "proved",
   "theorems": [
    "C84_answer",
    "C84_latest_pacts",
    "C84_pacts_for_verification",
    "C84_selector",
    "C84_selection",
    "C84_listed",
    "C84_why_notices",
    "C84_resolve"
   ],
   "note": "C84_why_notices: one listed pact whose verification properties lack notices makes the whole list count as empty (not found)."
  },
  {
   "property": "C85",
   "status": "proved",
   "theorems": [
    "C85_publishing",
    "C85_published"
   ],
   "note": ""
  },
  {
   "property": "C86",
   "status": "proved",
   "theorems": [
    "C86_server_errors",
    "C86_state_change",
    "C86_without_url",
    "C86_why_retries",
    "C86_why_names",
    "C86_set_up_or_tear_down"
   ],
   "note": "reqwest and http are outside: which names and values HTTP allows, and the answers, are arguments. The text of the JSON body is that of the model of serde_json's printer. Log messages and the texts of errors are not modelled."
  },
  {
   "property": "C87",
   "status": "proved",
   "theorems": [
    "C87_directory",
    "C87_why_flat"
   ],
   "note": "Reading a file is outside the model: each file is given by the result of reading it."
  },
  {
   "property": "C88",
   "status": "proved",
   "theorems": [
    "C88_mismatches",
    "C88_passed",
    "C88_error",
    "C88_response",
    "C88_message",
    "C88_why_collections",
    "C88_sync_passed",
    "C88_sync_mismatches",
    "C88_sync_error"
   ],
   "note": "Without colours. Texts of error messages are an argument. The report of a synchronous message is modelled but only its shape is the message's; with several responses the code itself reports on the first only."
  },
  {
   "property": "C89",
   "status": "proved",
   "theorems": [
    "C89_exact",
    "C89_without_rules",
    "C89_itself",
    "C89_interleaving",
    "C89_bodies",
    "C89_http",
    "C89_example",
    "C89_why_sizes",
    "C89_why_unexpected",
    "C89_why_text"
   ],
   "note": "The parser (sxd_document) is an argument; a document is its root element with qualified names, attributes and child nodes. C89_exact is the comparison of elements, C89_bodies and C89_http of bodies and of request and response bodies, C89_without_rules the meaning without rules. C89_why_sizes: size bounds count the nodes inside each element; C89_why_unexpected and C89_why_text show further surprises."
  },
  {
   "property": "C90",
   "status": "proved",
   "theorems": [
    "C90_example_matches_own_rules",
    "C90_hypotheses_met",
    "C90_why_canonical_keys",
    "C90_why_exemplary",
    "C90_strip_null_fields",
    "C90_strip_null_not_deep"
   ],
   "note": "The Pattern macros' parsing is not modelled; object_matching! is excluded (its rules are Pattern.v's PObjectMatching). Needed hypotheses are shown necessary by C90_why_*."
  },
  {
   "property": "C91",
   "status": "proved",
   "theorems": [
    "C91_pattern_accepts_exactly",
    "C91_example",
    "C91_why_untied",
    "C91_min_zero",
    "C91_term_accepts_number"
   ],
   "note": "The depth bound 57 keeps path weights below overflow; C91_why_untied shows nested each_like! with a ruled element depends on map order."
  },
  {
   "property": "C92",
   "status": "proved",
   "theorems": [
    "C92_leftovers",
    "C92_date_expressions",
    "C92_date_round_trip",
    "C92_time_round_trip",
    "C92_time_expressions"
   ],
   "note": "Lexers of the crate logos (longest match) are modelled; how much is consumed after an error is an argument. Leftovers such as '+ 1 day yesterday' are accepted (theorem C92_leftovers)."
  },
  {
   "property": "C93",
   "status": "proved",
   "theorems": [
    "C93_calendar",
    "C93_date_evaluation",
    "C93_date_never_an_error",
    "C93_no_panic",
    "C93_ends_of_months",
    "C93_large_amounts"
   ],
   "note": "Zones with changing offsets are not modelled. Amounts of 2^30 and more are truncated or panic (C93_large_amounts)."
  },
  {
   "property": "C94",
   "status": "proved",
   "theorems": [
    "C94_date_texts",
    "C94_time_texts",
    "C94_datetime_texts",
    "C94_documented",
    "C94_twelve_o_clock",
    "C94_time_evaluation",
    "C94_time_never_an_error",
    "C94_base_keeps_day"
   ],
   "note": ""
  },
  {
   "property": "C95",
   "status": "proved",
   "theorems": [
    "C95_accepted",
    "C95_panics",
    "C95_year_panics",
    "C95_formats",
    "C95_default_date",
    "C95_default_time",
    "C95_day_of_year",
    "C95_offset_hours",
    "C95_leap_day",
    "C95_zone_names",
    "C95_quoted",
    "C95_quotes_squeezed"
   ],
   "note": "Modelled: TimeFormat.v. The tables of chrono-tz and of zone abbreviations are arguments (functions from text to bool)."
  },
  {
   "property": "C96",
   "status": "proved",
   "theorems": [
    "C96_accepted",
    "C96_dates",
    "C96_date_with_time",
    "C96_fraction_panics",
    "C96_short_years",
    "C96_hours",
    "C96_day_of_year",
    "C96_zones",
    "C96_default_timestamp"
   ],
   "note": "chrono's strftime items are modelled from its documentation (TimeFormat.v, write_item): a trusted part."
  },
  {
   "property": "C97",
   "status": "proved",
   "theorems": [
    "C97_file_roundtrip",
    "C97_why_null",
    "C97_why_response_type",
    "C97_request_type",
    "C97_why_json_null",
    "C97_why_json_empty",
    "C97_why_status",
    "C97_why_header"
   ],
   "note": "The text of the file (serde_json's parser and printer) and the parsing of MIME types are external; a type has to parse from its own text."
  },
  {
   "property": "C98",
   "status": "proved",
   "theorems": [
    "C98_file_roundtrip",
    "C98_declared_type_is_kept",
    "C98_declared_request_type_is_kept",
    "C98_why_plain_text",
    "C98_why_base64",
    "C98_why_json_null",
    "C98_why_unknown"
   ],
   "note": ""
  },
  {
   "property": "C99",
   "status": "proved",
   "theorems": [
    "C99_message_file_roundtrip",
    "C99_no_older_message_files",
    "C99_generators_are_not_read"
   ],
   "note": ""
  },
  {
   "property": "C100",
   "status": "proved",
   "theorems": [
    "C100_http_as_v4",
    "C100_messages_as_v4",
    "C100_v4_as_v4",
    "C100_http_downgraded",
    "C100_messages_downgraded",
    "C100_downgrade_refused",
    "C100_http_there_and_back",
    "C100_messages_there_and_back",
    "C100_loaded_kind",
    "C100_only_objects",
    "C100_messages_are_a_list",
    "C100_old_message_files"
   ],
   "note": ""
  },
  {
   "property": "C101",
   "status": "proved",
   "theorems": [
    "C101_plans_end",
    "C101_matching_ends"
   ],
   "note": "XML values and the xml: actions are not modelled"
  },
  {
   "property": "C102",
   "status": "proved",
   "theorems": [
    "C102_accepted_requests",
    "C102_types_used",
    "C102_other_type_accepted",
    "C102_nested_items_unchecked",
    "C102_flat_documents",
    "C102_hypotheses_met",
    "C102_example"
   ],
   "note": "The theorem states what the engine does, including where that differs from what a user would expect: a body of another content type is accepted (C102_other_type_accepted), array items that are arrays or objects are not compared (C102_nested_items_unchecked). XML bodies and rules are not covered."
  },
  {
   "property": "C103",
   "status": "proved",
   "theorems": [
    "C103_accepted_requests",
    "C103_min_max_never_accepted",
    "C103_path_no_weaker",
    "C103_or_means_and",
    "C103_no_rules_accept_all",
    "C103_hypotheses_met",
    "C103_example"
   ],
   "note": "Not covered: array-contains, each-key and each-value rules, and rules on the body (C101 still covers those)."
  },
  {
   "property": "C104",
   "status": "proved",
   "theorems": [
    "C104_reading_never_panics",
    "C104_other_status_panics",
    "C104_large_index_panics",
    "C104_large_index_in_a_file_panics"
   ],
   "note": "Sufficient conditions for no panic, stated on the JSON document, with converses for the first interaction."
  },
  {
   "property": "C105",
   "status": "proved",
   "theorems": [
    "C105_multipart",
    "C105_fields_and_files",
    "C105_part_data",
    "C105_needs_content_type",
    "C105_parts_read",
    "C105_base64",
    "C105_other_encodings",
    "C105_rules_of_a_file",
    "C105_json_file",
    "C105_fields_without_rules",
    "C105_matches_itself",
    "C105_more_parts",
    "C105_repeated_names",
    "C105_nested",
    "C105_capital_names",
    "C105_http",
    "C105_example",
    "C105_capital_example",
    "C105_panic_contained",
    "C105_hypotheses_met"
   ],
   "note": "The splitting of bytes into fields (multer) and UTF-8 repair are parameters; the 30 second limit and plugins are not modelled."
  },
  {
   "property": "C106",
   "status": "proved",
   "theorems": [
    "C106_query",
    "C106_headers",
    "C106_rules_of_pact_files",
    "C106_forms",
    "C106_request",
    "C106_response",
    "C106_order_of_the_rules_matters",
    "C106_order_with_one_rule_each",
    "C106_lowered_once",
    "C106_example",
    "C106_header_example"
   ],
   "note": "Generalises C23, C21 and C47 to any rule set. Structured headers (Accept, Content-Type) are assumed readable."
  },
  {
   "property": "C107",
   "status": "proved",
   "theorems": [
    "C107_request",
    "C107_response",
    "C107_json_request",
    "C107_json_response",
    "C107_text_request",
    "C107_text_response",
    "C107_request_generators",
    "C107_response_generators",
    "C107_example",
    "C107_path_set_twice",
    "C107_body_set_twice",
    "C107_values_with_a_rule",
    "C107_two_spellings"
   ],
   "note": "Plugin contents and interaction markup are not modelled. Bodies set several times are claimed when all but the last were literal."
  },
  {
   "property": "C108",
   "status": "proved",
   "theorems": [
    "C108_pointers",
    "C108_no_pointer_twice",
    "C108_pointers_lead_back",
    "C108_found_and_looked_up",
    "C108_the_root",
    "C108_other_characters"
   ],
   "note": "kiss_xml is not modelled: the document is its tree, Element::text a parameter. The classes \\w and \\d beyond ASCII are parameters."
  },
  {
   "property": "C109",
   "status": "proved",
   "theorems": [
    "C109_forms_are_read_back",
    "C109_form_characters",
    "C109_form_body",
    "C109_outcome",
    "C109_one_form"
   ],
   "note": "The encoding of the serde_urlencoded crate is modelled from its documentation; printing a JSON value and reading it again is taken as the identity; from_utf8_lossy of invalid bytes is a parameter."
  },
  {
   "property": "C110",
   "status": "proved",
   "theorems": [
    "C110_what_is_made",
    "C110_every_description",
    "C110_what_is_refused"
   ],
   "note": "The document is the tree; printing it (sxd_document) and parsing the JSON text are not modelled."
  },
  {
   "property": "C111",
   "status": "proved",
   "theorems": [
    "C111_configuration",
    "C111_returns",
    "C111_filter",
    "C111_filter_of_the_command_line",
    "C111_result",
    "C111_report_of_the_last_run",
    "C111_why_a_failed_run_reads_as_success",
    "C111_report",
    "C111_codes_are_stripped",
    "C111_selectors",
    "C111_exit_code",
    "C111_why_a_webhook_needs_a_broker",
    "C111_command_line_sources",
    "C111_why_pending_needs_selectors",
    "C111_why_the_provider_comes_first",
    "C111_why_transports_come_after"
   ],
   "note": "C111_configuration and C111_returns: histories; C111_filter with C77: which interactions; C111_result, C111_report_of_the_last_run, C111_report: results; C111_codes_are_stripped; C111_selectors; C111_exit_code, C111_command_line_sources: command line. Clap's parsing and the log buffers are not modelled; the run is a parameter (C79 describes it)."
  },
  {
   "property": "C112",
   "status": "proved",
   "theorems": [
    "C112_async_panics",
    "C112_async_described",
    "C112_v3_message",
    "C112_async_json",
    "C112_async_bytes",
    "C112_sync_panics",
    "C112_unreadable_type",
    "C112_unreadable_sync_type",
    "C112_sync_described",
    "C112_response_generators_lost",
    "C112_sync_request_json",
    "C112_sync_request_bytes",
    "C112_sync_response_json",
    "C112_sync_response_bytes",
    "C112_sync_response_contents",
    "C112_example",
    "C112_sync_example",
    "C112_body_set_twice",
    "C112_type_of_first_body",
    "C112_contents_from_forgets"
   ],
   "note": "Contents set up by plugins are not modelled. JSON of the example must be read back by serde_json as the example."
  },
  {
   "property": "C113",
   "status": "proved",
   "theorems": [
    "C113_http_described",
    "C113_old_http_described",
    "C113_v4_pact",
    "C113_v4_http",
    "C113_http_pact",
    "C113_message_pact",
    "C113_succeeds_iff",
    "C113_or_panics",
    "C113_async_iterator",
    "C113_sync_iterator",
    "C113_generated",
    "C113_example",
    "C113_refused"
   ],
   "note": "Whether the task that generates messages has sent them is a parameter of the model; the generation of one message is a parameter (its effect is C72)."
  },
  {
   "property": "C114",
   "status": "proved",
   "theorems": [
    "C114_body",
    "C114_old_body",
    "C114_request",
    "C114_response",
    "C114_message",
    "C114_old_request",
    "C114_old_response",
    "C114_states",
    "C114_interaction",
    "C114_type_needed",
    "C114_http_interaction",
    "C114_pact",
    "C114_http_pact",
    "C114_old_message",
    "C114_no_version",
    "C114_version",
    "C114_load",
    "C114_example"
   ],
   "note": "The reading functions of PactFile.v and OldFile.v against SpecReading, which speaks of fields of the document only. The contents of matching rules and generators are C11/C12/C70 and only their absence is treated here."
  },
  {
   "property": "C115",
   "status": "proved",
   "theorems": [
    "C115_text",
    "C115_with_body",
    "C115_succeeds",
    "C115_unreadable_type",
    "C115_never_errs",
    "C115_plain_json",
    "C115_binary_body",
    "C115_binary_file"
   ],
   "note": "Parsers (JSON, content types, XML printing) are parameters. The content of forms is characterised by C109, of XML by C110. The handle lookup and NULL/UTF-8 conversion of C strings are not modelled. Found: the header is looked up by its exact name (a second one is added beside \"content-type\"), NULL gives an empty body, rules of an overwritten body stay, a type that cannot be read panics."
  },
  {
   "property": "C116",
   "status": "proved",
   "theorems": [
    "C116_first_marker",
    "C116_new_boundary",
    "C116_files",
    "C116_appended",
    "C116_results"
   ],
   "note": "The bytes the multipart crate makes of one file are a parameter of the shape marker, part, end marker. Found: with a boundary of other characters the second call makes a broken body; a text with a line that has \"--\" takes the part behind it without a header."
  },
  {
   "property": "C117",
   "status": "proved",
   "theorems": [
    "C117_matching_rules",
    "C117_generators"
   ],
   "note": "Found: how the rules of a path are combined (AND/OR) is not changed by a later call that says otherwise."
  },
  {
   "property": "C118",
   "status": "proved",
   "theorems": [
    "C118_text_shown",
    "C118_bytes_shown",
    "C118_last_call_wins",
    "C118_other_parts_keep",
    "C118_number_of_responses",
    "C118_only_contents_change",
    "C118_text_comes_back",
    "C118_bytes_come_back",
    "C118_null_is_null",
    "C118_no_such_response",
    "C118_description",
    "C118_description_kept",
    "C118_description_result",
    "C118_metadata",
    "C118_metadata_refused",
    "C118_metadata_found",
    "C118_message_made",
    "C118_state_name",
    "C118_provider_state"
   ],
   "note": "Who frees what is not modelled; a failed call is modelled as its error value (C60 has the last error). The content type parser and from_utf8_lossy are parameters. V3 get_contents also runs the generators first, which is not modelled. Found: a failed set of a response still adds the responses up to it; contents with neither a type nor a mark are shown as an empty text; a body that is not UTF-8 is accepted by message_new_from_body although the comment says NULL."
  },
  {
   "property": "C119",
   "status": "proved",
   "theorems": [
    "C119_rules",
    "C119_answers",
    "C119_map_order_does_not_matter",
    "C119_no_rules",
    "C119_generators",
    "C119_generators_map_order",
    "C119_metadata",
    "C119_parameters",
    "C119_states",
    "C119_interactions"
   ],
   "note": "Memory and the overflow of the counter are not modelled. Found: NULL does not always mean the end (an entry with a NUL character is NULL too, with an error); the same text is shown bare in metadata and quoted in provider state parameters."
  },
  {
   "property": "C120",
   "status": "proved",
   "theorems": [
    "C120_contents",
    "C120_only_async",
    "C120_succeeds",
    "C120_plain_text",
    "C120_metadata",
    "C120_metadata_succeeds",
    "C120_older_call",
    "C120_second_call",
    "C120_last_call_decides",
    "C120_other_names_keep"
   ],
   "note": "The JSON parser, content types and XML printing are parameters; the handle lookup is C66. A NULL pointer for contents that are not text (undefined behaviour) is not modelled. Found: XML contents are lost (empty bytes) where pactffi_with_body keeps them; a text/plain text that is a JSON document is printed anew; metadata for the responses of a message without responses says true and is lost; a name that is no path panics only if the value has structure."
  },
  {
   "property": "C121",
   "status": "proved",
   "theorems": [
    "C121_last_call_wins",
    "C121_others_keep",
    "C121_read_only",
    "C121_rest_stays",
    "C121_result"
   ],
   "note": "The handle lookup is C66. Found: once the mock server has started the call says false but still changes the metadata; pactffi_with_message_pact_metadata drops the other names of the namespace and writes the protected ones."
  },
  {
   "property": "C122",
   "status": "proved",
   "theorems": [
    "C122_neat",
    "C122_usable",
    "C122_places",
    "C122_strictness",
    "C122_version",
    "C122_other_kinds",
    "C122_written"
   ],
   "note": "The version parser is a parameter that knows the versions the library writes. Found: the requests and responses are not looked at; the messages name the type of the enclosing object instead of the value that is wrong (name, description, params, interactions); attributes that V4 adds are unknown; V4 and message pacts are not verified beyond being an object; a version 9.1 in lenient mode is an error."
  },
  {
   "property": "C123",
   "status": "proved",
   "theorems": [
    "C123_transport",
    "C123_why_a_port_panics",
    "C123_accepted",
    "C123_why_it_panics",
    "C123_options",
    "C123_order",
    "C123_sources",
    "C123_program",
    "C123_authentication"
   ],
   "note": "clap is modelled as far as args.rs uses it (values checked in order, given once, requires/conflicts/required_unless_present_any); the spelling of arguments, help, version and environment variables are not. Found: a transport with a port over 65535, or with digits outside ASCII, panics instead of being a usage error; a password without a user is silently not used."
  },
  {
   "property": "C124",
   "status": "proved",
   "theorems": [
    "C124_attach",
    "C124_level",
    "C124_attached_one",
    "C124_nothing",
    "C124_once",
    "C124_records",
    "C124_why_apply_can_end_the_program",
    "C124_codes",
    "C124_message",
    "C124_message_step"
   ],
   "note": "Records are written whole and a write does not fail; calls are one after the other; what the library logs of itself is an arbitrary record. The filter of pactffi_init is not modelled: for it only C124_once and C124_nothing apply. Found: the answers -5 and -2 cannot happen; attaching after applying is answered with 0, contrary to the documentation, and nothing comes of it; sinks belong to a thread, so applying in another one starts the default; an apply that is refused drops the sinks; applying panics, and so ends the program, if a file cannot be opened a second time; a fetch that fails loses the contents; pactffi_init uses the name of the variable as the filter, not its value."
  },
  {
   "property": "C125",
   "status": "proved",
   "theorems": [
    "C125_tells_apart",
    "C125_every_rule",
    "C125_items",
    "C125_parse",
    "C125_definition",
    "C125_iterator",
    "C125_null",
    "C125_datetime"
   ],
   "note": "What a text stands for is the parser of C74; following a format is that of C95. The text of an error is an arbitrary function; calls with a pointer to something deleted are excluded. Found: a definition with an escaped zero in a value parses without an error, but has neither a value nor an iterator (the unwrap of a CString panics and the call gives NULL)."
  },
  {
   "property": "C126",
   "status": "proved",
   "theorems": [
    "C126_null_is_a_match",
    "C126_message",
    "C126_failed",
    "C126_c_strings",
    "C126_flags",
    "C126_equal_to_itself",
    "C126_type_of_the_call"
   ],
   "note": "Regular expressions, dates, semantic versions, content types, the JSON parser and the texts of errors are arbitrary functions. Found: bytes that differ or cannot be checked, of which one is shorter than ten bytes, give 'INTERNAL ERROR: function panicked' instead of a mismatch (split_at(10) panics)."
  },
  {
   "property": "C127",
   "status": "proved",
   "theorems": [
    "C127_has_type",
    "C127_one_type",
    "C127_why_nothing",
    "C127_rule",
    "C127_base64",
    "C127_checks_types_can_be"
   ],
   "note": "The detection libraries, the detection from text and the parser of content types are arbitrary functions. Found: data of no known signature has the empty content type, whatever it is."
  }
 ]
}