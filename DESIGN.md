# Formal model of pact-reference (Rust core) in Rocq / Coq 8.16.1

Source modelled: `/repo/rust` (crates `pact_models`, `pact_matching`, `pact_ffi`; see "What is modelled").
All Coq files are in `rocq/theories/`. Every definition of the model cites the file and lines it models.
This file is generated by `tools/design.py` from `tools/design_head.md`, `tools/methods.txt` and the theorems.

## Layout

* Model files (one per area of the code): `Base` `PathExp` `Json` `MatchingRules` `Matchers` `JsonCompare` `Text`
  `QueryString` `Headers` `Query` `ContentType` `Http` `Merge` `Store` `CBuf` `Handles` `Expr` `Generators`
  `GenApply` `GenRequest` `GenValues` `RuleExpr` `Integration` `IntegrationValues` `VerifierClient` `Verifier` `Broker` `StateChange` `Report` `Xml` `Pattern` `Calendar` `DateExpr` `DateEval` `TimeFormat` `Base64` `PactFile` `OldFile` `Engine` `EnginePlan` `Multipart` `Builder`, `XmlPath`, `FormJson`, `XmlJson`, `VerifierHandle`, `MessageBuilder`, `FfiBody`, `FfiRead`, `FfiMessage`, `FileCheck`, `CliArgs` `Logging` `DefFfi` `MatchFfi` `KindOf` and those listed below.
* Specification files `Spec*.v`: the vocabulary of the theorems, independent of the functions of the model
  (they use its data types: paths, JSON values, rules).
* `*Proofs*.v`: lemmas. `Prop*.v`: the theorems `Cnn_...`, each followed by an `Example` in which its
  hypotheses are met by a concrete case. Theorems named `Cnn_why_...` exhibit what happens
  without a condition that the statement of the property has: they are counterexamples that show that the
  condition is needed (most of them are surprising behaviour of the code).

## Modelling conventions

* A Rust `String` is a list of Unicode code points (`str := list N`). Where bytes matter (percent
  decoding, bodies, C buffers) bytes are `N` below 256 and UTF-8 is modelled concretely (`Text.v`).
* `usize`/`u64`/`u16`/`i8` arithmetic has an explicit wrap or panic where the code can overflow.
* `HashMap` iteration order is the order of an association list; theorems quantify over all lists, hence all orders.
  `BTreeMap` and `serde_json::Map` are sorted association lists (`json_wf` says so where it matters).
* A Rust panic is an explicit result (`Panic`), never a silent default.
* Functions that recurse on a value other than structurally take fuel, and a theorem says that the fuel given suffices
  (for instance `compare_unfold` in CompareProofs.v).
* `async` functions of the matching crate are modelled as plain functions: they await nothing but each other when no plugin is involved.

## Trusted base

* Coq's kernel (8.16.1) and its standard library. No axioms: `Print Assumptions` says "Closed under the global
  context" for every theorem listed below (`tools/assumptions.py` prints it for all of them; see the table). `vcheck` lists seven
  constants `Coq.ssr.ssrunder.Under_rel.*`: they are module-type fields of the standard library's ssreflect that get loaded
  with a library file; no theorem depends on them.
* The fidelity of the hand-written model to the Rust code, definition by definition, as cited in the comments.
* What external crates do is not modelled but an argument of the theorems, arbitrary unless a
  hypothesis says otherwise:
  - `world` (Json.v): the non-ASCII parts of `char::is_alphabetic`, `is_numeric`, `is_whitespace`, upper and lower case; printing
    of floats (serde_json / Display) and `str::parse::<f64>().is_ok()`; regular expressions; semver; date formats; content-type sniffing.
  - `externals` (Http.v): parsing of media types (`mime`), content type detection, `serde_json::from_slice`,
    `serde_urlencoded::from_bytes`, MIME multipart comparison, and XML body comparison, for which `Xml.v` gives the model of xml.rs over the parser's result (C89).
* `TimeFormat.v`: what chrono's `format` writes for each `%` item is taken from its documentation; the tables of `chrono-tz` and of zone
  abbreviations are arguments; a fraction field of 20 letters overflows with a panic (overflow checks on, as in debug builds).
* `Store.v` (files): each system call is one atomic step; `flock` as documented; a crash stops all threads of a process between
  steps and leaves what was written; nobody else deletes or renames the file; no call fails except for want of a lock.
* `Handles.v` (C interface): every call holds the lock of the handle table, so calls are one after the other; C strings are given as
  their decoded text or as "null or not UTF-8"; values are plain texts (integration JSON in paths, headers and queries is modelled separately, see below).

## What is not modelled

* Plugins (the driver, plugin content matchers and generators), the Lua console, WASM, JVM/JS/other languages of the repository.
* The HTTP server and client (`pact_mock_server` is not in this repository), the network side of `pact_verifier` (broker and
  provider requests), the CLI, logging other than the in-memory buffers, telemetry.
* The texts of mismatch descriptions and diffs: a mismatch is its location and kind.
* The XML parser and MIME multipart bodies (arguments, see above); the experimental V2 matching engine
  (`pact_matching/src/engine`); `pact_consumer` DSL builders other than the patterns (C90, C91).

## Per property: what is modelled and how it is proved

* **C01 Document path printing and parsing are inverse** (proved). DocPath printing (path_exp.rs) and the recursive-descent parser are modelled token by token; induction on tokens and on the character list, with the parser's state carried through. SpecPath.v gives the printable tokens. Exact; C01_why_no_backslash shows that other paths can be read silently as different steps.
  - `PropPath.v`: C01_path_print_parse, C01_why_no_backslash
* **C02 When parsing a document path expression aborts** (proved). The parser returns Ok, Err or Panic; the panic case is characterised (index overflow) by induction on the input. Exact (C02_panics_exactly_when).
  - `PropPath.v`: C02_no_panic_without_long_index, C02_parse_total, C02_panics_exactly_when, C02_short_ascii_expressions_never_panic
* **C03 Accepted path expressions have a canonical form** (proved). Same parser model: whatever is accepted re-prints and re-parses to the same tokens. Exact.
  - `PropPath.v`: C03_accepted_starts_with_one_root, C03_accepted_canonical_form, C03_no_backslash, C03_why_no_backslash
* **C04 Path expression matching is step-wise prefix matching** (proved). path_weight / matches_path are modelled with their u64 arithmetic; induction over the two lists against the relation `accepts` of SpecPath.v. Exact; C04_why_fewer_than_64 is the overflow.
  - `PropPath.v`: C04_weight_zero, C04_matches_exactly_when, C04_weight_value, C04_why_fewer_than_64
* **C05 Distinct paths have distinct string forms** (proved). Injectivity of the printer on token lists, via C01. Exact.
  - `PropPath.v`: C05_path_equality_is_step_equality, C05_parsed_paths, C05_why_built_from_steps
* **C06 JSON pointers denote the same location as the path** (proved). as_json_pointer and the JSON pointer lookup are modelled; equality of lookups by induction. Proved in full.
  - `PropPath.v`: C06_json_pointer_denotes_path, C06_json_pointer_rejects_exactly_wildcards
* **C07 A path's string form always agrees with its steps** (proved). Invariant of all constructors and mutators of DocPath (push_*, join, parent ...): the stored text is the printed form of the tokens. Proved for all histories of the listed public operations starting at the root path.
  - `PropPath.v`: C07_string_form_agrees_with_steps, C07_inspection
* **C08 The matcher applied at a body location is the most specific one** (proved). select_best_matcher as max_by_key over an association list; the winner is characterised by rank (SpecRules.v). Exact; the 64-bit boundary is shown by C08_why_short_paths.
  - `PropRules.v`: C08_rule_applied, C08_rule_defined, C08_body_rule_is_most_specific, C08_deeper_path_is_more_specific, C08_exact_step_is_more_specific, C08_why_short_paths
* **C09 Matcher selection does not depend on hash map order** (proved). Selection over any permutation of the rule map; exact condition under which the choice does not depend on the order. Exact (iff); order-dependent selections are shown by C09_why_agree and C09_why_headers_agree.
  - `PropRules.v`: C09_body_selection_ignores_order, C09_no_ties, C09_why_agree, C09_why_headers_agree, C09_first_entry_selection
* **C10 Matching rules survive a JSON round trip** (proved). Rules to JSON and back (mod.rs to_json / from_json) by nested induction over rules. Exact; conditions shown necessary by C10_why_*.
  - `PropRules.v`: C10_rule_roundtrip, C10_plain_rule_roundtrip, C10_rule_comes_back, C10_writing_aborts_exactly_when, C10_why_resolved, C10_why_writable
* **C11 Matching rule collections survive a V3/V4 round trip** (proved). matchers_to_json / matchers_from_json over whole collections; relation `comes_back`. Proved under collection_ok; each condition shown necessary by a C11_why_* theorem.
  - `PropRules.v`: C11_collection_roundtrip, C11_why_one_field, C11_why_not_matchers, C11_why_root_path_rule
* **C12 V2 form keeps the first rule of every place** (proved). The V2 form (matchers_to_json for V2) of a whole collection and its reader; by induction over the entries in the order of the keys the first rule of each place survives. Proved with conditions shown necessary by C12_why_*.
  - `PropRules.v`: C12_v2_body_rules_keep_first_rule, C12_why_one_dollar, C12_why_not_status
  - `PropRulesV2.v`: C12_v2_collection_keeps_first_rules, C12_why_simple_names
* **C13 Rule equality is an equivalence that distinguishes behaviour** (proved). The hand-written PartialEq of rules is modelled and shown equal to the independent relation same_rule. Proved; C13_why_no_status shows the exception, and that removing duplicates drops a rule.
  - `PropRules.v`: C13_equality_reflexive, C13_equality_symmetric, C13_equality_transitive, C13_equal_rules_hash_equally, C13_equal_rules_mean_the_same, C13_why_no_status
* **C14 AND / OR combination of rules** (proved). match_values (matchers.rs) for any satisfaction test; in bodies as a consequence of C67. Proved in full, for any set of rules in the body; C14_why_* show why objects are the exception.
  - `PropBody.v`: C14_body_scalar, C14_body_array, C14_body_object
  - `PropMatch.v`: C14_and_needs_every_rule, C14_or_needs_one_rule, C14_no_rules_is_a_mismatch, C14_reports_the_failing_rules, C14_body_scalar_single_entry, C14_body_array_single_entry, C14_why_not_objects, C14_why_a_rule
* **C15 Type matching accepts exactly values of the same JSON type** (proved). json_matches for type rules; in bodies as a consequence of C67. Proved in full; C15_why_nonempty shows the empty expected array.
  - `PropBody.v`: C15_sized_rule_in_a_body
  - `PropMatch.v`: C15_type_rule_compares_types, C15_sized_rules, C15_why_nonempty
* **C16 Status code class rules accept exactly their range** (proved). match_status_code, match_status; case analysis. Proved in full.
  - `PropMatch.v`: C16_status_rule_accepts_exactly_its_class, C16_without_rules_status_must_be_equal, C16_other_values, C16_why_status
* **C17 A JSON body matches itself** (proved). Instance of the body comparison without rules: relation `agrees` (SpecMatch.v) is reflexive. Proved in full (documents without NaN; serde_json cannot hold one).
  - `PropMatch.v`: C17_body_matches_itself
* **C18 Without rules a request body must equal the expected one** (proved). Body comparison without rules, no unexpected keys: equality of documents; induction over the expected document. Proved in full.
  - `PropMatch.v`: C18_request_body_must_be_equal
* **C19 Without rules a response body may only add object keys** (proved). As C18 with added entries allowed. Proved in full.
  - `PropMatch.v`: C19_response_body_may_add_entries
* **C20 Allowing unexpected keys only makes matching more lenient** (proved). Monotonicity of the comparison in the configuration: simulation between the two runs. Proved in full, for every rule set.
  - `PropMatch.v`: C20_allowing_keys_is_more_lenient
* **C21 Header names are matched case-insensitively and extra headers are ignored** (proved). match_headers (headers.rs) against SpecHeaders.v. Proved in full; C21_why_names_must_differ shows the condition on actual names is needed (the verdict depends on the hash map order).
  - `PropHeaders.v`: C21_names_ignore_case, C21_only_expected_headers_count, C21_extra_headers_are_ignored, C21_without_rules, C21_missing_header_maps, C21_why_names_must_differ
* **C22 Parameterised header values ignore parameter order and whitespace** (proved). Parsing of parameterised header values, all layouts (inductive `written`). Proved in full for well-formed values (a media type, parameters of the form name=value).
  - `PropHeaders.v`: C22_structured_values, C22_parameter_order, C22_extra_parameters_are_accepted
* **C23 Query strings match only with the same parameters** (proved). match_query without rules against multiset-free pointwise agreement. Proved in full.
  - `PropHttp.v`: C23_query_without_rules, C23_names_reported, C23_no_value_is_an_empty_value
* **C24 A request is matched exactly when no mismatch is listed** (proved). RequestMatchResult::mismatches / all_matched / method_or_path_matched. Proved in full, for results of match_request and for every result whose path mismatch list is not empty.
  - `PropHttp.v`: C24_grouping_keeps_every_mismatch, C24_matched_iff_no_mismatch, C24_matched_iff_every_part_matches, C24_hand_made_results
  - `PropHttp3.v`: C24_method_or_path
* **C25 Method comparison is case-insensitive equality** (proved). match_method with ASCII case folding. Proved in full; for other text, equal lower-case forms.
  - `PropHttp.v`: C25_methods, C25_any_text, C25_is_an_equivalence
* **C26 Query strings survive a round trip** (proved). build_query_string and parse_query_string; both directions of the round trip, with a length argument on UTF-8 against code-point escapes. Proved as stated; C26_why_* show a non-ASCII value and a name with an ampersand that do not come back.
  - `PropQuery.v`: C26_query_roundtrip, C26_query_comes_back_exactly_when, C26_why_ascii, C26_why_safe_name
* **C27 Percent decoding and encoding never panic** (proved). encode_query with its unwrap; exact panic condition from the number of hexadecimal digits. Proved in full (the decoder is a total function of the model without a panic case).
  - `PropQuery.v`: C27_parsing_gives_a_map, C27_encoding_panics_exactly_when, C27_why_digits
* **C28 What a merged pact contains** (proved). merge of RequestResponsePact, MessagePact and V4Pact (Merge.v) against SpecMerge.v (keys, winners, order). Exact characterisation for the three kinds of pacts plus the consequence 'nothing lost' with its condition; C28_why_* show that the condition cannot be dropped.
  - `PropMerge.v`: C28_http_pacts, C28_message_pacts, C28_v4_pacts, C28_merge_succeeds, C28_nothing_lost, C28_nothing_invented, C28_why_states_alike, C28_why_parameters_alike, C28_why_keys_distinct
* **C29 Writing the same pact again does not duplicate interactions** (proved). Idempotence and absorption of merge; write_pact of the merged pact. C29_why_descriptions_ascend is the proved boundary of the V4 claim (n writes give n copies).
  - `PropMerge2.v`: C29_merge_with_itself, C29_incoherent_is_refused, C29_written_again_and_again, C29_why_descriptions_ascend, C29_histories, C29_refused_leaves_the_file
* **C30 Exactly which merges are refused** (proved). Exact characterisation of the error and panic cases of the three merges. Proved for the whole modelled merge.
  - `PropMerge.v`: C30_participants, C30_never_panics, C30_conflicts, C30_only_http_conflicts
* **C31 What a crash while writing a pact file leaves** (proved). write_pact as a sequence of file-system steps; a crash after any step (Store.v). Small-step model with crash points at every system call. The stronger claim 'old or new content' is false of the code: C31_every_prefix_can_be_left.
  - `PropStore2.v`: C31_what_a_crash_leaves, C31_failed_merge_leaves_the_file, C31_every_prefix_can_be_left, C31_failed_overwrite_empties_the_file
* **C32 FFI handles identify one interaction of one pact** (proved). Handle integers and the global table (Handles.v): the relation `denotes` and what each call does to it. Exact, C32_number_zero is the exception.
  - `PropHandles.v`: C32_handle_of_a_pair, C32_different_pairs, C32_call_reaches_its_interaction, C32_message_call_reaches_its_message, C32_unknown_handle, C32_number_zero
* **C33 Writing a string into a C buffer is safe and exact** (proved). write_to_c_buf / into_leaked... of util/write.rs on byte lists (CBuf.v). Exact; the excess is cleared completely only in the cases given by C33_excess_cleared_iff (the code clears from offset 2n, not n).
  - `PropCBuf.v`: C33_succeeds_iff, C33_failure_changes_nothing, C33_reads_back, C33_rest_of_the_buffer, C33_excess_cleared_iff
* **C34 JSON deep merge is a right-biased merge** (proved). json_deep_merge against the relation `merged` (SpecMatch.v). Proved in full.
  - `PropMatch.v`: C34_deep_merge_is_the_merge, C34_empty_object_is_neutral, C34_idempotent_exactly_without_elements, C34_why_without_elements
* **C35 Header values survive a round trip through the pact file** (proved). headers_to_json / headers_from_json; both directions of the round trip. Proved in full (both directions).
  - `PropHeaders.v`: C35_commas, C35_headers_come_back_exactly_when, C35_why_no_comma, C35_why_one_value
* **C36 Array-contains matching does not depend on order** (proved). compare_lists_with_matchingrule for array-contains, from C67; Permutation. Proved for any set of rules.
  - `PropBody.v`: C36_array_contains_each_variant, C36_order_of_the_actual_array_is_irrelevant, C36_without_variants
  - `PropMatch.v`: C36_array_contains_each_variant_single_entry, C36_order_of_the_actual_array_is_irrelevant_single_entry, C36_without_variants_single_entry
* **C37 Different object keys lead to different paths** (proved). join and push_field: injectivity of child paths. Exact.
  - `PropPath.v`: C37_join_distinguishes_keys, C37_key_is_a_field, C37_why_not_numbers
* **C38 A type rule governs the whole sub-document below it** (proved). From C67 by induction over the document, with the rule in force everywhere below. Proved for any set of rules.
  - `PropBody.v`: C38_type_rule_governs_the_sub_document, C38_only_rule_governs
  - `PropMatch.v`: C38_type_rule_governs_the_sub_document_single_entry, C38_type_rule_at_the_root
* **C39 The body verdict does not depend on hash map iteration order** (proved). Two contexts that give the same lookups give the same comparison (bisimulation on fuel); lookups under permutations. Proved; C39_why_agree shows two orders with different verdicts otherwise.
  - `PropBody.v`: C39_order_of_the_rules_is_irrelevant
  - `PropMatch.v`: C39_no_ties, C39_why_agree
* **C40 Percent decoding inverts any standard encoding** (proved). decode_query against the inductive relations `encodes` and `read_as` (SpecQuery.v). Proved in full.
  - `PropQuery.v`: C40_decoding_inverts_any_encoding, C40_parsing_any_encoding, C40_decoding_any_text, C40_why_encoded
* **C41 Query parameters survive the V3/V4 JSON form** (proved). query_to_json / v3_query_from_json. Proved in full; C41_why_strings: a number in a hand-written array is read as the text of the whole array.
  - `PropQuery.v`: C41_v3_query_roundtrip, C41_why_strings
* **C42 Each value rule means what its name says** (proved). One theorem per kind of value: json_matches and str_matches against SpecValues.v. Proved in full; regex, semver, date and float parsing are parameters of the model (world). C42_why_unsigned records the difference between integers in text and in JSON.
  - `PropValues.v`: C42_json_value, C42_text_value, C42_why_unsigned, C42_not_empty_collections
* **C43 Rule and category names are read as documented** (proved). MatchingRule::create and Category::from_str by case analysis over all texts. Array-contains, each-key and each-value names are covered by C10.
  - `PropValues.v`: C43_rule_names, C43_unknown_rule_names, C43_category_names
* **C44 Removing duplicate rules loses no rule** (proved). remove_duplicates / add_rule on rule lists. Rule lists whose nested hash maps have distinct keys (a representation invariant of HashMap).
  - `PropValues.v`: C44_remove_duplicates, C44_remove_duplicates_is_stable
* **C45 Each-value and values rules govern every entry** (proved). From C67; closed forms for scalars by direct induction. Proved for any set of rules and any documents; the _single_entry theorems give closed forms for scalars.
  - `PropBody.v`: C45_each_value_on_arrays, C45_each_value_on_objects, C45_values_rule_on_objects, C45_definition_in_force
  - `PropValues.v`: C45_each_value_on_arrays_single_entry, C45_each_value_on_objects_single_entry, C45_values_rule_on_objects_single_entry
* **C46 Each-key rules govern every key** (proved). From C67; closed form for scalars. Proved for any set of rules and any documents; C46_each_key_single_entry gives a closed form for scalars.
  - `PropBody.v`: C46_each_key
  - `PropValues.v`: C46_each_key_single_entry, C46_values_are_not_compared
* **C47 Rules on query parameters, headers and paths decide their comparison** (proved). Rule lists on query, header and path categories through the generic list comparison. Proved for one rule list at a name that is not a non-canonical number (C47_why_plain_name: 01 is not found), with rules other than array-contains and each-value.
  - `PropGovern.v`: C47_query_parameter, C47_no_expected_value, C47_why_plain_name, C47_header, C47_path
* **C48 A request without rules matches exactly when all its parts agree** (proved). match_request_result composed of C23, C21, C25, C50, C51, C53, C18. Proved relative to the external parsers (JSON, MIME); header values of Accept/Content-Type well-formed, actual header names distinct ignoring case.
  - `PropHttp2.v`: C48_json_body, C48_unreadable_json, C48_request_without_rules, C48_json_request, C48_total
* **C49 A response without rules matches exactly when all its parts agree** (proved). match_response composed likewise. Proved relative to the external parsers (JSON, MIME).
  - `PropHttp2.v`: C49_response_without_rules, C49_json_response
* **C50 Presence of a body decides before its contents** (proved). match_body (lib.rs) by cases on the two bodies. Proved in full.
  - `PropHttp2.v`: C50_any_body_if_none_is_expected, C50_expected_empty, C50_expected_present, C50_types_differ, C50_types_differ_and_nothing_expected, C50_why_comparable
* **C51 Text and binary bodies are compared byte by byte** (proved). match_text, match_octet_stream. Proved in full.
  - `PropHttp2.v`: C51_same_bytes, C51_text_rule, C51_short_body_panics
* **C52 Content types are classified and compared consistently** (proved). ContentType predicates and is_equivalent_to. Proved in full. Recorded boundaries: equivalence is not symmetric, and it ignores the suffix (hal+json is equivalent to hal+xml).
  - `PropHttp2.v`: C52_json_types, C52_xml_types, C52_text_or_binary, C52_text_types, C52_equivalence_is_reflexive, C52_attributes_not_expected, C52_attributes_expected, C52_not_symmetric, C52_suffix_ignored
  - `PropHttp3.v`: C52_content_type_of_a_part
* **C53 Form bodies match as sets of fields** (proved). match_form_urlencoded: fields collected into a query map. Proved relative to the external form decoder (serde_urlencoded).
  - `PropHttp2.v`: C53_forms
* **C54 Messages match on contents and expected metadata** (proved). match_message, match_message_metadata. Proved in full.
  - `PropMessage.v`: C54_metadata_without_rules, C54_json_message, C54_no_contents_expected, C54_multipart_panics
* **C55 Synchronous messages match on request and every response** (proved). match_sync_message. Proved in full; without expected responses any responses are accepted (C55_no_expected_responses).
  - `PropMessage.v`: C55_sync_messages, C55_no_expected_responses
* **C56 The score of a comparison counts matching and mismatching parts** (proved). RequestMatchResult::score in i8 arithmetic. Proved in full; C56_why_127_parts: with 130 matching headers the score is negative in a release build and the computation panics in a debug build.
  - `PropHttp2.v`: C56_score, C56_score_in_eight_bits, C56_why_127_parts
* **C57 Plugin data of merged V4 pacts** (proved). add_plugin_data and config merge. Proved.
  - `PropMerge3.v`: C57_plugins_of_both, C57_plugins_with_v3, C57_lists_grow
* **C58 Readers never see a partly written pact file** (proved). Interleaving semantics of readers and writers with flock (Store.v): invariant over all reachable states. Small-step model; C58_why_no_overwriting is the boundary.
  - `PropStore.v`: C58_readers_see_whole_pacts, C58_unlocked_file_is_whole
  - `PropStore2.v`: C58_why_no_overwriting
* **C59 Threads of one process that write a pact file take turns** (proved). WRITE_LOCK and lock_exclusive: invariant over all reachable states; serialisability of merges. Serialisability by invariant; C59_why_one_process is the boundary.
  - `PropStore2.v`: C59_threads_take_turns, C59_why_one_process
* **C60 The last error message is per thread and read once** (proved). The thread-local LAST_ERROR: histories of calls of several threads. 
  - `PropCBuf.v`: C60_last_error, C60_threads_apart, C60_too_small_loses_the_message
* **C61 Log buffers give every line once** (proved). InMemBuffer: append and fetch over all histories. 
  - `PropCBuf.v`: C61_logs_once
* **C62 Handles keep their meaning in the course of a program** (proved). `denotes` is preserved along every sequence of calls. C62_why_65535, C62_why_65535_messages: beyond that limit handles are cut or spill into another pact.
  - `PropHandles.v`: C62_created, C62_created_message, C62_still_there, C62_untouched, C62_same_description_same_handle, C62_why_65535, C62_why_65535_messages, C62_freed, C62_pacts_once
* **C63 Calls after the mock server was started report failure but take effect** (proved). The started flag: result against effect of each call. The documentation says that these calls fail; the theorem states what the code does.
  - `PropHandles.v`: C63_refused_but_done, C63_test_name
* **C64 Query parameter values set by index** (proved). with_query_parameter_v2: positional update of the values. Plain values; values that are integration JSON are not modelled here.
  - `PropHandles2.v`: C64_values_of_a_parameter, C64_any_order
* **C65 Header values set by index** (proved). with_header_v2: positional update, case-insensitive names. Plain values; values that are integration JSON are not modelled here.
  - `PropHandles2.v`: C65_values_of_a_header, C65_any_order, C65_why_one_value, C65_set_header
* **C66 Each FFI call changes its own part of the interaction** (proved). Frame conditions of each edit call. 
  - `PropHandles3.v`: C66_own_part_only, C66_given_with_param, C66_states_named_once, C66_given, C66_comments, C66_texts, C66_simple, C66_http_calls_on_messages
* **C67 What a JSON body has to satisfy under any set of matching rules** (proved). compare_json for every rule set: equivalence with the inductive relation `conforms` (SpecBody.v) by induction on the depth of the expected document. Proved in full: the specification (SpecBody.v, conforms) is an inductive relation that does not mention the code.
  - `PropBody.v`: C67_body_matching, C67_rules_read_are_body_rules
* **C68 Provider state expressions are expanded exactly as written** (proved). The loop of replace_expressions is modelled with its index arithmetic and slices (Expr.v). SpecExpr.v describes texts as pieces; the three outcomes are each characterised (iff), by induction on the references and a classification of all texts. Exact in all three outcomes; C68_aborts_exactly_when documents a panic on texts like "a}${b}".
  - `PropExpr.v`: C68_expression_is_expanded, C68_gives_a_value_exactly_when, C68_aborts_exactly_when, C68_fails_exactly_when, C68_plain_expression_is_a_name, C68_other_expressions_are_expanded
* **C69 Provider state values are converted to the declared type** (proved). as_json, TryFrom and Display of DataValue are modelled case by case with 64-bit and IEEE conversions; case analysis, plus a proof that every 64-bit integer converts to a finite double (FloatProofs.v). f64 conversions are modelled with SpecFloat (IEEE), str::parse::<f64> is an argument. C69_why_negative_texts and C69_why_large_numbers show where body and header conversions disagree.
  - `PropExpr2.v`: C69_value_has_the_declared_type, C69_value_of_the_type_is_kept, C69_conversion_fails_exactly_when, C69_conversion_in_bodies_never_aborts, C69_text_aborts_exactly_when, C69_no_type_keeps_the_value, C69_why_negative_texts, C69_why_large_numbers, C69_type_name_round_trip
  - `PropExpr3.v`: C69_integers_keep_their_worth, C69_integers_as_text, C69_decimals_keep_their_worth, C69_booleans_keep_their_worth
* **C70 Generators survive the pact file** (proved). The Generator enum, its JSON form and the collection operations are modelled function by function (Generators.v). SpecGenerators.v says what a collection holds and which keys a category can carry; the round trip is an iff, by induction over categories and entries up to permutation; everything read is shown to be carryable. The V2 (non-)writing of generators is covered with the pact writing properties.
  - `PropGenerators.v`: C70_generators_come_back_exactly_when, C70_loaded_generators_survive, C70_adding_replaces, C70_why_keys
* **C71 Generators change exactly the addressed values of a JSON body** (proved). resolve_path (with the arena tree), serde_json pointers and JsonHandler are modelled (GenApply.v); SpecGenApply.v defines when one document is another one changed exactly at the addressed places, by recursion on the path. Proof: the pointers found are exactly the routes to the addressed values (induction on the path), applying at routes refines the relation; changes at parting paths commute, hence any order. What a generator produces is an argument here (any outcome per call); see C73 for the outcomes.
  - `PropGenApply.v`: C71_exactly_the_addressed_values_change, C71_order_does_not_matter, C71_other_mode_changes_nothing, C71_why_plain_keys, C71_why_overlap
* **C72 Generating a request, response or message changes only what has a generator** (proved). generate_request, generate_response and generate_message with their per-category steps are modelled (GenRequest.v) over an arbitrary outcome of every generator; SpecGenRequest.v says what happens to one named entry. Proof: folds over generators commute with looking up one name; bodies reduce to C71. the values a generator produces are an arbitrary outcome function here; C73 describes the values themselves V4 messages: C72_async_message, C72_sync_message; C72_async_as_message says when the two ways of generating metadata agree, C72_why_async that they do not in general.
  - `PropGenMessages.v`: C72_async_message, C72_sync_message, C72_async_as_message, C72_why_async
  - `PropGenRequest.v`: C72_request, C72_response, C72_message, C72_form_parameter, C72_request_body, C72_response_body, C72_message_body, C72_nothing_to_generate, C72_generators_used, C72_why_printed_again, C72_why_headers
* **C73 Generated values have the promised form** (proved). Every generator is modelled as a function of a splittable source of draws (GenValues.v), so quantifying over sources is quantifying over random outcomes; both directions (only such values, all such values) are proved by building sources. Array-contains: the inner application refines apply_key of C71. The regular expression sampler, the clock with date expressions and the regular expression engine are arguments of the model. Panics inside nested array-contains generators end the call.
  - `PropGenValues2.v`: C73_decimals, C73_integers, C73_integers_panic, C73_statuses, C73_why_status_bounds, C73_strings, C73_hexadecimals, C73_uuids, C73_booleans, C73_regex_anchors, C73_json_texts, C73_json_others, C73_json_decimals, C73_accepted, C73_accepted_texts, C73_array_contains, C73_mock_server_url, C73_panics_in_bodies
  - `PropGenValues3.v`: C73_provider_state_values, C73_status_from_state, C73_why_status_from_state
* **C74 Matching rule definition expressions are read as their grammar says** (proved). The lexer and every function of the parser are modelled (RuleExpr.v); SpecRuleExpr.v is the documented grammar as inductive relations over the words of the text, with a flag for what is accepted beyond it. Proof: soundness by following each parser function, completeness by induction on derivations (fuel bounded by the length of the text). The logos lexer is modelled as longest match (its documented semantics); how much it swallows at an error is an arbitrary function. Texts of error messages are not modelled. Known deviations proved: junk at the end, decimal with provider state, unescaped values, trailing backslash, atLeast not recognised.
  - `PropRuleExpr.v`: C74_only_definitions, C74_documented_language, C74_one_reading, C74_is_definition, C74_merging_types, C74_why_junk_at_the_end, C74_why_decimal_from_state, C74_why_escapes, C74_why_no_backslash_at_the_end, C74_why_at_least, C74_why_64_bits
* **C75 Matchers written into a JSON document apply to their example values** (proved). All functions of bodies.rs that read integration JSON are modelled with the mutable category and generators as a threaded store (Integration.v). SpecIntegration.v gives the meaning of a document as an inductive relation (example value, and matchers with the route each applies to), and what adding rules and generators to maps means. Proof: refinement by induction on the recursion bound; the consequences by induction on the relation. Rules are created by the functions of C10, C43 and C74. Logging and error texts are not modelled.
  - `PropIntegration.v`: C75_what_a_matcher_says, C75_document, C75_total, C75_no_markers_left, C75_plain_documents, C75_matchers_lead_to_their_values, C75_rules_apply_to_the_values, C75_outcome
* **C76 Matchers in paths, query parameters, headers, status codes and metadata** (proved). from_integration_json_v2 and the value part of pactffi_with_metadata are modelled over the store of Integration.v (IntegrationValues.v); SpecIntegrationValues.v says which texts, at which place, and what renaming means. Proof: decomposition into the C75 refinement followed by the rekeying and the additions. C76_why_first_value_again: setting the first value again and then a later one loses the rules given first. C76_why_status_needs_a_value: the documented example of pactffi_response_status_v2 has no value and gives status 0.
  - `PropIntegrationValues.v`: C76_plain_text, C76_value_only, C76_matcher, C76_generators, C76_path_and_status, C76_metadata_text, C76_metadata, C76_metadata_panics, C76_why_first_value_again, C76_why_status_needs_a_value
* **C77 Filters select exactly the matching interactions** (proved). `filter_interaction` against a declarative `selected`; whole runs by induction over the pacts with `picked`. 
  - `PropVerifier.v`: C77_filter, C77_filter_decides, C77_why_bad_pattern
  - `PropVerifier2.v`: C77_selected_are_verified
* **C78 One interaction: setup, one request, teardown** (proved). the run of one interaction as a relation `interaction_verified` on histories of events, proved from the monadic model by following each call; an environment whose answers depend on the whole history. 
  - `PropVerifier.v`: C78_interaction, C78_requests, C78_no_panic
  - `PropVerifier3.v`: C78_why_message_status
* **C79 The verdict of a run** (proved). induction over the loaded pacts, with `pacts_verified` and the lists of counted failures. 
  - `PropVerifier.v`: C79_pacts_considered, C79_run
  - `PropVerifier3.v`: C79_pending
* **C80 Publishing and notices** (proved). the same induction for published events and for the texts of notices; totality by induction. 
  - `PropVerifier2.v`: C80_published, C80_why_version_needed, C80_run_finishes, C80_notices, C80_why_notice_of_failure
  - `PropVerifierClient2.v`: C80_description
* **C81 The request the provider gets** (proved). lemmas on trimming, sorting and header pairs; retries by induction over the number of tries. 
  - `PropVerifierClient.v`: C81_url, C81_query, C81_request, C81_refused, C81_why_custom_header, C81_why_method, C81_address, C81_retries, C81_why_no_retries
  - `PropVerifierClient2.v`: C81_base_url, C81_wanted_transport, C81_body, C81_answer, C81_metadata
* **C82 The results published to a broker say what happened** (proved). The payload is modelled as the JSON value that is posted; its members are read back by name, entries are related to groups of neighbouring results by induction over the results, and the verifier's own results are shown (from C78) never to carry an empty list of mismatches. C82_why_ids_needed: interactions without ids are merged into one entry with an empty id.
  - `PropBroker.v`: C82_payload, C82_all_passed, C82_some_failed, C82_each_interaction, C82_published_pact, C82_why_ids_needed
* **C83 HAL links and their templates** (proved). Templates are specified by an inductive relation (variables replaced left to right, everything else kept) and percent-encoding by decoding; the scanner is proved to satisfy it by induction on the text. Links are specified by what their JSON object says. The word characters beyond ASCII of the regular expression class are an argument.
  - `PropBroker2.v`: C83_template, C83_no_variables, C83_find_link, C83_round_trip, C83_doc_context, C83_links_of_document, C83_iter_links
* **C84 Reading pacts from a broker** (proved). Requests are a log; a call is related to the log by lemmas per step, and the list of pacts by induction. The `url` crate is an arbitrary record of functions, the broker an arbitrary function of the log. C84_why_notices: one listed pact whose verification properties lack notices makes the whole list count as empty (not found).
  - `PropBroker3.v`: C84_answer
  - `PropBroker5.v`: C84_latest_pacts, C84_pacts_for_verification
  - `PropBroker6.v`: C84_selector, C84_selection, C84_listed, C84_why_notices, C84_resolve
* **C85 Publishing happens in order and stops at the first failure** (proved). As C84; in addition a closure property (stops at the first answer that is no document) is proved for every step and shown to be preserved by sequencing. 
  - `PropBroker4.v`: C85_publishing, C85_published
* **C86 Provider state change requests** (proved). the request built by the executor is shown to be one create_native_request accepts and its fields computed by the lemmas for insertion into sorted maps; retries by C81_retries; the answer by cases reqwest and http are outside: which names and values HTTP allows, and the answers, are arguments. The text of the JSON body is that of the model of serde_json's printer. Log messages and the texts of errors are not modelled.
  - `PropReport2.v`: C86_server_errors
  - `PropStateChange.v`: C86_state_change, C86_without_url, C86_why_retries, C86_why_names, C86_set_up_or_tear_down
* **C87 The pacts of a directory** (proved). induction over directory trees (own induction principle for the nested type) Reading a file is outside the model: each file is given by the result of reading it.
  - `PropStateChange.v`: C87_directory, C87_why_flat
* **C88 The printed report names the parts that failed** (proved). existsb over the mismatches against membership; the key of every header mismatch by cases of match_header_entry Without colours. Texts of error messages are an argument. The report of a synchronous message is modelled but only its shape is the message's; with several responses the code itself reports on the first only.
  - `PropReport.v`: C88_mismatches, C88_passed, C88_error, C88_response, C88_message, C88_why_collections
  - `PropReport2.v`: C88_sync_passed, C88_sync_mismatches, C88_sync_error
* **C89 When an XML body matches** (proved). `Xml.v` models xml.rs over an abstract document tree; structural induction on the actual document with the groups of children characterised by filters; the specification `fits` in `SpecXml.v` reuses `in_force` and `text_satisfies` The parser (sxd_document) is an argument; a document is its root element with qualified names, attributes and child nodes. C89_exact is the comparison of elements, C89_bodies and C89_http of bodies and of request and response bodies, C89_without_rules the meaning without rules. C89_why_sizes: size bounds count the nodes inside each element; C89_why_unexpected and C89_why_text show further surprises.
  - `PropXml.v`: C89_exact, C89_without_rules, C89_itself, C89_interleaving, C89_bodies, C89_http, C89_example, C89_why_sizes, C89_why_unexpected, C89_why_text
* **C90 The example of a consumer pattern matches the pattern's own rules** (proved). model of the patterns' example and rule generation (Pattern.v) composed with the JSON comparison; the generated rules are shown equal to a list of (steps, rule) pairs, each of which holds of the example at every place it accepts; induction over the document The Pattern macros' parsing is not modelled; object_matching! is excluded (its rules are Pattern.v's PObjectMatching). Needed hypotheses are shown necessary by C90_why_*.
  - `PropPattern.v`: C90_example_matches_own_rules
  - `PropPattern3.v`: C90_hypotheses_met, C90_why_canonical_keys, C90_why_exemplary, C90_strip_null_fields, C90_strip_null_not_deep
* **C91 A consumer pattern accepts exactly the documents it describes** (proved). same composition; the rule in force at each place is computed from path weights, then induction over the pattern against the inductive description `means` of SpecPattern.v The depth bound 57 keeps path weights below overflow; C91_why_untied shows nested each_like! with a ruled element depends on map order.
  - `PropPattern2.v`: C91_pattern_accepts_exactly
  - `PropPattern3.v`: C91_example, C91_why_untied, C91_min_zero, C91_term_accepts_number
* **C92 Date and time expressions are read exactly as their grammar says** (proved). lexer and parser modelled; a relation for reading words and numbers by longest match and sentences over it (SpecDateText.v) is proved equivalent to the parsers for all texts; round trip of written expressions as a corollary Lexers of the crate logos (longest match) are modelled; how much is consumed after an error is an argument. Leftovers such as '+ 1 day yesterday' are accepted (theorem C92_leftovers).
  - `PropDate3.v`: C92_leftovers
  - `PropDateText.v`: C92_date_expressions
  - `PropDateText2.v`: C92_date_round_trip, C92_time_round_trip
  - `PropTimeText.v`: C92_time_expressions
* **C93 Date expressions move a date by the calendar** (proved). calendar by eras of 400 years, proved to count days one after another (eras, centuries, cycles of four years, years and months in turn); the loops day by day are proved to land on the day the specification (SpecDate.v) describes Zones with changing offsets are not modelled. Amounts of 2^30 and more are truncated or panic (C93_large_amounts).
  - `PropDate.v`: C93_calendar, C93_date_evaluation, C93_date_never_an_error
  - `PropDate2.v`: C93_no_panic
  - `PropDate3.v`: C93_ends_of_months, C93_large_amounts
* **C94 Time expressions and the two together** (proved). evaluation of times proved equal to the specification, texts by composition of C92 and C93; the documented table by computation 
  - `PropDate3.v`: C94_date_texts, C94_time_texts, C94_datetime_texts, C94_documented, C94_twelve_o_clock
  - `PropTime.v`: C94_time_evaluation, C94_time_never_an_error, C94_base_keeps_day
* **C95 Exactly which texts a date or time format accepts** (proved). inductive description of formats (`writes`) and of the texts that fit them (`fits`, with greedy shapes), proved equivalent to the parsers by induction over format and tokens; the calendar of C93 for the day Modelled: TimeFormat.v. The tables of chrono-tz and of zone abbreviations are arguments (functions from text to bool).
  - `PropTimeFormat.v`: C95_accepted, C95_panics, C95_year_panics, C95_formats
  - `PropTimeFormat2.v`: C95_default_date, C95_default_time, C95_day_of_year, C95_offset_hours, C95_leap_day, C95_zone_names, C95_quoted, C95_quotes_squeezed
* **C96 Generated dates and times are accepted by the format they were generated with** (proved). model of the conversion to chrono items and of their output; each faithful item proved to write a text of the shape of its token whatever follows, then induction over the tokens chrono's strftime items are modelled from its documentation (TimeFormat.v, write_item): a trusted part.
  - `PropTimeGen.v`: C96_accepted, C96_dates, C96_date_with_time, C96_fraction_panics, C96_short_years, C96_hours, C96_day_of_year, C96_zones, C96_default_timestamp
* **C97 A V4 pact file read back is the pact that was written** (proved). The writers and readers of every part are composed in PactFile; each part is looked up in what was written (the last entry of a key), and the results of C11 (rules), C70 (generators), C41 (query) are used for the parts; base64 by induction in steps of three bytes; the sort by insertion with a stability invariant. The text of the file (serde_json's parser and printer) and the parsing of MIME types are external; a type has to parse from its own text.
  - `PropPactFile.v`: C97_file_roundtrip
  - `PropPactFile2.v`: C97_why_null, C97_why_response_type, C97_request_type, C97_why_json_null, C97_why_json_empty, C97_why_status, C97_why_header
* **C98 An older pact file of requests and responses comes back as the pact that was written** (proved). OldFile.v models writing and reading of requests, responses, interactions, metadata and pacts for V1 to V3 and the choice of the format on loading; the file is computed, each entry looked up again, and the parts are put together from the round trips of headers, query strings, rules (V2 and V3) and generators. 
  - `PropOldFile.v`: C98_file_roundtrip
  - `PropOldFile2.v`: C98_declared_type_is_kept, C98_declared_request_type_is_kept, C98_why_plain_text, C98_why_base64, C98_why_json_null, C98_why_unknown
* **C99 A V3 message pact file comes back as the pact that was written** (proved). The same for messages; the declared content type is followed through the metadata, and the cases where a file is refused are computed. 
  - `PropOldFile.v`: C99_message_file_roundtrip, C99_no_older_message_files, C99_generators_are_not_read
* **C100 A pact written in the format of another version keeps what that version can hold** (proved). The conversions of OldFile.v are composed with the round trips C97 to C99; refusal is decided by the kinds of the interactions and a proof that writing an old version never returns an error; the version is followed through the metadata of the file. 
  - `PropConvert.v`: C100_http_as_v4, C100_messages_as_v4, C100_v4_as_v4
  - `PropConvert2.v`: C100_http_downgraded, C100_messages_downgraded
  - `PropConvert3.v`: C100_downgrade_refused, C100_http_there_and_back, C100_messages_there_and_back, C100_loaded_kind, C100_only_objects, C100_messages_are_a_list, C100_old_message_files
* **C101 Executing a matching plan always ends** (proved). Engine.v models the plan interpreter with a step bound; EngineRuns.v proves by induction on the depth of a plan that a bound exists from which the outcome no longer changes, for every stack (the queues of splat nodes and the plans that for-each makes included). XML values and the xml: actions are not modelled
  - `PropEngine.v`: C101_plans_end, C101_matching_ends
* **C102 Exactly the requests the V2 matching engine accepts, without rules** (proved). evaluation relation for plans; per part: the executed nodes report an error exactly when the condition fails; then the parts are put together The theorem states what the engine does, including where that differs from what a user would expect: a body of another content type is accepted (C102_other_type_accepted), array items that are arrays or objects are not compared (C102_nested_items_unchecked). XML bodies and rules are not covered.
  - `PropEngine2.v`: C102_accepted_requests, C102_types_used, C102_other_type_accepted, C102_nested_items_unchecked, C102_flat_documents, C102_hypotheses_met, C102_example
* **C103 V2 matching engine: rules on path, query and headers** (proved). `EngineRules.v` shows what a rule node decides (one rule, and lists under "and"/"or"), `EngineRequest.v`/`EngineHeaders.v` decide each parameter and header, `EngineWhole.v` puts the parts together. Not covered: array-contains, each-key and each-value rules, and rules on the body (C101 still covers those).
  - `PropEngine3.v`: C103_accepted_requests, C103_min_max_never_accepted, C103_path_no_weaker, C103_or_means_and, C103_no_rules_accept_all, C103_hypotheses_met, C103_example
* **C104 Reading a pact file never panics, apart from three kinds of content** (proved). The conditions are stated on the JSON document (SpecReadSafe.v); every reading function of the model is shown not to panic under them, down to the path parser (texts of fields are parts of the key, so the V2 keys read twice are covered); converses by computation along the first interaction for an arbitrary rest of the file. Sufficient conditions for no panic, stated on the JSON document, with converses for the first interaction.
  - `PropReadSafe.v`: C104_reading_never_panics, C104_other_status_panics, C104_large_index_panics, C104_large_index_in_a_file_panics
* **C105 Multipart bodies are compared part by part** (proved). The part comparison is shown equivalent to a relation on parts (SpecMultipart.v) by case analysis on the code, reusing the rule lookup lemmas of C67/C89 for fields and headers and C67 for JSON files; the whole body by induction over the expected parts; consequences from the equivalence. The splitting of bytes into fields (multer) and UTF-8 repair are parameters; the 30 second limit and plugins are not modelled.
  - `PropMultipart.v`: C105_multipart
  - `PropMultipart2.v`: C105_fields_and_files, C105_part_data, C105_needs_content_type, C105_parts_read, C105_base64, C105_other_encodings, C105_rules_of_a_file, C105_json_file, C105_fields_without_rules, C105_matches_itself, C105_more_parts, C105_repeated_names, C105_nested, C105_capital_names, C105_http, C105_example, C105_capital_example, C105_panic_contained, C105_hypotheses_met
* **C106 Query parameters, headers and form fields are decided by the rules that apply to them, whatever the rule set** (proved). SpecParams.v states when a parameter or header is accepted under any rule set; PropParams.v shows lookup = first matching rule list, then the generic list comparison, query and header comparison are these relations (induction over value lists and rule lists); PropParams2.v lifts to forms, requests, responses, the rules of pact files, and shows that the order of the rule map matters. Generalises C23, C21 and C47 to any rule set. Structured headers (Accept, Content-Type) are assumed readable.
  - `PropParams.v`: C106_query, C106_headers
  - `PropParams2.v`: C106_rules_of_pact_files, C106_forms, C106_request, C106_response, C106_order_of_the_rules_matters, C106_order_with_one_rule_each, C106_lowered_once, C106_example, C106_header_example
* **C107 A request or response described with the consumer DSL builders accepts exactly what the calls describe** (proved). Builder.v models the builders as a fold over the calls; BuilderProofs*.v show what each category of rules, the query and the header map contain after any sequence (induction over the calls), that lower-casing and shuffling the rule maps keeps this, and that the comparison of C106 with such rules is the relation of SpecBuilder.v; JSON bodies by C91, text bodies by C51; generators by an invariant on the collection. Plugin contents and interaction markup are not modelled. Bodies set several times are claimed when all but the last were literal.
  - `PropBuilder.v`: C107_request
  - `PropBuilder2.v`: C107_response, C107_json_request, C107_json_response, C107_text_request, C107_text_response, C107_request_generators, C107_response_generators
  - `PropBuilder3.v`: C107_example, C107_path_set_twice, C107_body_set_twice, C107_values_with_a_rule, C107_two_spellings
* **C108 A path expression finds in an XML document exactly the elements, attributes and texts it stands for** (proved). XmlPath.v models the arena search as the forest it appends; SpecXmlPath.v defines the ways into a document and what an expression stands for; PropXmlPath.v shows by induction over the expression that the label lists of full depth are exactly these ways; PropXmlPath2.v: labels are injective, so no pointer twice, and following a pointer by induction over the way; PropXmlPath3.v: other names, example. kiss_xml is not modelled: the document is its tree, Element::text a parameter. The classes \w and \d beyond ASCII are parameters.
  - `PropXmlPath.v`: C108_pointers
  - `PropXmlPath2.v`: C108_no_pointer_twice, C108_pointers_lead_back, C108_found_and_looked_up
  - `PropXmlPath3.v`: C108_the_root, C108_other_characters
* **C109 A form body described by JSON becomes exactly the form of its texts and numbers** (proved). FormJson.v models the form encoding and the conversion; PropForm.v: reading inverts writing (induction over bytes and fields); PropFormJson.v: the conversion gives the fields of SpecFormJson.v and its removals amount to dropping paths by text (induction over entries and over the places left out), combined with C75. The encoding of the serde_urlencoded crate is modelled from its documentation; printing a JSON value and reading it again is taken as the identity; from_utf8_lossy of invalid bytes is a parameter.
  - `PropForm.v`: C109_forms_are_read_back, C109_form_characters
  - `PropFormJson.v`: C109_form_body, C109_outcome, C109_one_form
* **C110 An XML body described by JSON becomes exactly the described document, with its rules and generators** (proved). XmlJson.v models xml.rs with fuel for the depth; SpecXmlJson.v describes documents as mutually inductive relations over the JSON description; PropXmlJson.v: what is made is described (induction on fuel and lists); PropXmlJson2.v: every description is followed (mutual induction), no other outcome but a panic. The document is the tree; printing it (sxd_document) and parsing the JSON text are not modelled.
  - `PropXmlJson.v`: C110_what_is_made
  - `PropXmlJson2.v`: C110_every_description, C110_what_is_refused
* **C111 How a verification run is configured and what it returns** (proved). the calls of the FFI handle are modelled one by one and related to what they say; a history's configuration is a relation on the list of sayings (last one on each matter), proved by induction on the history; escape codes by induction on the text; the command line by cases over its options C111_configuration and C111_returns: histories; C111_filter with C77: which interactions; C111_result, C111_report_of_the_last_run, C111_report: results; C111_codes_are_stripped; C111_selectors; C111_exit_code, C111_command_line_sources: command line. Clap's parsing and the log buffers are not modelled; the run is a parameter (C79 describes it).
  - `PropVerifierHandle.v`: C111_configuration, C111_returns
  - `PropVerifierHandle2.v`: C111_filter, C111_filter_of_the_command_line, C111_result, C111_report_of_the_last_run, C111_why_a_failed_run_reads_as_success, C111_report, C111_codes_are_stripped, C111_selectors
  - `PropVerifierHandle3.v`: C111_exit_code, C111_why_a_webhook_needs_a_broker, C111_command_line_sources, C111_why_pending_needs_selectors, C111_why_the_provider_comes_first, C111_why_transports_come_after
* **C112 A message described with the consumer DSL accepts exactly the messages the calls describe** (proved). Model of both message builders as a fold over calls (MessageBuilder.v); the built contents are characterised by snoc induction over the calls (last body, last metadata value since a reset, rules of the patterns), then acceptance is reduced to C91 (patterns), C54 (metadata) and C51 (bytes). Contents set up by plugins are not modelled. JSON of the example must be read back by serde_json as the example.
  - `PropMessageBuilder.v`: C112_async_panics, C112_async_described, C112_v3_message
  - `PropMessageBuilder2.v`: C112_async_json, C112_async_bytes
  - `PropMessageBuilder3.v`: C112_sync_panics, C112_unreadable_type, C112_unreadable_sync_type, C112_sync_described, C112_response_generators_lost, C112_sync_request_json, C112_sync_request_bytes, C112_sync_response_json, C112_sync_response_bytes, C112_sync_response_contents
  - `PropMessageBuilder5.v`: C112_example, C112_sync_example, C112_body_set_twice, C112_type_of_first_body, C112_contents_from_forgets
* **C113 A pact described with the consumer DSL has exactly the described interactions, and its iterators give each message once** (proved). Induction over the calls of the pact builder; the iterators are characterised by an inductive predicate that counts the messages before a position. Whether the task that generates messages has sent them is a parameter of the model; the generation of one message is a parameter (its effect is C72).
  - `PropMessageBuilder4.v`: C113_http_described, C113_old_http_described, C113_v4_pact, C113_v4_http, C113_http_pact, C113_message_pact, C113_succeeds_iff, C113_or_panics, C113_async_iterator, C113_sync_iterator, C113_generated
  - `PropMessageBuilder5.v`: C113_example, C113_refused
* **C114 What each field of a pact file says, and what leaving it out says** (proved). Inversion of every reading function of PactFile.v and OldFile.v against an independent field-by-field reading (SpecReading: field present / left out), lists by induction over the elements. The reading functions of PactFile.v and OldFile.v against SpecReading, which speaks of fields of the document only. The contents of matching rules and generators are C11/C12/C70 and only their absence is treated here.
  - `PropReading.v`: C114_body, C114_old_body, C114_request, C114_response, C114_message, C114_old_request, C114_old_response, C114_states, C114_interaction, C114_type_needed, C114_http_interaction, C114_pact, C114_http_pact
  - `PropReading2.v`: C114_old_message, C114_no_version, C114_version, C114_load, C114_example
* **C115 Bodies given through the C interface** (proved). Model of the calls (FfiBody.v) over the document readers of C75, C109 and C110; each call is inverted into an inductive specification of what a text becomes (SpecFfiBody), totality from the outcome theorems of those readers. Parsers (JSON, content types, XML printing) are parameters. The content of forms is characterised by C109, of XML by C110. The handle lookup and NULL/UTF-8 conversion of C strings are not modelled. Found: the header is looked up by its exact name (a second one is added beside "content-type"), NULL gives an empty body, rules of an overwritten body stay, a type that cannot be read panics.
  - `PropFfiBody.v`: C115_text, C115_with_body
  - `PropFfiBody2.v`: C115_succeeds, C115_unreadable_type, C115_never_errs, C115_plain_json, C115_binary_body, C115_binary_file
* **C116 Files added as the parts of a multipart body** (proved). Prefix/suffix stripping and the marker search are characterised (first marker by induction over the bytes); a history of calls by induction over the calls with the invariant "body = multipart B parts". The bytes the multipart crate makes of one file are a parameter of the shape marker, part, end marker. Found: with a boundary of other characters the second call makes a broken body; a text with a line that has "--" takes the part behind it without a header.
  - `PropFfiBody4.v`: C116_first_marker, C116_new_boundary, C116_files, C116_appended, C116_results
* **C117 Matching rules and generators given through the C interface** (proved). Reading holds every category and path once (invariant over the reading folds); merging is then pointwise at (category, path) by induction over the merged collection. Found: how the rules of a path are combined (AND/OR) is not changed by a later call that says otherwise.
  - `PropFfiBody5.v`: C117_matching_rules, C117_generators
* **C118 What the C interface reads back of contents, description and metadata** (proved). Model of the getters and setters (FfiRead.v); each set call is an effect on at most one place, histories by induction from the last call; UTF-8 by the round trip of the decoder. Who frees what is not modelled; a failed call is modelled as its error value (C60 has the last error). The content type parser and from_utf8_lossy are parameters. V3 get_contents also runs the generators first, which is not modelled. Found: a failed set of a response still adds the responses up to it; contents with neither a type nor a mark are shown as an empty text; a body that is not UTF-8 is accepted by message_new_from_body although the comment says NULL.
  - `PropFfiRead.v`: C118_text_shown, C118_bytes_shown, C118_last_call_wins, C118_other_parts_keep, C118_number_of_responses, C118_only_contents_change, C118_text_comes_back, C118_bytes_come_back, C118_null_is_null, C118_no_such_response, C118_description, C118_description_kept, C118_description_result, C118_metadata, C118_metadata_refused, C118_metadata_found, C118_message_made, C118_state_name, C118_provider_state
* **C119 Iterators of the C interface give everything once, in order** (proved). An iterator is a list and a counter; the answers of n calls are the entries in order followed by NULL (induction over the calls); the sort is shown stable, sorted and a permutation, so the order of the map does not matter. Memory and the overflow of the counter are not modelled. Found: NULL does not always mean the end (an entry with a NUL character is NULL too, with an error); the same text is shown bare in metadata and quoted in provider state parameters.
  - `PropFfiRead2.v`: C119_rules, C119_answers, C119_map_order_does_not_matter, C119_no_rules, C119_generators, C119_generators_map_order, C119_metadata, C119_parameters, C119_states, C119_interactions
* **C120 Contents and metadata of messages given through the C interface** (proved). Model of the calls (FfiMessage.v) over the document readers of C75, C76 and C110, inverted into an inductive specification; histories of metadata calls by induction with the invariant that names stay distinct. The JSON parser, content types and XML printing are parameters; the handle lookup is C66. A NULL pointer for contents that are not text (undefined behaviour) is not modelled. Found: XML contents are lost (empty bytes) where pactffi_with_body keeps them; a text/plain text that is a JSON document is printed anew; metadata for the responses of a message without responses says true and is lost; a name that is no path panics only if the value has structure.
  - `PropFfiMessage.v`: C120_contents, C120_only_async, C120_succeeds, C120_plain_text, C120_metadata, C120_metadata_succeeds, C120_older_call, C120_second_call, C120_last_call_decides, C120_other_names_keep
* **C121 Metadata of the pact given through the C interface** (proved). Each call is an effect on (namespace, name); histories by induction from the last call, with insertion into sorted maps characterised pointwise. The handle lookup is C66. Found: once the mock server has started the call says false but still changes the metadata; pactffi_with_message_pact_metadata drops the other names of the namespace and writes the protected ones.
  - `PropFfiMessage2.v`: C121_last_call_wins, C121_others_keep, C121_read_only, C121_rest_stays, C121_result
* **C122 Verification of the format of a pact file** (proved). `FileCheck.v`: the checks list by list; neatness and usability part by part as equivalences, places as an inductive relation, strictness by Forall2 over the concatenations, the version by filtering, the written file computed (`PropFileCheck`-`PropFileCheck3`) The version parser is a parameter that knows the versions the library writes. Found: the requests and responses are not looked at; the messages name the type of the enclosing object instead of the value that is wrong (name, description, params, interactions); attributes that V4 adds are unknown; V4 and message pacts are not verified beyond being an object; a version 9.1 in lenient mode is an error.
  - `PropFileCheck.v`: C122_neat, C122_usable
  - `PropFileCheck2.v`: C122_places, C122_strictness, C122_version, C122_other_kinds
  - `PropFileCheck3.v`: C122_written
* **C123 The arguments of the verifier command line** (proved). The argument parser is modelled as the table of arguments, checks of values, requirements and conflicts; acceptance, panics and the options are each characterised by an independent specification of values, of arguments given once and of arguments that go together; examples of every kind of error. clap is modelled as far as args.rs uses it (values checked in order, given once, requires/conflicts/required_unless_present_any); the spelling of arguments, help, version and environment variables are not. Found: a transport with a port over 65535, or with digits outside ASCII, panics instead of being a usage error; a password without a user is silently not used.
  - `PropCliArgs.v`: C123_transport, C123_why_a_port_panics, C123_accepted, C123_why_it_panics
  - `PropCliArgs2.v`: C123_options, C123_order, C123_sources, C123_program, C123_authentication
* **C124 Logging through the C interface** (proved). Histories of calls as an inductive relation over threads, one subscriber and targets; what is attached, written and fetched specified as inductive relations over the history; proved by induction on histories from what one step does (`PropLogging`-`PropLogging4`); levels characterised by names and numerals Records are written whole and a write does not fail; calls are one after the other; what the library logs of itself is an arbitrary record. The filter of pactffi_init is not modelled: for it only C124_once and C124_nothing apply. Found: the answers -5 and -2 cannot happen; attaching after applying is answered with 0, contrary to the documentation, and nothing comes of it; sinks belong to a thread, so applying in another one starts the default; an apply that is refused drops the sinks; applying panics, and so ends the program, if a file cannot be opened a second time; a fetch that fails loses the contents; pactffi_init uses the name of the variable as the filter, not its value.
  - `PropLogging.v`: C124_attach
  - `PropLogging3.v`: C124_level
  - `PropLogging4.v`: C124_attached_one, C124_nothing, C124_once, C124_records, C124_why_apply_can_end_the_program, C124_codes, C124_message, C124_message_step
* **C125 Matching definitions through the C interface** (proved). Histories of calls over definitions and iterators as an inductive relation; the table of rules as an independent inductive relation; what an iterator gave is a function of the history, proved by induction on it; decimal numerals are injective (`PropDefFfi`, `PropDefFfi2`) What a text stands for is the parser of C74; following a format is that of C95. The text of an error is an arbitrary function; calls with a pointer to something deleted are excluded. Found: a definition with an escaped zero in a value parses without an error, but has neither a value nor an iterator (the unwrap of a CString panics and the call gives NULL).
  - `PropDefFfi.v`: C125_tells_apart, C125_every_rule, C125_items, C125_parse
  - `PropDefFfi2.v`: C125_definition, C125_iterator, C125_null, C125_datetime
* **C126 Checking a value against a rule through the C interface** (proved). Kinds of values and rules tabled in a separate specification (reusing the meaning of rules of C42 and C15); case analysis on kind and rule gives a fate (follows, speechless, neither) from which each result is characterised exactly (`PropMatchFfi`) Regular expressions, dates, semantic versions, content types, the JSON parser and the texts of errors are arbitrary functions. Found: bytes that differ or cannot be checked, of which one is shorter than ten bytes, give 'INTERNAL ERROR: function panicked' instead of a mismatch (split_at(10) panics).
  - `PropMatchFfi.v`: C126_null_is_a_match, C126_message, C126_failed, C126_c_strings, C126_flags, C126_equal_to_itself, C126_type_of_the_call
* **C127 The content type of data** (proved). When data has a type specified as inductive relations over what the detections answer; case analysis; structural equality of content types; the rule of each kind of value under the hypothesis that its check is this one, which every world can be given (`PropKindOf`) The detection libraries, the detection from text and the parser of content types are arbitrary functions. Found: data of no known signature has the empty content type, whatever it is.
  - `PropKindOf.v`: C127_has_type, C127_one_type, C127_why_nothing, C127_rule, C127_base64, C127_checks_types_can_be

## Assumptions

`tools/assumptions.py` (after a build): all 772 theorems `Cnn_*` are "Closed under the global context".

## Testing the theorems

`tools/mutate.py` edits the model in a scratch copy, rebuilds and reports the theorems that fail; `seeded/LOG.jsonl` has one line per edit.
