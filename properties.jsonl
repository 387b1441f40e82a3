{"id": "C01", "title": "Document path printing and parsing are inverse", "statement": "A document path made of the root marker followed by field, index and wildcard steps is read back from its string form as exactly the same steps if and only if every field name is not empty and has no quote and no backslash and every index fits into 64 bits.", "quantifier": "all step lists of any length, all Unicode field names, all usize indexes", "why_tests_cant": "field names are arbitrary strings and paths are unbounded; the escaping and the parser must agree on every one of them", "anchors": ["rust/pact_models/src/path_exp.rs: DocPath::build_expr, write_obj_key_for_path, parse_path_exp"]}
{"id": "C02", "title": "When parsing a document path expression aborts", "statement": "Parsing any string as a path expression returns steps or an error message, except that it aborts exactly when a complete expression is followed by '[' and a run of numeric characters that is not a 64-bit number up to ']' or the end; no ASCII expression of at most 20 characters does.", "quantifier": "all strings", "why_tests_cant": "the strings come from pact files written by others; only a proof covers all of them", "anchors": ["rust/pact_models/src/path_exp.rs: parse_path_exp, index_path, DocPath::new"]}
{"id": "C03", "title": "Accepted path expressions have a canonical form", "statement": "If a non-empty string is accepted as a path expression then the parsed path starts with exactly one root marker, and re-printing and re-parsing it gives the same steps if and only if no field name has a backslash.", "quantifier": "all strings accepted by the parser", "why_tests_cant": "the set of accepted expressions is infinite", "anchors": ["rust/pact_models/src/path_exp.rs: parse_path_exp, DocPath::parent, DocPath::drop"]}
{"id": "C04", "title": "Path expression matching is step-wise prefix matching", "statement": "A path expression matches a concrete location exactly when it has fewer than 64 exact steps, the location is at least as long as the expression and every step of the expression accepts the location's step at the same position (root, equal field, equal index, any index for [*], anything for *); the weight is two to the number of exact steps in 64 bits, zero for what is not accepted.", "quantifier": "all expressions, all concrete locations of any depth", "why_tests_cant": "depth is unbounded; the weight is machine arithmetic which can wrap", "anchors": ["rust/pact_models/src/path_exp.rs: DocPath::path_weight, DocPath::matches_path, matches_token"]}
{"id": "C05", "title": "Distinct paths have distinct string forms", "statement": "Two paths built from steps are equal (as map keys) exactly when their steps are equal; two paths read from text exactly when the texts are, so that one location can be two keys.", "quantifier": "all pairs of step lists", "why_tests_cant": "rule maps are keyed by the string form; a collision anywhere would silently merge two rules", "anchors": ["rust/pact_models/src/path_exp.rs: impl PartialEq/Ord/Hash for DocPath, build_expr"]}
{"id": "C06", "title": "JSON pointers denote the same location as the path", "statement": "Converting a path without wildcards to a JSON pointer gives a string whose RFC 6901 reference tokens are exactly the path's field names and indexes; a path with a wildcard is rejected.", "quantifier": "all paths, all Unicode field names (including ~ and /)", "why_tests_cant": "escaping must be right for every name", "anchors": ["rust/pact_models/src/path_exp.rs: DocPath::as_json_pointer"]}
{"id": "C07", "title": "A path's string form always agrees with its steps", "statement": "After any sequence of the public path-building operations (push, join, parent, drop, ...) starting from the root path, the string form is the canonical rendering of the steps.", "quantifier": "all finite histories of public path operations", "why_tests_cant": "an invariant over histories of unbounded length", "anchors": ["rust/pact_models/src/path_exp.rs: DocPath::push, push_field, push_index, push_star, push_star_index, push_path, join, join_field, join_index, parent, drop"]}
{"id": "C08", "title": "The matcher applied at a body location is the most specific one", "statement": "For body and metadata rules, as long as scores fit in 64 bits (fewer than 64 exact steps in a path), the rule list applied at a location belongs to a rule path that matches that location and no other matching rule path has a greater score (2 to the number of exact steps, times the number of steps); no rule is applied exactly when no rule path matches; the rules are flagged as cascaded exactly when the rule path is shorter than the location. With a path of 64 exact steps the score wraps and a less specific rule is applied.", "quantifier": "all rule categories, all locations, all map iteration orders, all path lengths", "why_tests_cant": "the rule set, the location and the map order are all unbounded", "anchors": ["rust/pact_models/src/matchingrules/mod.rs: MatchingRuleCategory::max_by_path, select_best_matcher"]}
{"id": "C09", "title": "Matcher selection does not depend on hash map order", "statement": "The rule list selected at a location is the same for every iteration order of the rule map exactly when all the rule paths that could win (the matching ones of greatest score for body and metadata, all matching ones for headers, queries and the other categories) carry the same rules; in particular it is when no two of them tie.", "quantifier": "all rule categories, all locations, all permutations of the rule entries", "why_tests_cant": "the order differs from run to run, so no test can pin it", "anchors": ["rust/pact_models/src/matchingrules/mod.rs: max_by_path, select_best_matcher"]}
{"id": "C10", "title": "Matching rules survive a JSON round trip", "statement": "Writing a matching rule in the V3/V4 JSON form and reading it back gives the same rule at any nesting depth, provided the paths in array-contains variants are readable and their rule lists non-empty, except that each-key and each-value definitions lose their value type and expression text. Writing aborts exactly when a definition holds an unresolved reference.", "quantifier": "all matching rules with all attribute values", "why_tests_cant": "rules carry arbitrary strings, numbers and nested rules", "anchors": ["rust/pact_models/src/matchingrules/mod.rs: MatchingRule::to_json, from_json, create"]}
{"id": "C11", "title": "Matching rule collections survive a V3/V4 round trip", "statement": "Writing a set of matching rules in V3/V4 form and loading them back gives the same categories, paths, rules and combine logic, whenever path rules sit at the empty path, header and query rules at a single field, no path text is the word 'matchers', body paths are readable, and no rule list is empty. Each of these conditions is needed.", "quantifier": "all rule collections", "why_tests_cant": "collections are unbounded and keyed by arbitrary strings", "anchors": ["rust/pact_models/src/matchingrules/mod.rs: matchers_to_json, matchers_from_json, MatchingRuleCategory::to_v3_json, add_rules_from_json"]}
{"id": "C12", "title": "V2 form keeps the first rule of every place", "statement": "Writing a collection of matching rules in V2 form and loading it back gives, for the path, for every header and query parameter with a simple name and for every body path, exactly the first rule of that place, and no rule at any other place. A dollar sign inside a body field name or a dot in a parameter name moves the rule to another place, and a status rule or a parameter name such as ids[] makes the whole set unreadable.", "quantifier": "all rule collections", "why_tests_cant": "paths are arbitrary strings", "anchors": ["rust/pact_models/src/matchingrules/mod.rs: MatchingRules::to_v2_json, load_from_v2_map, add_v2_rule"]}
{"id": "C13", "title": "Rule equality is an equivalence that distinguishes behaviour", "statement": "Equality of matching rules is reflexive, symmetric and transitive, and equal rules hash equally. Two rules that compare equal and hold no status-code rule mean the same (so accept the same values); all status-code rules compare equal whatever codes they accept.", "quantifier": "all pairs and triples of rules", "why_tests_cant": "rules are an infinite family; duplicates are removed using this equality", "anchors": ["rust/pact_models/src/matchingrules/mod.rs: impl PartialEq/Hash for MatchingRule, remove_duplicates"]}
{"id": "C14", "title": "AND / OR combination of rules", "statement": "A value satisfies a rule list combined with AND exactly when it satisfies every rule in it, with OR exactly when it satisfies at least one; a location with no rules is reported as a mismatch. In a JSON body this holds of the rule list in force at the location for every scalar and array; for an object every rule of the list has to hold whatever the combination (so an empty list accepts any object).", "quantifier": "all rule lists of any length, all values", "why_tests_cant": "lists are unbounded", "anchors": ["rust/pact_matching/src/matchers.rs: match_values"]}
{"id": "C15", "title": "Type matching accepts exactly values of the same JSON type", "statement": "Under a type rule a JSON value is accepted for an expected one exactly when both are null, both booleans, both strings, both numbers (any representation), both arrays, or both objects; min/max-type rules in addition bound the length of arrays. In a body the bound counts at the location the rule is written for, and not if the expected array is empty (which accepts any array).", "quantifier": "all pairs of JSON values", "why_tests_cant": "all JSON values", "anchors": ["rust/pact_matching/src/json.rs: impl Matches<&Value> for Value"]}
{"id": "C16", "title": "Status code class rules accept exactly their range", "statement": "The status rule of a class accepts exactly the codes of that class (information 100-199, success 200-299, redirect 300-399, client error 400-499, server error 500-599, non-error below 400, error 400 and above, or an explicit list). Applied to a 64 bit number it looks at the low 16 bits; applied to a JSON value it accepts any.", "quantifier": "all u16 codes, all classes and lists", "why_tests_cant": "exhaustive over codes and unbounded lists", "anchors": ["rust/pact_matching/src/matchers.rs: match_status_code", "rust/pact_models/src/lib.rs or http_utils: HttpStatus"]}
{"id": "C17", "title": "A JSON body matches itself", "statement": "With no matching rules, comparing any JSON document with itself reports no mismatch, whatever the unexpected-key policy.", "quantifier": "all JSON documents (any depth and size)", "why_tests_cant": "documents are unbounded trees", "anchors": ["rust/pact_matching/src/json.rs: compare_json, compare_maps, compare_lists"]}
{"id": "C18", "title": "Without rules a request body must equal the expected one", "statement": "With no matching rules and unexpected keys disallowed, a JSON body is accepted exactly when it equals the expected document.", "quantifier": "all pairs of JSON documents", "why_tests_cant": "unbounded trees; soundness is a universal negative", "anchors": ["rust/pact_matching/src/json.rs: compare_json"]}
{"id": "C19", "title": "Without rules a response body may only add object keys", "statement": "With no matching rules and unexpected keys allowed, a JSON body is accepted exactly when it is the expected document with extra entries possibly added to objects at any depth.", "quantifier": "all pairs of JSON documents", "why_tests_cant": "unbounded trees", "anchors": ["rust/pact_matching/src/json.rs: compare_json, MatchingContext::match_keys"]}
{"id": "C20", "title": "Allowing unexpected keys only makes matching more lenient", "statement": "For every set of body rules, if a body is accepted with unexpected keys disallowed then it is accepted with them allowed.", "quantifier": "all rule sets, all pairs of JSON documents", "why_tests_cant": "unbounded trees and rule sets", "anchors": ["rust/pact_matching/src/json.rs: compare_json", "rust/pact_matching/src/lib.rs: match_keys"]}
{"id": "C21", "title": "Header names are matched case-insensitively and extra headers are ignored", "statement": "Whether headers match is not changed by changing the case of actual or expected header names. If no two actual names are equal ignoring case, it is not changed either by reordering headers nor by adding actual headers that are not expected; and without rules the headers match exactly when every expected header is there and its values agree: for every expected value an actual one at the same position that is equal but for surrounding white space (or, for Accept and Content-Type, structurally equal), and surplus actual values are blank. Without actual headers only an expected map without entries matches.", "quantifier": "all header maps", "why_tests_cant": "maps are unbounded", "anchors": ["rust/pact_matching/src/headers.rs: match_headers, match_header_maps, find_entry"]}
{"id": "C22", "title": "Parameterised header values ignore parameter order and whitespace", "statement": "Accept and Content-Type values match exactly when the media type is equal and every expected parameter is present with an equal value ignoring the case of ASCII letters, regardless of the order of parameters and of white space and empty parts around separators; parameters that are not expected are ignored.", "quantifier": "all header values", "why_tests_cant": "arbitrary strings", "anchors": ["rust/pact_matching/src/headers.rs: match_parameter_header, strip_whitespace, parse_charset_parameters"]}
{"id": "C23", "title": "Query strings match only with the same parameters", "statement": "With no rules, actual query parameters match exactly when they have the same parameter names and, for each name, the same list of values in the same order, a parameter given without a value counting as one with an empty value; no query is the same as a query without parameters; and every name that is missing, unexpected or different is reported under that name.", "quantifier": "all pairs of query maps", "why_tests_cant": "unbounded maps and lists", "anchors": ["rust/pact_matching/src/query.rs: match_query_maps, match_query_values", "rust/pact_matching/src/lib.rs: match_query"]}
{"id": "C24", "title": "A request is matched exactly when no mismatch is listed", "statement": "A request comparison is reported as fully matched exactly when its list of mismatches is empty, which is exactly when method, path, headers, query and body each match.", "quantifier": "all comparison results", "why_tests_cant": "all results, any number of mismatches", "anchors": ["rust/pact_matching/src/lib.rs: RequestMatchResult::all_matched, mismatches, score"]}
{"id": "C25", "title": "Method comparison is case-insensitive equality", "statement": "Two methods match exactly when they are equal ignoring case (for ASCII text: equal up to the case of the letters A-Z), so matching methods is an equivalence relation.", "quantifier": "all pairs of strings", "why_tests_cant": "all strings", "anchors": ["rust/pact_matching/src/lib.rs: match_method"]}
{"id": "C26", "title": "Query strings survive a round trip", "statement": "For parameters whose names are ASCII text without % & + =, building a query string and parsing it gives the same parameters exactly when all values are ASCII text without control characters below U+0010 (otherwise the building aborts or a value is changed).", "quantifier": "all parameter maps, all Unicode names and values", "why_tests_cant": "percent encoding must be right for every character", "anchors": ["rust/pact_models/src/query_strings.rs: build_query_string, parse_query_string, encode_query, decode_query"]}
{"id": "C27", "title": "Percent decoding and encoding never panic", "statement": "Decoding any string as a query-string component and parsing any query string returns a value or an error and never aborts. Encoding a string aborts exactly when it contains a character that is escaped and whose code has an odd number of hexadecimal digits.", "quantifier": "all Unicode strings", "why_tests_cant": "all characters; failures are at rare code points", "anchors": ["rust/pact_models/src/query_strings.rs: encode_query, decode_query"]}
{"id": "C28", "title": "What a merged pact contains", "statement": "Merging two pacts of the same consumer and provider gives the interactions of both, in an order that keeps the order of each, where a pair taken to be the same interaction is kept once: in V3 pacts the pair has the same description and the own interaction has no provider states or states of the same names, and the other pact's interaction is kept; in V4 pacts the pair has the same key, or without two keys also the same type, and the own interaction is kept. If such pairs agree in description and provider states, every interaction of either input is still there by description and provider states; nothing is ever made up; well-matched kinds of pacts always merge.", "quantifier": "all pairs of pacts of any kind with any number of interactions in any order", "why_tests_cant": "unbounded lists in any order", "anchors": ["rust/pact_models/src/v4/pact.rs: V4Pact::merge", "rust/pact_models/src/sync_pact.rs: RequestResponsePact::merge"]}
{"id": "C29", "title": "Writing the same pact again does not duplicate interactions", "statement": "A pact that has no conflict with itself can be written any number of times and the file then holds its interactions, each once: for V3 pacts in any order, for V4 pacts whose descriptions ascend. Any history of writes of tidy V4 pacts leaves exactly the interactions of all of them, each identity once. A V3 pact that conflicts with itself is refused from the second write on; a V4 pact out of order gains one copy per write.", "quantifier": "all pacts, all numbers of writes, all histories of writes", "why_tests_cant": "a property of write histories of unbounded length", "anchors": ["rust/pact_models/src/pact.rs: write_pact", "rust/pact_models/src/v4/pact.rs: merge, to_json"]}
{"id": "C30", "title": "Exactly which merges are refused", "statement": "Merging is refused for participants exactly if consumer or provider name differs; a V3 request/response pact is refused for conflicts exactly if an interaction of it conflicts with one of the other pact (same description and states but different method, path, query or status, or not an HTTP interaction); other pacts are never refused for conflicts; no merge panics.", "quantifier": "all pairs of pacts", "why_tests_cant": "all names and interactions", "anchors": ["rust/pact_models/src/v4/pact.rs: merge", "rust/pact_models/src/sync_pact.rs: merge"]}
{"id": "C31", "title": "What a crash while writing a pact file leaves", "statement": "If the process dies at any point while pact files are being updated, the file holds either what the completed writes make or the first bytes of the text of the write going on, never anything else; every such prefix can be left, so updating is not atomic. A merge that fails never touches the file.", "quantifier": "all crash points during a write, all contents", "why_tests_cant": "crash points cannot be enumerated by tests", "anchors": ["rust/pact_models/src/pact.rs: write_pact", "rust/pact_models/src/file_utils.rs: with_write_lock"]}
{"id": "C32", "title": "FFI handles identify one interaction of one pact", "statement": "An interaction handle is the 32-bit number of a pact and of an interaction of that pact counted from one; different pairs give different handles; a call with a handle changes exactly the interaction it stands for and returns what that change returns; a call with a handle that stands for nothing reports failure and changes nothing, except that the number zero (what failed calls return) panics in checked builds.", "quantifier": "all pact ids and interaction numbers", "why_tests_cant": "boundary values of packed integers", "anchors": ["rust/pact_ffi/src/mock_server/handles.rs: InteractionHandle, MessageHandle, PactHandle"]}
{"id": "C33", "title": "Writing a string into a C buffer is safe and exact", "statement": "Writing a string to a caller-supplied buffer succeeds exactly when it has no NUL and it and its terminator fit; a failed write changes nothing; a successful one returns the length with the terminator, puts the bytes followed by a NUL, never changes the size, keeps the next bytes up to twice the length as they were and clears the rest.", "quantifier": "all byte strings, all buffer sizes and prior contents", "why_tests_cant": "sizes and contents are unbounded; boundary cases at length equality", "anchors": ["rust/pact_ffi/src/util/write.rs: write_to_c_buf"]}
{"id": "C34", "title": "JSON deep merge is a right-biased merge", "statement": "Deep-merging two JSON documents keeps every key of both objects recursively, concatenates arrays and replaces other values; the empty object is neutral, and merging a document with itself changes nothing exactly when no array in it has elements.", "quantifier": "all pairs of JSON documents", "why_tests_cant": "unbounded trees", "anchors": ["rust/pact_models/src/json_utils.rs: json_deep_merge, JsonToNum"]}
{"id": "C35", "title": "Header values survive a round trip through the pact file", "statement": "Writing headers to a pact file and reading them back gives the same values for each header exactly when no value has white space around it and every header has exactly one value (if it is one of the known single value headers) or at least one value and none with a comma (otherwise).", "quantifier": "all header maps", "why_tests_cant": "arbitrary strings, including commas and dates", "anchors": ["rust/pact_models/src/json_utils.rs: headers_from_json, headers_to_json", "rust/pact_models/src/headers.rs: parse_header"]}
{"id": "C36", "title": "Array-contains matching does not depend on order", "statement": "An array satisfies an array-contains rule in force at its location exactly when the expected array is empty or every variant matches at least one of its elements under the rules of the variant; so permuting the actual array does not change the verdict. Without variants each expected element has to be equal to an actual one (an expected empty array accepts any array).", "quantifier": "all variants, all arrays and permutations", "why_tests_cant": "unbounded arrays, all permutations", "anchors": ["rust/pact_matching/src/matchingrules.rs: compare_lists_with_matchingrule"]}
{"id": "C37", "title": "Different object keys lead to different paths", "statement": "Joining two object keys to the same path gives equal paths exactly when the keys are equal or both decimal forms of the same number; a key is kept as the name of a field exactly when it is not a number, * or [*].", "quantifier": "all paths, all pairs of keys", "why_tests_cant": "keys are arbitrary strings; rules for one key must not apply to another", "anchors": ["rust/pact_models/src/path_exp.rs: DocPath::join", "rust/pact_matching/src/json.rs: compare_maps"]}
{"id": "C38", "title": "A type rule governs the whole sub-document below it", "statement": "Where a type rule (possibly with size bounds) is in force at a location and everywhere below it, and no rule about entries (values, each-value, each-key) is present, the JSON body below is accepted exactly when it has the same JSON type as the expected body everywhere (array elements beyond the expected ones are compared with the first expected one; objects have the expected keys, or at least them) and the size bounds hold at the location the rule is written for. A rule that is the only one of the body is in force everywhere below its path.", "quantifier": "all rule paths, all expected and actual JSON documents, all locations", "why_tests_cant": "unbounded trees and arrays of any length; the cascade must reach every depth", "anchors": ["rust/pact_matching/src/json.rs: compare, compare_maps, compare_lists", "rust/pact_matching/src/matchingrules.rs: compare_lists_with_matchingrule, compare_maps_with_matchingrule", "rust/pact_matching/src/matchers.rs: Matches<&Value>"]}
{"id": "C39", "title": "The body verdict does not depend on hash map iteration order", "statement": "Matching a JSON body against the same set of matching rules gives the same mismatches whatever order the rule map is iterated in, provided that wherever several rule paths have the greatest rank they carry the same rules, and that of the entries written for one location all have a rule about entries or none has.", "quantifier": "all rule sets, all permutations of their storage order, all documents", "why_tests_cant": "the iteration order of a HashMap is random per process; a test sees one order per run", "anchors": ["rust/pact_matching/src/lib.rs: CoreMatchingContext, match_keys, select_best_matcher", "rust/pact_models/src/matchingrules/mod.rs: MatchingRuleCategory"]}
{"id": "C40", "title": "Percent decoding inverts any standard encoding", "statement": "Decoding a query-string component that any standard conforming client encoded (hexadecimal digits of either case, plus for space, any choice of which ASCII characters to escape) gives the original text, and parsing a query string made of such parts gives each name the list of its values in order. Any other text is read as bytes (invalid escapes stand for themselves, characters are reduced to eight bits), and decoding succeeds exactly when they are UTF-8.", "quantifier": "all Unicode texts, all encodings of them, all lists of parts", "why_tests_cant": "there are many encodings of each text and unboundedly many texts", "anchors": ["rust/pact_models/src/query_strings.rs: decode_query, parse_query_string"]}
{"id": "C41", "title": "Query parameters survive the V3/V4 JSON form", "statement": "Writing query parameters to V3/V4 JSON and reading them back gives the same names, values and missing values.", "quantifier": "all parameter maps and JSON queries", "why_tests_cant": "names and values are arbitrary strings in maps of any size", "anchors": ["rust/pact_models/src/query_strings.rs: v3_query_from_json, query_to_json"]}
{"id": "C42", "title": "Each value rule means what its name says", "statement": "On a JSON value: a number rule accepts exactly the numbers, integer exactly the whole numbers (of any size and sign), decimal exactly the numbers with a fraction or exponent, null exactly null, boolean exactly true/false and the texts \"true\"/\"false\", notEmpty exactly the values other than null, \"\", [] and {}, include exactly the values whose text contains the substring, regex exactly those the regex accepts, date/time/datetime those valid for the format (or the default one). On a text (path, header, query value) equality, type, regex, include, number, boolean, notEmpty, status code have the corresponding meaning and integer accepts exactly the unsigned decimal numbers below 2^64 with an optional plus sign (so, unlike on JSON numbers, negative integers are refused). The expected value plays no part except for equality.", "quantifier": "every rule of these kinds, every expected and actual value", "why_tests_cant": "Tests try a few values per rule; the claim is an equivalence over all values.", "anchors": ["rust/pact_matching/src/json.rs: impl Matches for Value", "rust/pact_matching/src/matchers.rs: impl Matches for &str, match_status_code"]}
{"id": "C43", "title": "Rule and category names are read as documented", "statement": "A rule object whose \"match\" attribute is one of the documented names (including the aliases min-type, max-type, min, max, real, datetime, timestamp, not-empty, content-type, status-code) with the documented attributes is read as the rule of that name with those attributes; any other name is refused with an error; category names (method, path, header, headers, query, body, status, contents, metadata, in any case) select the category of that name.", "quantifier": "every rule object, every name", "why_tests_cant": "The alias table and the refusal must hold for every name and attribute value.", "anchors": ["rust/pact_models/src/matchingrules/mod.rs: MatchingRule::create, MatchingRule::from_json, Category::from"]}
{"id": "C44", "title": "Removing duplicate rules loses no rule", "statement": "Removing duplicates from a rule list keeps only rules of the list, keeps no two equal ones, keeps for every rule of the list one equal to it, leaves the combination (AND/OR) unchanged, and doing it twice is the same as once.", "quantifier": "every rule list", "why_tests_cant": "Quantifies over all rule lists.", "anchors": ["rust/pact_models/src/matchingrules/mod.rs: RuleList::remove_duplicates"]}
{"id": "C45", "title": "Each-value and values rules govern every entry", "statement": "With an each-value rule in force at a collection, the collection matches exactly when every element (or value) of the actual collection matches, under the rules of the definition alone, the expected one at the same position or key, or else the first; an empty expected array accepts any array, elements of the expected array beyond the actual ones need a rule at their position, and an empty expected object refuses any key when unexpected keys are not allowed. A values rule likewise compares each value of the actual object with the expected value with its key or else the first one, under the rules of the body.", "quantifier": "every set of body rules, every definition, every expected and actual collection", "why_tests_cant": "Unbounded collections and rule lists.", "anchors": ["rust/pact_matching/src/matchingrules.rs: compare_lists_with_matchingrule, compare_maps_with_matchingrule", "rust/pact_matching/src/json.rs: compare_maps, compare_lists"]}
{"id": "C46", "title": "Each-key rules govern every key", "statement": "With an each-key rule in force at an object (and written for it alone), the object matches exactly when every key of the actual object satisfies every rule of the definition, the values of the keys both objects have match, and it is not the case that an empty object is expected, unexpected keys are not allowed and keys are present; missing and additional keys are not reported.", "quantifier": "every set of body rules, every definition, every expected and actual object", "why_tests_cant": "Unbounded objects and rule lists.", "anchors": ["rust/pact_matching/src/lib.rs: match_keys", "rust/pact_matching/src/matchingrules.rs: compare_maps_with_matchingrule"]}
{"id": "C47", "title": "Rules on query parameters, headers and paths decide their comparison", "statement": "If a rule list is written for a query parameter, header or the request path, then that part matches exactly when the rule list accepts it: the AND/OR combination of its rules holds, where each rule is asked of the list of values as a whole (size bounds, equality, not empty) and of every actual value against the expected value at its position or else the first expected value; a query parameter expected without any value accepts anything. Header rules apply whatever the case of the name in the rule, the expected header and the actual header; a single header value is judged by itself. Without rules on the path the paths have to be equal.", "quantifier": "all names, expected and actual value lists, rule lists", "why_tests_cant": "Unbounded value and rule lists and names.", "anchors": ["rust/pact_matching/src/query.rs: match_query_values, compare_query_parameter_values", "rust/pact_matching/src/headers.rs: match_headers, match_header_value", "rust/pact_matching/src/lib.rs: match_path, HeaderMatchingContext", "rust/pact_matching/src/matchingrules.rs: compare_lists_with_matchingrules"]}
{"id": "C48", "title": "A request without rules matches exactly when all its parts agree", "statement": "For an expected request without matching rules the comparison always ends with a result, which is fully matched exactly when the methods are equal ignoring case, the paths are equal, the queries have the same names with the same values, the expected headers are there with agreeing values and the bodies match; two JSON bodies match exactly when they are the same document, and a JSON body that cannot be read is a mismatch.", "quantifier": "all expected and actual requests", "why_tests_cant": "All requests, unbounded headers, queries, documents.", "anchors": ["rust/pact_matching/src/lib.rs: match_request, match_body, compare_bodies", "rust/pact_matching/src/json.rs: match_json"]}
{"id": "C49", "title": "A response without rules matches exactly when all its parts agree", "statement": "For an expected response without matching rules no mismatch is reported exactly when the status is equal, the expected headers are there with agreeing values and the bodies match; a JSON body matches exactly when it is the expected document with extra object entries possibly added.", "quantifier": "all expected and actual responses", "why_tests_cant": "All responses, unbounded headers and documents.", "anchors": ["rust/pact_matching/src/lib.rs: match_response, match_body"]}
{"id": "C50", "title": "Presence of a body decides before its contents", "statement": "If no body is expected any body matches; if the content types can be compared an expected empty or null body matches exactly the requests or responses without body contents, and an expected body with contents never matches a missing or empty one; if the types cannot be compared an expected body with contents is reported as a type mismatch and an expected empty body matches anything.", "quantifier": "all bodies, headers and rules", "why_tests_cant": "All combinations of bodies, types and rules.", "anchors": ["rust/pact_matching/src/lib.rs: match_body, match_body_content"]}
{"id": "C51", "title": "Text and binary bodies are compared byte by byte", "statement": "Without rules, bodies whose type is not JSON, XML, multipart or form data match exactly when their bytes are equal; with a rule list for the whole body, text bodies match exactly when the rule list accepts the text. Comparing different binary bodies under an equality rule aborts exactly when one of them is shorter than ten bytes.", "quantifier": "all bodies and content types", "why_tests_cant": "All byte strings and rule lists.", "anchors": ["rust/pact_matching/src/lib.rs: compare_bodies_core, match_text", "rust/pact_matching/src/binary_utils.rs: match_octet_stream", "rust/pact_matching/src/matchers.rs: Matches<&Bytes> for Bytes"]}
{"id": "C52", "title": "Content types are classified and compared consistently", "statement": "A content type is text or binary, never both; the text types are exactly text/*, the JSON types (application/json*, graphql, suffix +json), the XML types and form data; every content type is equivalent to itself, a type expected without attributes is equivalent to the same type with any attributes, a type expected with attributes only to types with the same attributes.", "quantifier": "all content types", "why_tests_cant": "All type, subtype, suffix and attribute texts.", "anchors": ["rust/pact_models/src/content_types.rs: is_json, is_xml, is_text, is_binary, is_equivalent_to, base_type"]}
{"id": "C53", "title": "Form bodies match as sets of fields", "statement": "Without rules two form bodies match exactly when every field name has the same values in the same order, whatever the order of different fields.", "quantifier": "all form bodies", "why_tests_cant": "All forms.", "anchors": ["rust/pact_matching/src/form_urlencoded.rs: match_form_urlencoded"]}
{"id": "C54", "title": "Messages match on contents and expected metadata", "statement": "A message without rules matches exactly when its contents agree (a JSON document with extra object entries possibly added) and every expected metadata entry is present with an equal value (structural equality for content types); metadata that is not expected is ignored, and nothing is asked of the contents if none are expected. Comparing multipart contents of messages aborts.", "quantifier": "all messages", "why_tests_cant": "All documents and metadata maps.", "anchors": ["rust/pact_matching/src/lib.rs: match_message, match_message_contents, match_message_metadata, match_metadata_value", "rust/pact_models/src/v4/message_parts.rs: MessageContents"]}
{"id": "C55", "title": "Synchronous messages match on request and every response", "statement": "A synchronous message with expected responses matches exactly when the request matches, there are as many responses as expected and each matches the expected one at its position.", "quantifier": "all synchronous messages", "why_tests_cant": "Any number of responses.", "anchors": ["rust/pact_matching/src/lib.rs: match_sync_message, match_sync_message_request, match_sync_message_response"]}
{"id": "C56", "title": "The score of a comparison counts matching and mismatching parts", "statement": "The score of a request comparison is the number of matching parts less the number of mismatching ones, counting method, path, every compared query parameter and header, and body mismatch locations, if there are at most 127 parts; in general it is that number kept in eight bits (so a fully matching request may score below zero).", "quantifier": "all comparison results", "why_tests_cant": "Any number of parts.", "anchors": ["rust/pact_matching/src/lib.rs: RequestMatchResult::score"]}
{"id": "C57", "title": "Plugin data of merged V4 pacts", "statement": "A merged V4 pact has the plugins of both pacts, each name and version once; the configuration of a plugin that both have is combined key by key (deep merge) and any other is unchanged; merging with a V3 pact keeps the plugins. Lists in configurations grow with every rewrite.", "quantifier": "all V4 pacts with any plugins and configurations, all numbers of rewrites", "why_tests_cant": "unbounded plugin lists, JSON trees and histories", "anchors": ["rust/pact_models/src/v4/pact.rs: V4Pact::merge, add_plugin_data", "rust/pact_models/src/plugins.rs: PluginData::merge", "rust/pact_models/src/json_utils.rs: deep merge"]}
{"id": "C58", "title": "Readers never see a partly written pact file", "statement": "While any number of processes and threads read a pact file and merge pacts into it, a reader always gets the whole text of a pact (the old one or one merging produced), and the file is whole whenever nobody has the exclusive lock. This does not hold for overwriting.", "quantifier": "all schedules of all processes and threads", "why_tests_cant": "all interleavings of system calls", "anchors": ["rust/pact_models/src/pact.rs: write_pact, read_pact", "rust/pact_models/src/file_utils.rs: with_read_lock, with_write_lock"]}
{"id": "C59", "title": "Threads of one process that write a pact file take turns", "statement": "While threads of one process merge pacts into a file in any schedule, the file, when no write is going on, holds what the threads that reported success write one after the other in some order, each exactly once, and nothing of those that failed. Across processes an update can be lost.", "quantifier": "all schedules, any number of threads and readers", "why_tests_cant": "all interleavings of system calls", "anchors": ["rust/pact_models/src/pact.rs: write_pact, WRITE_LOCK", "rust/pact_models/src/file_utils.rs"]}
{"id": "C60", "title": "The last error message is per thread and read once", "statement": "pactffi_get_error_message gives the message of the last failed call of the same thread that was not read yet, whatever other threads do, and an empty string if there is none; a buffer that is too small loses the message.", "quantifier": "all histories of errors and reads on any number of threads, all buffers", "why_tests_cant": "all interleavings of calls of several threads", "anchors": ["rust/pact_ffi/src/error/ffi.rs: pactffi_get_error_message, get_error_message", "rust/pact_ffi/src/error/last_error.rs"]}
{"id": "C61", "title": "Log buffers give every line once", "statement": "For every task id, the logs fetched so far followed by what is still buffered are exactly the bytes logged for that id, in order, whatever is logged and fetched for other ids.", "quantifier": "all histories of writes and fetches for any ids", "why_tests_cant": "unbounded histories", "anchors": ["rust/pact_ffi/src/log/inmem_buffer.rs", "rust/pact_matching/src/logging.rs: fetch_buffer_contents, write_to_log_buffer"]}
{"id": "C62", "title": "Handles keep their meaning in the course of a program", "statement": "Creating an interaction gives a handle that stands for it; it goes on doing so, and the interaction stays the same, through any calls that do not concern it, until its pact is freed; this holds while a pact has fewer than 65535 interactions.", "quantifier": "all histories of FFI calls creating, editing and freeing", "why_tests_cant": "all histories; the limit is far beyond what tests build", "anchors": ["rust/pact_ffi/src/mock_server/handles.rs: pactffi_new_pact, pactffi_new_interaction, pactffi_new_message, pactffi_free_pact_handle, InteractionHandle::with_interaction"]}
{"id": "C63", "title": "Calls after the mock server was started report failure but take effect", "statement": "Every call that changes an interaction has the same effect on it after the mock server was started as before, although it returns false or 1, except pactffi_interaction_test_name, which has none.", "quantifier": "all calls and interactions", "why_tests_cant": "all calls with all arguments", "anchors": ["rust/pact_ffi/src/mock_server/handles.rs: pactffi_given, pactffi_with_request, pactffi_with_header_v2, pactffi_interaction_test_name"]}
{"id": "C64", "title": "Query parameter values set by index", "statement": "After any calls that set values of a query parameter by index, every index that was set has its last value, every other what it had, gaps are parameters without value, and other parameters are unchanged; the order of calls with different indices is irrelevant.", "quantifier": "all sequences of calls, all previous values", "why_tests_cant": "unbounded sequences and orders", "anchors": ["rust/pact_ffi/src/mock_server/handles.rs: pactffi_with_query_parameter_v2, update_query_map"]}
{"id": "C65", "title": "Header values set by index", "statement": "After any calls that set values of a header by index under any spelling of its name, every index that was set has its last value, every other what it had, gaps are empty, and other headers and the other part are unchanged, whatever the order; provided each value for index 0 is one value, because a list replaces all values. pactffi_set_header sets exactly the value given.", "quantifier": "all sequences of calls, all previous headers", "why_tests_cant": "unbounded sequences and orders", "anchors": ["rust/pact_ffi/src/mock_server/handles.rs: pactffi_with_header_v2, pactffi_set_header", "rust/pact_models/src/v4/http_parts.rs: set_header"]}
{"id": "C66", "title": "Each FFI call changes its own part of the interaction", "statement": "Every call that edits an interaction changes only the part it names (description, states, key, pending, comments, request line, query, headers, status); parameters of provider states and comments have the value given last; text comments are kept in order; states are named once; HTTP calls on messages fail and change nothing.", "quantifier": "all calls, all sequences of calls, all interactions", "why_tests_cant": "unbounded sequences", "anchors": ["rust/pact_ffi/src/mock_server/handles.rs: pactffi_given, pactffi_given_with_param, pactffi_set_comment, pactffi_add_text_comment, pactffi_set_key, pactffi_set_pending, pactffi_response_status"]}
{"id": "C67", "title": "What a JSON body has to satisfy under any set of matching rules", "statement": "For any set of body matching rules, any location and any two JSON documents, comparing the documents reports no mismatch exactly when the actual one conforms to the expected one: where no rule matches, scalars are equal, arrays have equal length and conforming elements, objects have the expected keys (or at least them, if unexpected ones are allowed) and conforming values; where rules match, the rule list of the most specific rule path (the last one in map order on ties) decides as its AND/OR combination for scalars and arrays and all its rules for objects, each rule in the way of its kind (type and size, equality, array-contains over its variants, each-value and values over all entries, each-key over all keys, scalar rules by value), recursively for elements and values. Every set of rules read from a pact file is of this kind.", "quantifier": "all rule sets, all pairs of documents, all locations", "why_tests_cant": "Unbounded documents and rule sets and their interplay at every depth.", "anchors": ["rust/pact_matching/src/json.rs: match_json, compare, compare_maps, compare_lists, compare_list_content, compare_values", "rust/pact_matching/src/matchingrules.rs: compare_lists_with_matchingrule, compare_maps_with_matchingrule", "rust/pact_matching/src/lib.rs: CoreMatchingContext, match_keys"]}
{"id": "C68", "title": "Provider state expressions are expanded exactly as written", "statement": "A text with references ${name} gives the value named by its only reference (with its JSON type) or the joined texts of its pieces; a text without ${ is itself the name of a value. Failure is reported exactly when a name is unknown or a reference is not closed. The program aborts exactly when, after well-formed references to known values, a closing brace comes before the next ${ (the defect is stated exactly).", "quantifier": "every expression text and every context of values", "why_tests_cant": "expressions are arbitrary texts; the position of braces relative to references decides between a value, an error and an abort", "anchors": ["rust/pact_models/src/expression_parser.rs: parse_expression, replace_expressions, contains_expressions", "rust/pact_models/src/generators/mod.rs: generate_value_from_context"]}
{"id": "C69", "title": "Provider state values are converted to the declared type", "statement": "A value from the provider state put into a JSON body is of the declared type (string, integer, decimal/float, boolean) and is unchanged if it already is; conversion fails exactly for arrays, objects and texts that do not read as that type, and never aborts in a body. In a path, header or query parameter the same failure aborts the program. Without a type the value is used as it is; the type name survives the pact file.", "quantifier": "every JSON value, every declared type, every behaviour of float parsing and printing", "why_tests_cant": "the values come from provider state callbacks and range over all JSON values, 64 bit numbers and texts", "anchors": ["rust/pact_models/src/expression_parser.rs: DataValue::as_json, Display for DataValue, TryFrom, DataType", "rust/pact_models/src/generators/mod.rs: GenerateValue for Generator (ProviderStateGenerator)"]}
{"id": "C70", "title": "Generators survive the pact file", "statement": "Writing a collection of generators to the JSON of a pact file and reading it back gives the same generators for the same categories and paths exactly when every entry sits at a key its category can carry (no key for path, method and status; one name for headers and query parameters; a path expression that parses for bodies and metadata) and no generator is an array-contains generator. In particular any collection read from a pact file, however odd, survives being written and read again. Adding a generator for a category and path replaces the one that was there and leaves every other entry alone.", "quantifier": "every collection of generators, every JSON value read, every path, every generator with parameters in the range of their types", "why_tests_cant": "collections combine any number of categories, paths and generator kinds; tests write a handful of them", "anchors": ["rust/pact_models/src/generators/mod.rs: Generator::to_json, Generator::from_map, Generators::load_from_map, Generators::to_json, add_generator_with_subcategory, generators_from_json", "rust/pact_models/src/json_utils.rs: JsonToNum"]}
{"id": "C71", "title": "Generators change exactly the addressed values of a JSON body", "statement": "Applying a generator to a JSON body replaces every value its path expression addresses by an outcome of the generator for that value (a failing generator leaves the value) and changes nothing else: no key, no length, no order, no other value. Several generators whose paths do not overlap change exactly their places, whatever order the hash map yields them in; generators meant for the other side (provider state values on the consumer side, mock server URLs on the provider side) change nothing. This holds for keys without '/' and '~' and a non-empty last key; other keys are missed or another place is changed.", "quantifier": "every JSON document, every path expression, every generator and all its random outcomes, every iteration order", "why_tests_cant": "documents, paths, random values and hash map orders are unbounded; tests fix a few documents and cannot fix the order", "anchors": ["rust/pact_models/src/json_utils.rs: resolve_path, query_object_graph", "rust/pact_models/src/generators/mod.rs: JsonHandler::process_body, JsonHandler::apply_key, corresponds_to_mode"]}
{"id": "C72", "title": "Generating a request, response or message changes only what has a generator", "statement": "For every request, response and message, every set of generators and matching rules, every mode and every outcome of the generators: the method, the matching rules, and every header, query parameter and metadata entry that no applicable generator names stay as they were; what a generator names becomes what that generator produced (for a header only its first value is kept, each query value is generated in turn, a missing entry is generated from the empty value), the path and the status are only changed by path and status generators, and failed generators leave the value. The generators used are the interaction's own, overridden at every path by the array-contains rules of the same category. The body is left alone unless there are body generators, it is present and parses as JSON or a form; a JSON body is changed exactly at the addressed places and printed again; of a form exactly the first addressed parameter changes. The parts of a V4 synchronous message are each generated by their own generators alone; in a V4 asynchronous message each metadata generator is given the original value, so that of several generators of one entry the last one that produces something decides.", "quantifier": "all requests, responses, messages, generator collections, rule sets, modes and generator outcomes", "why_tests_cant": "the combinations of generators, entries and outcomes, including failing generators, are unbounded", "anchors": ["rust/pact_matching/src/lib.rs: generate_request, generate_response", "rust/pact_matching/src/generators/mod.rs: generate_message", "rust/pact_matching/src/generators/bodies.rs: generators_process_body", "rust/pact_models/src/http_parts.rs: build_generators", "rust/pact_models/src/generators/form_urlencoded.rs: FormUrlEncodedHandler"]}
{"id": "C73", "title": "Generated values have the promised form", "statement": "For every outcome of the random choices: a random decimal of n digits is exactly one of the decimals with n digits in all (for three or more: at least two after the point, no superfluous leading zero, no zero after '0.'); a random integer is exactly one of the integers from its minimum to its maximum other than the largest 32-bit one, and generating panics exactly when there is none; a random status within 16 bits likewise; a random string has exactly its length and only letters and digits, every such string being possible; random hexadecimal digits are pairwise different, so there are min(n, 16) of them; a UUID is a version 4 UUID in the declared format; a boolean is true or false. In a JSON body a text is replaced by such a text and other values by numbers, booleans and hyphenated UUIDs; what is generated in place of a value is accepted by the integer, number, decimal, boolean or type rule that goes with it. An array-contains generator treats every element of the array with the generators of the first variant whose rules the element satisfies, and leaves the others.", "quantifier": "all random draws, generator parameters, contexts, example values", "why_tests_cant": "the values are random: a test sees a few outcomes, the property is about all of them", "anchors": ["rust/pact_models/src/generators/mod.rs: generate_decimal, generate_hexadecimal, generate_ascii_string, GenerateValue for Generator", "rust/pact_matching/src/generators/mod.rs: find_matching_variant", "rust/pact_models/src/expression_parser.rs: TryFrom<DataValue> for u16"]}
{"id": "C74", "title": "Matching rule definition expressions are read as their grammar says", "statement": "For every text: if it is a list of definitions of the documented grammar (matching(...), notEmpty(...), eachKey(...), eachValue(...), atLeast(...), atMost(...), nested to any depth, separated by commas, with any blanks between the words), then it is accepted, and the definition obtained has all the rules and references in order, the first non-empty value, the first generator, the most specific type and the text itself as its expression; string literals have their escape sequences replaced as documented and numbers, booleans, null and provider state values give the documented value, type and generator. Conversely whatever is accepted is such a list up to four looseness points that the specification names. Types of values are totally ordered and merging takes the larger one. A text counts as a definition exactly when it starts with matching, notEmpty, eachKey or eachValue.", "quantifier": "all texts, all nestings of definitions, all layouts, all behaviours of the lexer on text that is no token, all semver implementations", "why_tests_cant": "the language is infinite: tests can only try particular expressions, and cannot show that nothing outside the language is accepted", "anchors": ["rust/pact_models/src/matchingrules/expressions.rs: parse_matcher_def, is_matcher_def, matching_definition, matching_definition_exp, parse_matching_rule, parse_primitive_value, process_raw_string, MatchingRuleDefinition::merge, ValueType::merge"]}
{"id": "C75", "title": "Matchers written into a JSON document apply to their example values", "statement": "For every JSON document passed by a language integration: processing it gives the document in which every matcher object is replaced by its example value (null when the matcher cannot be read), with no 'pact:' key left at any depth; every matcher's rules are added, inner matchers before outer ones, after the rules already registered under the path at which its example value stands in the result, with wildcards for elements of a matched array and for the values of a map under a values rule; the last generator given for a path is the one that stays and other kinds of generators are untouched; array-contains variants are documents of their own; a document without 'pact:' keys is unchanged and adds nothing. Processing always ends, and panics only if reading a rule of the document panics.", "quantifier": "all JSON documents of any depth, all matcher and generator attributes, all rules and generators registered before", "why_tests_cant": "documents nest matchers to any depth and in any combination; tests only try particular documents", "anchors": ["rust/pact_ffi/src/mock_server/bodies.rs: process_json_value, process_object, process_array, process_matcher, matchers_from_integration_json", "rust/pact_ffi/src/mock_server/mod.rs: generator_category", "rust/pact_models/src/matchingrules/mod.rs: MatchingRuleCategory::add_rule", "rust/pact_models/src/generators/mod.rs: add_generator_with_subcategory"]}
{"id": "C76", "title": "Matchers in paths, query parameters, headers, status codes and metadata", "statement": "A text given to pactffi_with_request, pactffi_with_query_parameter_v2, pactffi_with_header_v2 or pactffi_response_status_v2 that is no JSON object is used as it is given and adds no rule or generator. If it is an object without a matcher its value attribute is used. If it has a matcher, the example value becomes the text (each element of an array one text), exactly the rules its matcher definition says are added (for a path or status at the root, otherwise at the given place) plus those of the matchers in the elements of an array, and the generators of the definition and next to it are stored at that place; when a later value of a header or parameter is given, the rules of the name alone become those of its first value; no other rule or generator changes. Metadata given as an object or array is read as a document at the path its key spells; if the key is no path the call aborts.", "quantifier": "all texts, all JSON values, all paths and indexes, all sets of rules and generators present before", "why_tests_cant": "the texts are arbitrary JSON and the rules and generators accumulate over any sequence of calls", "anchors": ["rust/pact_ffi/src/mock_server/handles.rs: from_integration_json_v2, pactffi_with_request, pactffi_with_query_parameter_v2, pactffi_with_header_v2, pactffi_response_status_v2, pactffi_with_metadata"]}
{"id": "C77", "title": "Filters select exactly the matching interactions", "statement": "Verifying a provider with a description and/or state filter verifies and reports, of every loaded pact, exactly the interactions whose description matches the pattern and of which some state matches the state pattern (the empty state pattern asks for interactions without states), each once and in the order of the pact. With patterns that are regular expressions it always decides; a pattern that is not one aborts the run.", "quantifier": "every filter, every interaction and list of pacts, every regular expression engine", "why_tests_cant": "A wrong selection shows only for particular combinations of patterns, states and their order; skipping one interaction still leaves a green run.", "anchors": ["rust/pact_verifier/src/lib.rs: FilterInfo, match_state, match_description, filter_interaction, verify_pact_internal"]}
{"id": "C78", "title": "One interaction: setup, one request, teardown", "statement": "Verifying an interaction calls the handler for all its states in order (once with an empty state if there are none), even after one failed; if any fails nothing is sent and no teardown runs. Otherwise at most one request is sent, made with the parameters of the states overwritten by what the handlers answered, then, if asked for, the teardown handlers run; a failed teardown replaces the result. The interaction passes exactly when a request was sent and the comparison of its answer gave no mismatches (for a synchronous message, also when the status is below 400). It always ends in a result if comparing does.", "quantifier": "every interaction of every kind, every environment whose answers may depend on all earlier events, every setting", "why_tests_cant": "The order of calls and the effect of failures depend on the answers of handlers and provider, which are outside and unbounded in number.", "anchors": ["rust/pact_verifier/src/lib.rs: verify_interaction, execute_provider_states, verify_response_from_provider, verify_v3_interaction", "rust/pact_verifier/src/messages.rs: verify_message_from_provider, verify_sync_message_from_provider"]}
{"id": "C79", "title": "The verdict of a run", "statement": "A run reports success exactly when every wanted pact could be loaded (or none was found and that is allowed) and every interaction that failed is pending; the errors and the pending errors are exactly the failures of the non-pending and the pending interactions in order, after one entry for each pact that could not be loaded. Pacts are those of the sources in order, for the wanted consumers.", "quantifier": "every list of sources, pacts, filters, options and environments", "why_tests_cant": "The verdict aggregates over any number of pacts and interactions with failures in any places.", "anchors": ["rust/pact_verifier/src/lib.rs: verify_provider_async, fetch_pacts, filter_consumers, verify_pact_internal"]}
{"id": "C80", "title": "Publishing and notices", "statement": "Results are given to the broker exactly for the pacts that came from one and have interactions, once each and with the results of that pact, and only if publishing was asked for; publishing without a provider version aborts. The notices shown are, for every pact in turn, those for the stage before and the stage after the verification, where the stage depends on all failures so far; when nothing is published a run without failures shows the notice for a failure. Apart from that a run always finishes.", "quantifier": "every list of sources, pacts, filters, options and environments", "why_tests_cant": "Depends on the histories of several pacts; the inverted condition is only visible with notices of particular stages.", "anchors": ["rust/pact_verifier/src/lib.rs: process_notices, publish_result, publish_to_broker, verify_provider_async"]}
{"id": "C81", "title": "The request the provider gets", "statement": "The URL is the address of the transport (the first one of the name the interaction asks for, or for its kind, or the provider's own) and the path with exactly one slash between; the query has all values of all parameters, by name; a header has the values of the pact unless a custom header has the same exact name, and the custom values only where that leaves none; the body is that of the pact. A request is refused exactly for a header HTTP does not allow. Fetching retries give the first answer that is no server error, or that of the last try, and abort with zero tries.", "quantifier": "every request, provider, custom headers and number of retries", "why_tests_cant": "Slashes, cases of header names and numbers of retries combine without bound.", "anchors": ["rust/pact_verifier/src/provider_client.rs: join_paths, create_native_request, make_provider_request", "rust/pact_verifier/src/lib.rs: ProviderTransport::base_url, setup_custom_headers", "rust/pact_verifier/src/utils.rs: with_retries"]}
{"id": "C82", "title": "The results published to a broker say what happened", "statement": "The payload published for a pact says success exactly when every interaction passed; with all passed it lists each interaction that has an id as successful, in order; otherwise there is one entry per run of neighbouring interactions with the same id, and so, when the ids are different, one per interaction, with success exactly when that interaction passed, its description, all its mismatches (attribute, identifier, description) and its errors; it carries the provider version, the build URL when given and who verified.", "quantifier": "all lists of interaction results, versions, build URLs and metrics", "why_tests_cant": "the mapping must hold for every mixture of passed, mismatched and errored interactions and every arrangement of ids", "anchors": ["rust/pact_verifier/src/pact_broker.rs: build_payload, TestResult", "rust/pact_verifier/src/lib.rs: publish_to_broker"]}
{"id": "C83", "title": "HAL links and their templates", "statement": "A link is found under _links with its href (the first member named href in any case), title and templated flag as its object says; writing and reading a link gives it back; of links with one name in a document context the last counts; a templated target has each variable that has a value replaced by that value percent-encoded, so that values can never add path segments, queries or further variables, and nothing else changes.", "quantifier": "all documents, links, templates and values", "why_tests_cant": "templates and values are arbitrary texts", "anchors": ["rust/pact_verifier/src/pact_broker.rs: Link, find_link, iter_links, links_from_json, with_doc_context, parse_link_url"]}
{"id": "C84", "title": "Reading pacts from a broker", "statement": "An answer counts as a document exactly when it has a success status, a JSON or HAL content type and JSON content; 404 is not-found, 400 with JSON gives its validation errors. Fetching pacts reads the broker's root, follows the named link with the provider's name, posts exactly the given selection (for pacts for verification), and then asks for each listed pact once, in order, with the client's credentials; the results come in that order, each with its own properties, and one pact that cannot be read does not affect the others.", "quantifier": "all brokers (any answers), documents, selections, links and histories", "why_tests_cant": "the broker may answer anything at any step", "anchors": ["rust/pact_verifier/src/pact_broker.rs: fetch_pacts_from_broker, fetch_pacts_dynamically_from_broker, HALClient, parse_broker_response, resolve_path"]}
{"id": "C85", "title": "Publishing happens in order and stops at the first failure", "statement": "Publishing results sends the provider branch first (if any), then each tag in order, and the results last and at most once; every request carries the credentials, and nothing more is sent after an answer that is not a document; if publishing succeeds, the branch and every tag have been put where the provider document's links lead and the results were posted to the first link named pb:publish-verification-results (in any case).", "quantifier": "all brokers (any answers), links, versions, branches, tags and histories", "why_tests_cant": "the broker may fail at any request", "anchors": ["rust/pact_verifier/src/pact_broker.rs: publish_verification_results, publish_provider_branch, publish_provider_tags, send_document"]}
{"id": "C86", "title": "Provider state change requests", "statement": "With a state change URL, every call for a provider state sends the same POST request to that URL (without its final slashes): in body mode a JSON document with content type application/json that holds exactly the state name, all its parameters and the action setup or teardown; in query mode one query parameter per name, the state's own parameters taking precedence over state and action. It is sent until an answer is no server error and at most as often as the configured number; a 2xx answer gives the members of its JSON object if it declares one and otherwise nothing, every other answer or no answer is a failure. Without a URL nothing is sent and the call succeeds with no values. Zero retries is a panic, and a parameter named action makes set up and tear down indistinguishable in query mode.", "quantifier": "all executors (URL, body or query mode, number of retries), provider states with any parameters, set up and tear down, default headers, and all sequences of answers", "why_tests_cant": "The tests send a handful of states to one mock server; the claim ranges over all parameter maps including ones that collide with the reserved names, and over every sequence of answers.", "anchors": ["rust/pact_verifier/src/callback_executors.rs: HttpRequestProviderStateExecutor::call", "rust/pact_verifier/src/provider_client.rs: make_state_change_request, create_native_request", "rust/pact_verifier/src/utils.rs: with_retries"]}
{"id": "C87", "title": "The pacts of a directory", "statement": "A directory given as a source yields, in the order of the listing, the pacts of the provider among the files directly in it, and one failure for each file that cannot be read as a pact; files of other providers are skipped. If the directory or any directory below it cannot be listed there is only a failure. Pacts in directories below are never verified.", "quantifier": "all directory trees (of any depth), files that read as a pact or not, and providers", "why_tests_cant": "Tests use one flat directory; the claim is about trees of any shape.", "anchors": ["rust/pact_verifier/src/lib.rs: walkdir"]}
{"id": "C88", "title": "The printed report names the parts that failed", "statement": "The text printed for an interaction has one line for the status, one for each expected header (or metadata entry) in order and one for the body; a passed interaction has only OK, one that could not be verified only the reason. For a response compared with the expected one each line says FAILED if and only if that part did not match, provided no expected header that has more than one value is governed by a matching rule; for a message it does so always. With such a header (for example a minimum number of values) the interaction fails while every line says OK.", "quantifier": "all expected and actual responses and messages with any matching rules, and all lists of mismatches", "why_tests_cant": "The tests check the printed lines of single examples; the claim links the printed words to the outcome of the comparison for all responses and rules.", "anchors": ["rust/pact_verifier/src/request_response.rs: process_request_response_result", "rust/pact_verifier/src/messages.rs: process_message_result, process_sync_message_result, generate_display_for_result", "rust/pact_verifier/src/lib.rs: generate_display_for_result"]}
{"id": "C89", "title": "When an XML body matches", "statement": "For every set of body matching rules and every pair of XML documents: the comparison reports nothing exactly if the actual root element fits the expected one, where an element fits if the rules in force at its path (equality of the qualified names if there are none) accept it; every expected attribute is there and its value is accepted, and no other attribute unless unexpected ones are allowed; for each child name either some type rule applies and there is at least one actual child of that name, each of which fits the first expected one, or the expected children fit the actual ones one by one in order with no further ones unless allowed; children of unexpected names occur only if allowed and no type rule applies to them; and the texts directly in it, trimmed and put together, are accepted. If no body was expected nothing is reported; a body that is missing or not well-formed is reported. How children of different names are interleaved does not matter; without rules every document matches itself.", "quantifier": "all expected and actual documents (any depth, names, namespaces, attributes, texts), all rule sets, both modes for unexpected keys", "why_tests_cant": "documents, rule sets and their nesting are unbounded; the existing tests compare a few literal documents", "anchors": ["rust/pact_matching/src/xml.rs: match_xml, compare_element, compare_attributes, compare_children, compare_text, compare_value"]}
{"id": "C90", "title": "The example of a consumer pattern matches the pattern's own rules", "statement": "For any body pattern built with json_pattern!, like!, each_like!, term! and datetime! (object keys distinct and, if numeric, in their usual form; every term's and date's example satisfying its own expression) the example document the pattern generates, compared with itself under the matching rules the pattern generates, gives no mismatch - whatever the order in which the rules lie in their map, and whether or not unexpected entries are allowed. strip_null_fields removes exactly the null-valued fields of the objects at the top and in arrays.", "quantifier": "every pattern of those forms, of any size and depth, every order of its rules, every behaviour of the regular expression and date libraries", "why_tests_cant": "Patterns nest without bound and the rules of outer patterns apply to the places of inner ones; tests try a few nestings only.", "anchors": ["rust/pact_consumer/src/patterns/json_pattern.rs:JsonPattern", "rust/pact_consumer/src/patterns/special_rules.rs:Like,EachLike,Term", "rust/pact_consumer/src/patterns/date_time.rs:DateTime", "rust/pact_consumer/src/util.rs:strip_null_fields", "rust/pact_matching/src/json.rs:compare_json"]}
{"id": "C91", "title": "A consumer pattern accepts exactly the documents it describes", "statement": "A JSON document compared with the example of a pattern under the pattern's rules gives no mismatch exactly when it is one of the documents the pattern describes: plain values equal, like! the same type throughout, each_like! an array of at least min elements each of which fits the element pattern by type, term! a value whose text matches, datetime! one of the format, objects with every field fitting (and no other, unless extra ones are allowed), arrays element by element - like! and each_like! turn plain values below them into type matches.", "quantifier": "every such pattern (no each_like! of an each_like! whose element has its own rule, nesting depth at most 57), every well-formed document, every order of the rules", "why_tests_cant": "An equivalence over all pairs of pattern and document: it depends on the path weights choosing the right one of all overlapping rules at every place, which samples cannot show.", "anchors": ["rust/pact_consumer/src/patterns/json_pattern.rs:JsonPattern", "rust/pact_consumer/src/patterns/special_rules.rs:Like,EachLike,Term", "rust/pact_matching/src/json.rs:compare_json", "rust/pact_models/src/matchingrules/mod.rs:select_best_matcher"]}
{"id": "C92", "title": "Date and time expressions are read exactly as their grammar says", "statement": "A text is accepted as a date (time) expression, and read as base and adjustments, exactly if it is a sentence of the grammar: blanks and words of the vocabulary by longest match, a base or 'next'/'last' with an offset or an hour of the clock (1 to 12, with or without am/pm), then adjustments of an operation, a 64 bit number and a unit each, and then blanks - or one leftover: anything unreadable, or, after an adjustment, one word or number that is no operation, followed by white space only. Everything written with single spaces is read back.", "quantifier": "every text, every base, every list of adjustments with numbers below 2^64, every behaviour of the lexer after an error", "why_tests_cant": "The texts are unbounded; the longest match and leftovers at the end depend on every combination of words.", "anchors": ["rust/pact_models/src/generators/date_expression_parser.rs: expression, adjustments, DateExpressionToken", "rust/pact_models/src/generators/time_expression_parser.rs: expression, TimeExpressionToken", "rust/pact_models/src/generators/datetime_expressions.rs: TimeBase::of"]}
{"id": "C93", "title": "Date expressions move a date by the calendar", "statement": "Evaluating a date expression gives the point in time it denotes and no other: days and weeks are counted, months and years keep day and time of day (if there is no such day: the first of the month going forward, the last day going back; the same date for years), 'next'/'last' weekday is one to seven days away, 'next' month name is the first day of the next such month to begin, 'last' the first day of the last such month that is over. The calendar is the Gregorian one, day after day. Evaluation is never an error, and panics only if the years that can be represented are left, which amounts that are small compared to the distance from their bounds never do.", "quantifier": "every point in time in the years -10^6 to 10^6 (fixed offset), every expression with amounts below 2^30", "why_tests_cant": "Leap years, ends of months and the loops that count days one by one have to be right for every date and amount.", "anchors": ["rust/pact_models/src/generators/datetime_expressions.rs: execute_date_expression, forward_date_by, reverse_date_by, roll_month, adjust_date_up_to, adjust_date_down_to, base_date"]}
{"id": "C94", "title": "Time expressions and the two together", "statement": "Evaluating a time expression gives the point in time it denotes: bases are full hours of the same day (12 am is noon, 12 pm leaves the time as it is; an hour without am or pm is the next half of the day), adjustments add or subtract hours, minutes, seconds and milliseconds. A text 'date @ time' is the date expression followed by the time expression evaluated at its result; without '@' it is a date expression; an empty part changes nothing. The documented examples hold.", "quantifier": "every text, every point in time in the years, amounts below 2^30", "why_tests_cant": "Composition over all texts and dates.", "anchors": ["rust/pact_models/src/generators/datetime_expressions.rs: execute_time_expression, execute_datetime_expression"]}
{"id": "C95", "title": "Exactly which texts a date or time format accepts", "statement": "A text is a date/time format exactly when it is a sequence of runs of the documented letters (each at most as long as its kind allows), characters that stand for themselves and quoted text, and it reads as such a sequence in one way only; validating a value against a format succeeds exactly when the value is made of the fields of the format, one after the other, each of the documented shape, and the day it names exists (in a non-leap year when the format has no year). Validation panics only for a fraction field of 20 or more letters or for a year of more than 15 bits next to a day, and always in the latter case. Documented oddities follow: days of the year after 356, offsets of 12 hours or more and zone names with an underscore are refused, the 29th of February is refused without a year, several quotes become one.", "quantifier": "all formats, all values, all tables of zone names and abbreviations", "why_tests_cant": "the set of formats is infinite and fields are read greedily, so whether a field takes too much or too little depends on everything that follows it; the recorded tests try some formats on one value each", "anchors": ["rust/pact_models/src/time_utils.rs: parse_pattern, validate_datetime, validate_datetime_string, DateTimePatternToken"]}
{"id": "C96", "title": "Generated dates and times are accepted by the format they were generated with", "statement": "For every format made of years of two or four letters, months, days, day names, 24-hour and 12-hour hours, minutes, seconds, fractions of 3, 6 or 9 digits, +hhmm and +hh:mm offsets and text, generating a moment with the format succeeds, and the text is accepted by the same format and each of its fields tells the moment (unless the format has day and month but no year and the day is a 29th of February). Outside those fields it does not hold, and it is shown where: a date format with a time field panics, fractions of 4, 5, 7, 8 or more than 9 letters panic, years of one or three letters, hour 0 of k and K, days of the year after 356, zone names and the default date-time text are generated but refused.", "quantifier": "all moments with years 0 to 9999, all offsets of less than 12 hours, all formats", "why_tests_cant": "the two directions are implemented by different code (chrono's formatter and hand-written parsers); agreement has to hold for every combination of fields and every moment", "anchors": ["rust/pact_models/src/time_utils.rs: to_chrono_pattern, generate_string", "rust/pact_models/src/generators/mod.rs: Generator::Date, Generator::Time, Generator::DateTime (generate_value)"]}
{"id": "C97", "title": "A V4 pact file read back is the pact that was written", "statement": "Writing a V4 pact as JSON and reading that JSON gives a pact with the same consumer and provider, the same plugins, the same metadata (plus the specification and library versions) and the same interactions, sorted by description and otherwise in order: same key, description, provider states with parameters, pending flag, transport, non-empty comments, plugin configuration and markup, same request/response/messages with the same path, query, status, headers, metadata, matching rules and generators, the method in upper case, and the same body: the same bytes (for JSON the text of the same value), the same hint, and the type under which it was written. Not carried: the interaction id, empty comments, a markup type without markup, a null body (it comes back as missing, which accepts anything), the JSON bodies null and \"\", and, for responses and asynchronous messages, the type that only a header gives (it becomes */*, so bodies are compared byte by byte).", "quantifier": "all V4 pacts of all three kinds of interactions, with maps in any iteration order, within the stated conditions (rules and generators that JSON can carry, types that parse from their own text, status below 65536, content-type headers with a value)", "why_tests_cant": "it ranges over all combinations of bodies, types, hints, rules, generators, states and metadata, and over all hash map orders; tests check single documents", "anchors": ["rust/pact_models/src/v4/pact.rs: V4Pact::to_json, from_json", "rust/pact_models/src/v4/interaction.rs: interaction_from_json, parse_plugin_config", "rust/pact_models/src/v4/http_parts.rs: HttpRequest::to_json, from_json, HttpResponse::to_json, from_json, body_from_json", "rust/pact_models/src/v4/message_parts.rs: MessageContents::to_json, from_json", "rust/pact_models/src/bodies.rs: OptionalBody::to_v4_json", "rust/pact_models/src/provider_states.rs: ProviderState::to_json, from_json"]}
{"id": "C98", "title": "An older pact file of requests and responses comes back as the pact that was written", "statement": "A request/response pact written to a V1, V1.1, V2 or V3 file and loaded again has the same consumer and provider, the same interactions in the same order, and for each the same description, request and response as far as that version can hold them: method in capitals, path, query, headers, body bytes (the text of the same value for JSON), matching rules (all of them in V3, the first of each list before), generators (V3 only), provider states (all with parameters in V3, the name of the first before). The metadata comes back with the version and the library version set, and the loaded pact has the version it was written with. A content type declared by a header is the type before and after. The conditions on bodies are those under which the format is not lossy; for each of them there is a counterexample.", "quantifier": "every request/response pact whose parts the version can hold, every version before V4, every library version string, every external parser", "why_tests_cant": "The tests write and compare a few pacts; the round trip must hold for every header, query, body, rule and state, and depends on the interplay of the content type, the text of the body and the version.", "anchors": ["rust/pact_models/src/sync_pact.rs: RequestResponsePact::to_json, from_json, metadata_to_json", "rust/pact_models/src/sync_interaction.rs: RequestResponseInteraction::to_json, from_json", "rust/pact_models/src/request.rs: Request::to_json, from_json", "rust/pact_models/src/response.rs: Response::to_json, from_json", "rust/pact_models/src/json_utils.rs: body_from_json, headers_from_json, headers_to_json", "rust/pact_models/src/pact.rs: load_pact_from_json, parse_meta_data, determine_spec_version"]}
{"id": "C99", "title": "A V3 message pact file comes back as the pact that was written", "statement": "A message pact written to a V3 file and loaded again has the same participants, the same messages in the same order with description, provider states, metadata and matching rules, and the same contents (the text of the same value for JSON), which get the type the metadata declares. Its generators are not read back. Message pacts cannot be written to older versions, and a message file of an older version is not loaded.", "quantifier": "every message pact whose contents the format can hold, every library version string, every external parser", "why_tests_cant": "The tests cover one message of each kind; the round trip depends on the metadata, its content type entry and the bytes of the contents, and must hold for all of them.", "anchors": ["rust/pact_models/src/message_pact.rs: MessagePact::to_json, from_json", "rust/pact_models/src/message.rs: Message::to_json, from_json, message_content_type", "rust/pact_models/src/json_utils.rs: body_from_json", "rust/pact_models/src/pact.rs: load_pact_from_json"]}
{"id": "C100", "title": "A pact written in the format of another version keeps what that version can hold", "statement": "A request/response or message pact written as V4 and loaded again is a V4 pact with the same participants and metadata and the same interactions (sorted by description, those with equal descriptions in their order), with nothing added. A V4 pact whose interactions are all HTTP written as V1-V3, or all asynchronous messages written as V3, and loaded again is a pact of that version with the same participants, the same interactions in order as far as the version can hold them, and of the metadata the entries that are objects, with their values as texts; a message gets the type of its contents as metadata entry \"contentType\". Writing is refused exactly if the interactions are of different kinds, or there is a synchronous message, or there is a message and the version is before V3. Converting to V4 and back loses nothing of an interaction. Loading: only objects are accepted; a file that declares version 4 becomes a V4 pact, another file with an entry \"messages\" a message pact, every other file a request/response pact, of the version the file declares (V3 if it declares none).", "quantifier": "every pact of each of the three kinds whose parts the target version can hold, every target version, every JSON value as a file", "why_tests_cant": "The tests convert single interactions; the claim is about all pacts, all mixtures of interaction kinds, all metadata and all files.", "anchors": ["rust/pact_models/src/v4/pact.rs: V4Pact::to_json, has_mixed_interactions, as_request_response_pact, as_message_pact", "rust/pact_models/src/sync_pact.rs: RequestResponsePact::to_json, as_v4_pact", "rust/pact_models/src/message_pact.rs: MessagePact::to_json, as_v4_pact", "rust/pact_models/src/sync_interaction.rs: as_v4_http", "rust/pact_models/src/message.rs: as_v4_async_message", "rust/pact_models/src/v4/synch_http.rs: as_request_response", "rust/pact_models/src/v4/async_message.rs: as_message", "rust/pact_models/src/pact.rs: load_pact_from_json, parse_meta_data, determine_spec_version"]}
{"id": "C101", "title": "Executing a matching plan always ends", "statement": "Matching a request with the V2 matching engine ends for every expected and every actual request: executing any plan, with any values on the stack, takes finitely many steps, and the outcome does not depend on how many more would have been allowed.", "quantifier": "every plan tree, value stack, expected request and actual request", "why_tests_cant": "a test runs the interpreter on some plans; that no plan loops (splat nodes feed their children back into the queue that is being walked, for-each builds new plans from the values it finds) is a claim about all of them", "anchors": ["rust/pact_matching/src/engine/interpreter.rs: ExecutionPlanInterpreter::walk_tree, execute_for_each, evaluate_children", "rust/pact_matching/src/engine/mod.rs: execute_request_plan, build_request_plan"]}
{"id": "C102", "title": "Exactly the requests the V2 matching engine accepts, without rules", "statement": "For an expected request without matching rules, matching with the V2 engine ends with a result whose parts are independent of the bound on steps: no method mismatch exactly when the methods agree ignoring case; no path mismatch exactly when the paths are equal; no query mismatch exactly when the same names are present and the values found for each expected name agree (one expected value also stands for repeated equal values); no header mismatch exactly when every expected header is present (ignoring case of the name) with agreeing values (Accept and Content-Type as media type with parameters); the body matches exactly when nothing is expected, or an empty body is expected and found, or the content types differ, or the JSON documents agree (same names and values; array items that are arrays or objects are not compared), or the texts are equal; and the request matches exactly when all of these hold.", "quantifier": "every expected request without rules and every actual request, every character set and JSON reader, under the stated conditions on names (no wildcards, distinct names, names that can be written in a JSON pointer)", "why_tests_cant": "the plan is built from the request and interpreted; the claim is an equivalence over all requests, documents of any depth and any number of headers, parameters and query values, and includes that no other reason to accept or refuse exists", "anchors": ["rust/pact_matching/src/engine/mod.rs: build_request_plan, setup_method_plan, setup_path_plan, setup_query_plan, setup_header_plan, setup_body_plan", "rust/pact_matching/src/engine/bodies.rs: JsonPlanBuilder, PlainTextBuilder", "rust/pact_matching/src/engine/interpreter.rs: ExecutionPlanInterpreter", "rust/pact_matching/src/lib.rs: RequestMatchResult::from(ExecutionPlan)"]}
{"id": "C103", "title": "V2 matching engine: rules on path, query and headers", "statement": "With the V2 matching engine, an expected request with matching rules on its path, query parameters and headers accepts exactly the requests whose path, parameter values and header values satisfy every rule that applies to them (a single expected value stands for any number of actual values, each checked); values no rule applies to are compared as without rules. All rules of a list are required even when the list says 'or'; a path with rules that the V2 engine accepts is accepted by the default engine too, but not the other way around; a min-max-type rule on a query parameter makes the request unacceptable.", "quantifier": "every expected request with rules of the supported kinds on path, query and headers, every actual request, every world", "why_tests_cant": "The accepted set is a property of all request pairs and all rule lists; the recorded test plans only show a few rules one at a time.", "anchors": ["rust/pact_matching/src/engine/mod.rs: build_matching_rule_node, setup_path_plan, setup_query_plan, setup_header_plan", "rust/pact_matching/src/engine/interpreter.rs: execute_match", "rust/pact_models/src/matchingrules/mod.rs: MatchingRule::name, values, create"]}
{"id": "C104", "title": "Reading a pact file never panics, apart from three kinds of content", "statement": "Loading a pact from any JSON document, of any version, gives a pact or an error and never panics, provided that no response of the file has a status that is not a whole number, no request or response has a content-type header that is an empty list, and no path of a matching rule or generator has an index that is not a machine word. Each of the three does stop the reader with a panic: a first interaction with such a status, or with such a rule on its request, makes loading the file panic whatever the version.", "quantifier": "all JSON documents (files of every specification version, any depth and number of interactions, rules and generators), all worlds and external parsers, all versions readers", "why_tests_cant": "the reader walks every part of an arbitrary document; absence of a panic is a statement about all documents, and the panicking contents are rare and spread over several crates' functions", "anchors": ["rust/pact_models/src/pact.rs: load_pact_from_json", "rust/pact_models/src/response.rs: Response::from_json", "rust/pact_models/src/v4/http_parts.rs: HttpResponse::from_json, body_from_json", "rust/pact_models/src/json_utils.rs: body_from_json", "rust/pact_models/src/path_exp.rs: index_path", "rust/pact_models/src/matchingrules/mod.rs: load_from_v2_map, load_from_v3_map", "rust/pact_models/src/generators/mod.rs: load_from_map"]}
{"id": "C105", "title": "Multipart bodies are compared part by part", "statement": "An actual MIME multipart body matches an expected one exactly when both can be read and each expected part agrees with the part it is compared with: the first actual part of the same name, or the first without a name at the same index. Fields agree when their headers agree and their text (decoded from base64 if sent so) satisfies the rules in force at $.name (equality without any); files agree when their headers agree, their content types are comparable and their contents match under the rules written below $.name as seen from there (JSON contents: they conform). A header agrees when it satisfies the rules written for it, or without any is the same text; content-disposition is not compared, and content-* headers may be missing. Consequences: a body with distinctly named parts matches itself; additional parts are ignored; several expected fields of one name with different texts match no body of named parts; a file that is itself multipart never matches; rules for headers of a part with a capital letter in its name have no effect; a panic while comparing is reported as a mismatch.", "quantifier": "all bodies and headers (any number of parts, names, headers, contents), all body rule sets, all multipart splitters", "why_tests_cant": "which rule applies to which part, and which part is compared with which, ranges over all combinations of parts, names and rules; tests fix a handful of bodies", "anchors": ["rust/pact_matching/src/binary_utils.rs: match_mime_multipart, match_mime_multipart_inner, match_mime_part, match_field, match_headers, match_file_part, parse_multipart, get_multipart_boundary, get_http_header_map, MimeField::decode_data, MimeFile::decode_data", "rust/pact_matching/src/lib.rs: compare_bodies"]}
{"id": "C106", "title": "Query parameters, headers and form fields are decided by the rules that apply to them, whatever the rule set", "statement": "Under any set of matching rules (as read from a pact file): the query parameters (and the fields of a form body) of a request match exactly when both sides have the same names and for each name either (a) some rule path matches $.name and the first such rule list of the map - the most specific one for form bodies - accepts the list of values: AND/OR over its rules, where sizes, equality and emptiness are asked of the list, each actual value is judged against the expected value at its position or else the first one, a missing value needs a rule for its position, array-contains needs a matching value for every variant and each-value applies its rules to every value; or (b) no rule path matches it, and there are as many values as expected, each decided by the rules for $.name[i] or else equality. A header matches exactly when one with its name ignoring case is there and: single values are decided by the rules for $.name, else for $.name[0], else as text or structured value; several values by the rule list for $.name, or without one value by value, where values that are not expected are compared with the empty text. A whole request (response) matches exactly when method, path, query, headers (status, headers) and body do, each by the rules of its own category. If several rule paths match the same parameter, the order of the map decides.", "quantifier": "all worlds, rule sets, query maps, header maps with distinct readable values, form bodies, requests and responses", "why_tests_cant": "Unbounded rule sets, names, value lists and interplay of wildcard, indexed and plain rule paths.", "anchors": ["rust/pact_matching/src/query.rs: match_query_maps, match_query_values, compare_query_parameter_value(s)", "rust/pact_matching/src/headers.rs: match_header_maps, match_header_value", "rust/pact_matching/src/matchingrules.rs: compare_lists_with_matchingrules, match_list_contents", "rust/pact_matching/src/form_urlencoded.rs: match_form_urlencoded", "rust/pact_matching/src/lib.rs: match_request, match_response, match_query", "rust/pact_models/src/matchingrules/mod.rs: select_best_matcher, as_rule_list"]}
{"id": "C107", "title": "A request or response described with the consumer DSL builders accepts exactly what the calls describe", "statement": "For every sequence of calls of the request builder (method, path, path_from_provider_state, query_param, header, header_from_provider_state, body, body2, json_body, body_matching, body_matching2): the built request is matched by exactly the requests whose method is the one set last (GET if none) ignoring case, whose path satisfies all the patterns given for the path (without a pattern with a rule: is the path set last, / if none), whose query parameters are those given - the values of each in order, or, if any of its values was given with a rule, any number of values that all satisfy every rule given for it -, that have each given header (names ignoring case, the values of all calls for it together, comma separated texts being several values) satisfying the rules given for it or else equal to the given values as headers are compared, and whose body matches; for a json_body the documents the JSON pattern accepts, for body_matching the texts the pattern accepts. Likewise for responses with the status set last (200 if none). The provider-state generators are the last expression given for the path and for each header name. The order of the rule maps (hash maps) does not matter. The hypotheses are needed: a header with rules given in two spellings depends on the hash order; a path or JSON body set twice keeps the rules of the first.", "quantifier": "all sequences of builder calls, all actual requests and responses (readable structured headers, header names unique ignoring case), all orders of the rule maps", "why_tests_cant": "The builder tests check a few call sequences against one example; the claim quantifies over all call sequences, patterns and actual requests and over the hash order of the rules.", "anchors": ["rust/pact_consumer/src/builders/request_builder.rs: RequestBuilder", "rust/pact_consumer/src/builders/response_builder.rs: ResponseBuilder", "rust/pact_consumer/src/builders/http_part_builder.rs: HttpPartBuilder", "rust/pact_consumer/src/patterns/string_pattern.rs", "rust/pact_matching/src/lib.rs: match_request, match_response"]}
{"id": "C108", "title": "A path expression finds in an XML document exactly the elements, attributes and texts it stands for", "statement": "resolve_path of a path expression (names, names with a position, * and [*], ending perhaps in @attribute or #text) in an XML document gives exactly the pointers /name[i]/... of the ways into the document the expression stands for: a name stands for every element of that name among its siblings, a name with a position for that one of them, a star for every child element, @name for an attribute that is present, #text for the text of an element with a non-empty text child. The root must have the first name; a position after an attribute or #text is ignored. No pointer is given twice. If all element names consist of letters, digits and underscores, resolve_matching_node of any such pointer gives what it points to. The root expression gives nothing. An element whose name has another character (a hyphen) is looked up as the element whose name follows that character, at the same position.", "quantifier": "all XML trees with XML names, all path expressions in which a position only follows a name, all results", "why_tests_cant": "The tests resolve a dozen expressions in one document; the claim is about every document of any depth and every expression.", "anchors": ["rust/pact_models/src/xml_utils.rs: resolve_path, query_graph, group_children, resolve_matching_node, match_next", "rust/pact_matching/src/engine/interpreter.rs: resolve_value for XML"]}
{"id": "C109", "title": "A form body described by JSON becomes exactly the form of its texts and numbers", "statement": "For a body of type application/x-www-form-urlencoded given to the FFI as JSON with matchers in it: the body of the interaction, read as a form, has exactly the texts and numbers of the example document (matchers replaced by their values) in the order of its entries, those of an array as repeated fields; other values are left out. Any list of fields written as a form is read back as the same list. Rules and generators are those the description gives (C75), except that every rule whose path text contains the path text of a left-out value is removed together with its generator (so a boolean field a also removes the rule of a field ab). The call panics exactly when the text is not JSON or a rule in it makes the rule reader panic.", "quantifier": "all JSON documents with matchers and generators, all rules and generators present before, all Unicode texts", "why_tests_cant": "The unit tests run about thirty literal documents; the encoding has to be inverse on every text and the removal of rules has to be right for every combination of fields.", "anchors": ["rust/pact_ffi/src/mock_server/form_urlencoded.rs: process_form_urlencoded_json, convert_json_value_to_query_params, handle_form_urlencoded_invalid_value", "rust/pact_ffi/src/mock_server/handles.rs: process_body"]}
{"id": "C110", "title": "An XML body described by JSON becomes exactly the described document, with its rules and generators", "statement": "For an XML body given to the FFI as a JSON description (elements with name, attributes, children, examples; texts with content and matcher; matchers around elements and attribute values): the document made is exactly the described tree, each child element in the stated number of examples, and the rules and generators of the body category afterwards are the earlier ones plus exactly those of the matchers, at the path of names from the root ($.a.b, $.a['@id'], $.a.#text). Every well-formed description is followed; a description that is not well-formed (no name, children that are no array, a matcher without value, an example count that is no natural number) panics, and nothing else does except a rule that itself makes the rule reader panic; the conversion never ends in any other way. Of several examples only the first keeps its texts (finding); rules of names that cannot stand in a path end up at the root (finding); the generator of a text is looked up beside content rather than in its matcher (finding).", "quantifier": "all JSON descriptions of any depth and width, all example counts, all rules and generators present before", "why_tests_cant": "The tests check a handful of literal documents; trees, paths and repetition counts are unbounded and the rules added depend on every level of the tree.", "anchors": ["rust/pact_ffi/src/mock_server/xml.rs: generate_xml_body, create_element_from_json, add_attributes, add_text_nodes, duplicate_element", "rust/pact_ffi/src/mock_server/handles.rs: process_xml"]}
{"id": "C111", "title": "How a verification run is configured and what it returns", "statement": "After any history of calls on a verifier handle, a run is started with the last that was said on each matter (filter, consumers, options, headers by name, publishing, state change), the sources in the order of the calls with the provider's name at that time, and the transports added since the provider was set; NULL and empty texts count as nothing, a needed text that is missing or not UTF-8 makes the call fail and change nothing. A run returns 0, 1 or 2 exactly for success, failure and a run that could not be made; the JSON report and the output are those of the last run, stripping removes exactly the escape codes, selectors reach the broker with exactly their known non-null entries, and the command line verifier exits with 0, 1, 2 or 3 accordingly. A run that could not be made leaves a report that says success; selectors of the wrong kind are left out silently; pending and WIP options without selectors or tags do nothing.", "quantifier": "all histories of calls with all arguments (also NULL and not UTF-8), all outcomes of runs, all texts, all selectors, all command line options", "why_tests_cant": "the order of calls and the combination of options is unbounded", "anchors": ["rust/pact_ffi/src/verifier/handle.rs: VerifierHandle", "rust/pact_ffi/src/verifier/mod.rs: pactffi_verifier_*", "rust/pact_verifier_cli/src/main.rs: handle_matches, pact_source, interaction_filter", "rust/pact_verifier/src/verification_result.rs", "rust/pact_verifier/src/selectors.rs"]}
{"id": "C112", "title": "A message described with the consumer DSL accepts exactly the messages the calls describe", "statement": "For every sequence of calls on the asynchronous and synchronous message builders: the message has the given description, the states, comments and test name in call order, of several keys or pending flags the last; its body is the last one given; its metadata for a key is the last value given since the contents were last given as a whole JSON value, and for contentType, if none was given, the type of the first body that has one. Matched against an actual message: if the body is a JSON pattern, exactly the JSON bodies the pattern describes with the described metadata are accepted; if it is bytes, exactly those bytes. A synchronous message has one response per response call, in call order, each accepting exactly what its own call describes, and contents given whole are matched as those contents. Describing a message panics exactly if a pact:content-type cannot be read. Deviations that are proved: every response has the generators of the request, so generators given with a response are lost; a response given as bytes with a content type accepts only messages with the metadata key ' contentType' (leading space); a second pattern keeps the rules of the first.", "quantifier": "all sequences of builder calls, all JSON patterns, bytes, metadata and actual messages, every order of the rule maps", "why_tests_cant": "The meaning of a description is over every order and repetition of calls and every actual message; tests try a handful.", "anchors": ["rust/pact_consumer/src/builders/message_builder.rs: MessageInteractionBuilder, build, build_v3, json_body, body, contents_from", "rust/pact_consumer/src/builders/sync_message_builder.rs: SyncMessageInteractionBuilder, build, response_json_body, response_body, response_contents", "rust/pact_matching/src/lib.rs: match_message, match_sync_message"]}
{"id": "C113", "title": "A pact described with the consumer DSL has exactly the described interactions, and its iterators give each message once", "statement": "For every sequence of interaction, message and synchronous message calls on a pact builder: if it succeeds, the pact has the interactions it had before followed by one interaction per call in call order, each as described by its own calls (request, response, states, comments, key, pending, transport), in the form of the pact's format, and everything else of the pact is unchanged. It panics exactly if a call describes no interaction or one the format does not take: a V4 pact takes all, a request/response pact only HTTP interactions, a message pact only asynchronous messages. Asking an iterator over the messages of a pact n times gives its messages in order, each once, then nothing for ever; the iterator over synchronous messages gives all of them generated or all of them as described, never a mixture, and generating changes only the contents, each with its own generators.", "quantifier": "all sequences of calls, all pacts of the three formats, any number of iterator steps", "why_tests_cant": "Holds over every sequence of calls and every mixture of interaction kinds and formats.", "anchors": ["rust/pact_consumer/src/builders/pact_builder.rs: PactBuilder::interaction, message_interaction, synchronous_message_interaction, push_interaction", "rust/pact_consumer/src/builders/interaction_builder.rs: build, build_v4", "rust/pact_consumer/src/builders/message_iter.rs: MessageIterator, asynchronous_messages_iter, synchronous_messages_iter", "rust/pact_models/src/v4/pact.rs, sync_pact.rs, message_pact.rs: add_interaction"]}
{"id": "C114", "title": "What each field of a pact file says, and what leaving it out says", "statement": "Whenever a JSON document is read as a pact, every part of the pact is what the corresponding field of the document says, and the documented default if the field is left out. The version is taken from metadata.pactSpecification.version (or pact-specification) and V3 is assumed when none is given; a V4 document is read as a V4 pact, otherwise a document with a messages field as a message pact and any other as an HTTP pact. There is exactly one interaction for each element of the list, in order, and each names its type among the three supported. Method (upper-cased, default GET), path (default /), query, headers (comma separated lists, single-valued headers), status (default 200; numbers are kept modulo 65536), body (missing, null, empty, base64, JSON, text, with the type given or taken from the headers or detected), description (default numbered), key, id, provider states (three spellings), pending (default false), comments, transport, plugin configuration, markup, message metadata, and the names of consumer and provider are each determined by their own field.", "quantifier": "all JSON documents that are read successfully, at every version, with any number of interactions", "why_tests_cant": "Tests read a handful of sample files; the claim is about every combination of present, absent and ill-typed fields in every kind of interaction, and a default applied in the wrong place only shows in files nobody wrote a test for.", "anchors": ["rust/pact_models/src/v4/http_parts.rs", "rust/pact_models/src/v4/interaction.rs", "rust/pact_models/src/v4/pact.rs", "rust/pact_models/src/request.rs", "rust/pact_models/src/response.rs", "rust/pact_models/src/sync_interaction.rs", "rust/pact_models/src/sync_pact.rs", "rust/pact_models/src/message.rs", "rust/pact_models/src/message_pact.rs", "rust/pact_models/src/json_utils.rs", "rust/pact_models/src/provider_states.rs", "rust/pact_models/src/pact.rs"]}
{"id": "C115", "title": "Bodies given through the C interface", "statement": "pactffi_with_body sets the body of exactly one part (or adds one response to a synchronous message): JSON documents become their example value with the rules and generators of their matchers added to those there were, JSON that describes XML or a form becomes that, any other text is kept as it is; the type is the one given, else that of the part, else the one found in the text; the Content-Type header (contentType metadata) is set only if that exact name is not there. pactffi_with_binary_body and pactffi_with_binary_file keep the bytes as they are. A call with a readable type and text succeeds and returns whether the mock server has not started.", "quantifier": "every text or bytes, every content type (also none), every interaction and its parts, whether started or not", "why_tests_cant": "the document, its matchers and the former state of the part are arbitrary; the tests use a few documents on fresh interactions", "anchors": ["rust/pact_ffi/src/mock_server/handles.rs: process_body, pactffi_with_body, pactffi_with_binary_body, pactffi_with_binary_file", "rust/pact_ffi/src/mock_server/bodies.rs: process_json"]}
{"id": "C116", "title": "Files added as the parts of a multipart body", "statement": "Any number of pactffi_with_multipart_file_v2 calls on a part whose body has no marker line make one multipart body with the boundary of the first call, holding the files in the order of the calls, with the header and its rule set once and one rule on the type of every file; on a body with a marker line the part is put behind it with that marker and nothing else but the rule changes; a call that fails changes nothing.", "quantifier": "every number of files, every name, type, contents and boundary made of boundary characters, every former state of the part", "why_tests_cant": "it ranges over all histories of calls and all bytes; the tests add one or two files", "anchors": ["rust/pact_ffi/src/mock_server/bodies.rs: request_multipart, response_multipart, add_part_to_multipart, part_body_replace_marker, contains_existing_multipart", "rust/pact_ffi/src/mock_server/handles.rs: pactffi_with_multipart_file_v2"]}
{"id": "C117", "title": "Matching rules and generators given through the C interface", "statement": "pactffi_with_matching_rules adds the rules of its JSON (under \"matchingRules\" or without that name) behind those of each category and path and changes nothing else; pactffi_with_generators replaces the generator of each path and changes nothing else; both work on the named part (all responses of a synchronous message); they return true exactly if the JSON is an object whose rules or generators can be read, otherwise nothing changes.", "quantifier": "every JSON text, every former collection of rules and generators, every kind of interaction", "why_tests_cant": "the collections and the document are arbitrary; the tests add one rule to empty collections", "anchors": ["rust/pact_ffi/src/mock_server/handles.rs: pactffi_with_matching_rules, pactffi_with_generators", "rust/pact_models/src/matchingrules/mod.rs: MatchingRules::merge, MatchingRules::add_rules, MatchingRuleCategory::add_rules", "rust/pact_models/src/generators/mod.rs: Generators::add_generators"]}
{"id": "C118", "title": "What the C interface reads back of contents, description and metadata", "statement": "The contents calls of the C interface show a text exactly if it is marked or typed as text, is UTF-8 and has no NUL; the length and the bytes are those of the contents. After any history of set calls each part has the contents of the last call about it that did not fail, and nothing else of the interaction changes; a response number makes the list of responses long enough and not longer. The description is that of the last call with a UTF-8 text. Inserting metadata changes that name only and says whether it was there; it is then found; messages made from a body keep its bytes and say its type.", "quantifier": "every interaction, every history of set calls, every text, bytes and content type, every number of a response", "why_tests_cant": "histories of calls and bytes are arbitrary; the tests set one part once", "anchors": ["rust/pact_ffi/src/models/contents.rs: pactffi_message_contents_get_contents_str, _set_contents_str, _length, _bin, _set_contents_bin", "rust/pact_ffi/src/models/http_interaction.rs: pactffi_sync_http_get/set_request/response_contents*, get/set_description, get_provider_state", "rust/pact_ffi/src/models/async_message.rs: pactffi_async_message_*", "rust/pact_ffi/src/models/sync_message.rs: pactffi_sync_message_*", "rust/pact_ffi/src/models/message.rs: pactffi_message_find_metadata, pactffi_message_insert_metadata, pactffi_message_new_from_body", "rust/pact_ffi/src/models/provider_state.rs: pactffi_provider_state_get_name", "rust/pact_ffi/src/util/string.rs: to_c, optional_str"]}
{"id": "C119", "title": "Iterators of the C interface give everything once, in order", "statement": "The iterators over matching rules, generators, message metadata, provider states, their parameters and the interactions of a pact give every entry exactly once and then NULL for ever: rules and generators in the order of the texts of their paths (the rules of one path in their order) whatever the order of the map, metadata in the order of the names, interactions in the order of the pact and only those of the asked kind; each answer is the entry as C text, or an error if it cannot be one.", "quantifier": "every collection in every map order, every number of calls", "why_tests_cant": "collections and numbers of calls are unbounded; the tests iterate over two entries", "anchors": ["rust/pact_ffi/src/models/matching_rules.rs: MatchingRuleIterator, pactffi_matching_rules_iter_next", "rust/pact_ffi/src/models/generators.rs: GeneratorCategoryIterator, pactffi_generators_iter_next", "rust/pact_ffi/src/models/message.rs: MessageMetadataIterator, ProviderStateIterator", "rust/pact_ffi/src/models/provider_state.rs: ProviderStateParamIterator", "rust/pact_ffi/src/models/iterators.rs: PactInteractionIterator, PactAsyncMessageIterator, PactSyncMessageIterator, PactSyncHttpIterator"]}
{"id": "C120", "title": "Contents and metadata of messages given through the C interface", "statement": "pactffi_message_with_contents sets the contents of an asynchronous message and leaves every other interaction alone: a type that cannot be read keeps the bytes without a type; with a text or JSON type a JSON document becomes its example value with its rules and generators added, another text is kept; JSON that describes XML becomes that; bytes of other types are kept. pactffi_with_metadata sets or removes one entry of the metadata of every message of the side, adds the rules and generators of the matchers in the value at the path of the name, leaves everything else, and says whether it did; after any history of calls an entry holds what the last call about its name left. The older metadata calls do the same for asynchronous messages.", "quantifier": "every text, type and bytes, every metadata name and value, every kind of interaction with any number of responses, every history of calls", "why_tests_cant": "documents, names and histories are arbitrary; the tests set two entries", "anchors": ["rust/pact_ffi/src/mock_server/handles.rs: pactffi_message_with_contents, pactffi_with_metadata, pactffi_message_with_metadata, pactffi_message_with_metadata_v2"]}
{"id": "C121", "title": "Metadata of the pact given through the C interface", "statement": "After any history of pactffi_with_pact_metadata and pactffi_with_message_pact_metadata calls each name in each namespace holds the value of the last call about it (the second call replaces the whole namespace), names no call is about keep their values, and nothing but the metadata changes; the first call never changes the namespaces pactRust and pactSpecification or works without a namespace, and says true exactly if it changed something before the mock server started.", "quantifier": "every history of calls with any texts (also NULL), every former metadata of the pact, started or not", "why_tests_cant": "histories are arbitrary; the tests make three calls", "anchors": ["rust/pact_ffi/src/mock_server/handles.rs: pactffi_with_pact_metadata, pactffi_with_message_pact_metadata, PROTECTED_NAMES"]}
{"id": "C122", "title": "Verification of the format of a pact file", "statement": "Verifying the JSON of a V1-V3 pact never fails and says nothing exactly if the document is a well-formed pact file (strict or not); it reports an error exactly if a part that is there cannot be used, where a strict check also takes missing and unknown attributes for errors. There is a finding at a place of the document exactly if something is wrong there. A strict and a lenient check say the same things at the same places and differ only in that some warnings become errors; the version matters only for the deprecated name providerState. What the library itself writes for a pact in V1 to V3 passes the strict check with at most the warnings that there are no interactions or that its metadata holds a former name for the version. Message and V4 pacts are only checked to be objects.", "quantifier": "every JSON document, both modes, every version, every pact that is written", "why_tests_cant": "documents are arbitrary; there is no test of this code at all", "anchors": ["rust/pact_models/src/verify_json.rs", "rust/pact_models/src/sync_pact.rs: RequestResponsePact::verify_json", "rust/pact_models/src/sync_interaction.rs: RequestResponseInteraction::verify_json", "rust/pact_models/src/provider_states.rs: ProviderState::verify_json", "rust/pact_models/src/lib.rs: Consumer::verify_json, Provider::verify_json, PactSpecification::parse_version", "rust/pact_models/src/pact.rs: verify_metadata"]}
{"id": "C123", "title": "The arguments of the verifier command line", "statement": "A command line is accepted exactly if every value is in order (a transport is name:port or name:port/path with a port below 65536, a number is a number in range, a filter is a regular expression that is not empty, selectors are JSON, other values and parts of lists are not empty), everything but the repeatable arguments is given once, and the arguments go together (a source; a name with a broker; a broker for what needs one; a version to publish; a webhook alone; one of user/password and token; one of the alternatives). The program panics exactly at a transport of the right form whose port is no port; any other line that is not accepted ends with the code 2 before anything is run. An accepted line gives exactly the options that were given, whatever the order of different arguments; it has at least one source, a webhook's being the only one and a broker being asked for a provider that is named; it never panics before the run and its code is that of the run.", "quantifier": "every list of arguments with values", "why_tests_cant": "command lines and values are arbitrary; the tests look at a few values of four parsers", "anchors": ["rust/pact_verifier_cli/src/args.rs: setup_app, port_value, integer_value, validate_regex, json_value, transport_value", "rust/pact_verifier_cli/src/main.rs: handle_cli, handle_matches, pact_source"]}
{"id": "C124", "title": "Logging through the C interface", "statement": "Once logging was started (by applying the sinks attached in the thread, by one of the calls for a single sink, or with a level), every record is written, in the order of logging, exactly to the sinks whose level is the record's or a higher one, once for each such sink; without a sink it is standard output from the level info. A buffer holds what was written to it since the last fetch of it, and nothing is lost or repeated: fetches return it in turn, except that a text that is not UTF-8 or has a zero is answered with NULL and lost. Nothing is written before logging was started. It is started once: later attempts are answered with -1 and change nothing. A sink is attached exactly if its specification is stdout, stderr, buffer or file and a name, with white space around it, and a file can be opened; the other answers are -3 (not UTF-8), -4 (no sink) and -6 (the file). Level names are in any case of letters or numbers from 1 to 5, otherwise info. Applying ends the program exactly if an attached file can no longer be opened.", "quantifier": "every history of calls in any threads, every record, every specification of a sink, every file system", "why_tests_cant": "histories, records and specifications are unbounded, and the subscriber is global to a process, so that a test can start it once; the tests are one example", "anchors": ["rust/pact_ffi/src/log/ffi.rs: pactffi_logger_init, pactffi_logger_attach_sink, pactffi_logger_apply, pactffi_log_to_stdout, pactffi_log_to_stderr, pactffi_log_to_file, pactffi_log_to_buffer, pactffi_fetch_log_buffer", "rust/pact_ffi/src/log/logger.rs", "rust/pact_ffi/src/log/sink.rs", "rust/pact_ffi/src/log/inmem_buffer.rs", "rust/pact_ffi/src/log/status.rs", "rust/pact_ffi/src/lib.rs: pactffi_init, pactffi_init_with_log_level, pactffi_log_message"]}
{"id": "C125", "title": "Matching definitions through the C interface", "statement": "Parsing takes every text and fails exactly for NULL and for bytes that are not UTF-8. A definition shows, as long as it is not deleted and whatever else is called, an error exactly if the text is empty or begins like a definition and is none; then it has no value, no generator, no iterator and an unknown type. Otherwise there is no error and it shows the value, type and generator of what the text stands for (a text that does not begin like a definition stands for itself). An iterator gives exactly the rules and references of its definition, each once and in order, and NULL for ever after, whatever is called between and even when the definition is deleted. Every rule has the documented identifier from 1 to 23 and the documented value, a reference has the identifier 0 and its name; identifier and value tell apart any two rules except those with rules, a status or variants inside. There is no iterator exactly if a value or a name has the character zero in it. A date or time is valid exactly if neither it nor the format is empty and it follows the format.", "quantifier": "every text, every history of calls on any number of definitions and iterators, every rule", "why_tests_cant": "texts, rules and interleavings of calls are unbounded; the tests look at six texts and one iterator", "anchors": ["rust/pact_ffi/src/models/expressions.rs: pactffi_parse_matcher_definition, pactffi_matcher_definition_error, pactffi_matcher_definition_value, pactffi_matcher_definition_value_type, pactffi_matcher_definition_generator, pactffi_matcher_definition_iter, pactffi_matching_rule_iter_next, pactffi_matching_rule_id, pactffi_matching_rule_value, pactffi_matching_rule_pointer, pactffi_matching_rule_reference_name, pactffi_validate_datetime"]}
{"id": "C126", "title": "Checking a value against a rule through the C interface", "statement": "A check of a text, an unsigned, signed or floating point number, a flag, bytes or JSON gives NULL exactly if there is a rule, the arguments can be read (texts are UTF-8, JSON parses) and the actual value follows the rule as documented for that kind of value; a flag, and the mark of an inherited rule, is set if it is not 0. Otherwise it gives a C string: why the value does not follow the rule, or why the JSON does not parse; or, with a last error, the text 'INTERNAL ERROR: function panicked', exactly if there is no rule, an argument is NULL or not UTF-8, the text to be given has the character zero, or of bytes to be shown there are less than ten. The type rules accept every value but JSON; every value is equal to itself, except a floating point number that is none.", "quantifier": "every rule, every pair of values of every kind, every mark of an inherited rule, every text of a mismatch", "why_tests_cant": "rules, values and texts are unbounded; the tests look at one rule and two values for each kind, and never at bytes shorter than ten", "anchors": ["rust/pact_ffi/src/matching.rs: pactffi_matches_string_value, pactffi_matches_u64_value, pactffi_matches_i64_value, pactffi_matches_f64_value, pactffi_matches_bool_value, pactffi_matches_binary_value, pactffi_matches_json_value", "rust/pact_matching/src/matchers.rs: Matches<i64> for i64, Matches<f64> for f64, Matches<&Bytes> for Bytes", "rust/pact_ffi/src/util/string.rs: safe_str, to_c"]}
{"id": "C127", "title": "The content type of data", "statement": "Data has a content type, by the content type rule, exactly if it looks like that type, letter by letter (by a known signature; if there is none, by the second detection), or looks like plain text and the type found in the text is the one the expected text stands for (a text that is no content type stands for any type), or if the type is empty and the data has no known signature. Data of a known signature other than plain text has exactly one type. The rule says this of a text's bytes, of bytes, and of the data a JSON value holds: what a text says in base 64, else the text, else the JSON as text; bytes put into JSON as base 64 are found again.", "quantifier": "every data, every content type, every JSON value, whatever the detections answer", "why_tests_cant": "data and types are unbounded, and what the detections answer depends on the installation; the tests look at a few files", "anchors": ["rust/pact_matching/src/binary_utils.rs: match_content_type, convert_data", "rust/pact_matching/src/matchers.rs: MatchingRule::ContentType", "rust/pact_matching/src/json.rs: MatchingRule::ContentType"]}
