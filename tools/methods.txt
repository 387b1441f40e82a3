C01|DocPath printing (path_exp.rs) and the recursive-descent parser are modelled token by token; induction on tokens and on the character list, with the parser's state carried through. SpecPath.v gives the printable tokens.
C02|The parser returns Ok, Err or Panic; the panic case is characterised (index overflow) by induction on the input.
C03|Same parser model: whatever is accepted re-prints and re-parses to the same tokens.
C04|path_weight / matches_path are modelled with their u64 arithmetic; induction over the two lists against the relation `accepts` of SpecPath.v.
C05|Injectivity of the printer on token lists, via C01.
C06|as_json_pointer and the JSON pointer lookup are modelled; equality of lookups by induction.
C07|Invariant of all constructors and mutators of DocPath (push_*, join, parent ...): the stored text is the printed form of the tokens.
C08|select_best_matcher as max_by_key over an association list; the winner is characterised by rank (SpecRules.v).
C09|Selection over any permutation of the rule map; exact condition under which the choice does not depend on the order.
C10|Rules to JSON and back (mod.rs to_json / from_json) by nested induction over rules.
C11|matchers_to_json / matchers_from_json over whole collections; relation `comes_back`.
C12|The V2 form (matchers_to_json for V2) of a whole collection and its reader; by induction over the entries in the order of the keys the first rule of each place survives.
C13|The hand-written PartialEq of rules is modelled and shown equal to the independent relation same_rule.
C14|match_values (matchers.rs) for any satisfaction test; in bodies as a consequence of C67.
C15|json_matches for type rules; in bodies as a consequence of C67.
C16|match_status_code, match_status; case analysis.
C17|Instance of the body comparison without rules: relation `agrees` (SpecMatch.v) is reflexive.
C18|Body comparison without rules, no unexpected keys: equality of documents; induction over the expected document.
C19|As C18 with added entries allowed.
C20|Monotonicity of the comparison in the configuration: simulation between the two runs.
C21|match_headers (headers.rs) against SpecHeaders.v.
C22|Parsing of parameterised header values, all layouts (inductive `written`).
C23|match_query without rules against multiset-free pointwise agreement.
C24|RequestMatchResult::mismatches / all_matched / method_or_path_matched.
C25|match_method with ASCII case folding.
C26|build_query_string and parse_query_string; both directions of the round trip, with a length argument on UTF-8 against code-point escapes.
C27|encode_query with its unwrap; exact panic condition from the number of hexadecimal digits.
C28|merge of RequestResponsePact, MessagePact and V4Pact (Merge.v) against SpecMerge.v (keys, winners, order).
C29|Idempotence and absorption of merge; write_pact of the merged pact.
C30|Exact characterisation of the error and panic cases of the three merges.
C31|write_pact as a sequence of file-system steps; a crash after any step (Store.v).
C32|Handle integers and the global table (Handles.v): the relation `denotes` and what each call does to it.
C33|write_to_c_buf / into_leaked... of util/write.rs on byte lists (CBuf.v).
C34|json_deep_merge against the relation `merged` (SpecMatch.v).
C35|headers_to_json / headers_from_json; both directions of the round trip.
C36|compare_lists_with_matchingrule for array-contains, from C67; Permutation.
C37|join and push_field: injectivity of child paths.
C38|From C67 by induction over the document, with the rule in force everywhere below.
C39|Two contexts that give the same lookups give the same comparison (bisimulation on fuel); lookups under permutations.
C40|decode_query against the inductive relations `encodes` and `read_as` (SpecQuery.v).
C41|query_to_json / v3_query_from_json.
C42|One theorem per kind of value: json_matches and str_matches against SpecValues.v.
C43|MatchingRule::create and Category::from_str by case analysis over all texts.
C44|remove_duplicates / add_rule on rule lists.
C45|From C67; closed forms for scalars by direct induction.
C46|From C67; closed form for scalars.
C47|Rule lists on query, header and path categories through the generic list comparison.
C48|match_request_result composed of C23, C21, C25, C50, C51, C53, C18.
C49|match_response composed likewise.
C50|match_body (lib.rs) by cases on the two bodies.
C51|match_text, match_octet_stream.
C52|ContentType predicates and is_equivalent_to.
C53|match_form_urlencoded: fields collected into a query map.
C54|match_message, match_message_metadata.
C55|match_sync_message.
C56|RequestMatchResult::score in i8 arithmetic.
C57|add_plugin_data and config merge.
C58|Interleaving semantics of readers and writers with flock (Store.v): invariant over all reachable states.
C59|WRITE_LOCK and lock_exclusive: invariant over all reachable states; serialisability of merges.
C60|The thread-local LAST_ERROR: histories of calls of several threads.
C61|InMemBuffer: append and fetch over all histories.
C62|`denotes` is preserved along every sequence of calls.
C63|The started flag: result against effect of each call.
C64|with_query_parameter_v2: positional update of the values.
C65|with_header_v2: positional update, case-insensitive names.
C66|Frame conditions of each edit call.
C67|compare_json for every rule set: equivalence with the inductive relation `conforms` (SpecBody.v) by induction on the depth of the expected document.
C68|The loop of replace_expressions is modelled with its index arithmetic and slices (Expr.v). SpecExpr.v describes texts as pieces; the three outcomes are each characterised (iff), by induction on the references and a classification of all texts.
C69|as_json, TryFrom and Display of DataValue are modelled case by case with 64-bit and IEEE conversions; case analysis, plus a proof that every 64-bit integer converts to a finite double (FloatProofs.v).
C70|The Generator enum, its JSON form and the collection operations are modelled function by function (Generators.v). SpecGenerators.v says what a collection holds and which keys a category can carry; the round trip is an iff, by induction over categories and entries up to permutation; everything read is shown to be carryable.
C71|resolve_path (with the arena tree), serde_json pointers and JsonHandler are modelled (GenApply.v); SpecGenApply.v defines when one document is another one changed exactly at the addressed places, by recursion on the path. Proof: the pointers found are exactly the routes to the addressed values (induction on the path), applying at routes refines the relation; changes at parting paths commute, hence any order.
C72|generate_request, generate_response and generate_message with their per-category steps are modelled (GenRequest.v) over an arbitrary outcome of every generator; SpecGenRequest.v says what happens to one named entry. Proof: folds over generators commute with looking up one name; bodies reduce to C71.
C73|Every generator is modelled as a function of a splittable source of draws (GenValues.v), so quantifying over sources is quantifying over random outcomes; both directions (only such values, all such values) are proved by building sources. Array-contains: the inner application refines apply_key of C71.
C74|The lexer and every function of the parser are modelled (RuleExpr.v); SpecRuleExpr.v is the documented grammar as inductive relations over the words of the text, with a flag for what is accepted beyond it. Proof: soundness by following each parser function, completeness by induction on derivations (fuel bounded by the length of the text).
C75|All functions of bodies.rs that read integration JSON are modelled with the mutable category and generators as a threaded store (Integration.v). SpecIntegration.v gives the meaning of a document as an inductive relation (example value, and matchers with the route each applies to), and what adding rules and generators to maps means. Proof: refinement by induction on the recursion bound; the consequences by induction on the relation.
C76|from_integration_json_v2 and the value part of pactffi_with_metadata are modelled over the store of Integration.v (IntegrationValues.v); SpecIntegrationValues.v says which texts, at which place, and what renaming means. Proof: decomposition into the C75 refinement followed by the rekeying and the additions.
C77|`filter_interaction` against a declarative `selected`; whole runs by induction over the pacts with `picked`.
C78|the run of one interaction as a relation `interaction_verified` on histories of events, proved from the monadic model by following each call; an environment whose answers depend on the whole history.
C79|induction over the loaded pacts, with `pacts_verified` and the lists of counted failures.
C80|the same induction for published events and for the texts of notices; totality by induction.
C81|lemmas on trimming, sorting and header pairs; retries by induction over the number of tries.
C82|The payload is modelled as the JSON value that is posted; its members are read back by name, entries are related to groups of neighbouring results by induction over the results, and the verifier's own results are shown (from C78) never to carry an empty list of mismatches.
C83|Templates are specified by an inductive relation (variables replaced left to right, everything else kept) and percent-encoding by decoding; the scanner is proved to satisfy it by induction on the text. Links are specified by what their JSON object says.
C84|Requests are a log; a call is related to the log by lemmas per step, and the list of pacts by induction. The `url` crate is an arbitrary record of functions, the broker an arbitrary function of the log.
C85|As C84; in addition a closure property (stops at the first answer that is no document) is proved for every step and shown to be preserved by sequencing.
C86|the request built by the executor is shown to be one create_native_request accepts and its fields computed by the lemmas for insertion into sorted maps; retries by C81_retries; the answer by cases
C87|induction over directory trees (own induction principle for the nested type)
C88|existsb over the mismatches against membership; the key of every header mismatch by cases of match_header_entry
C89|`Xml.v` models xml.rs over an abstract document tree; structural induction on the actual document with the groups of children characterised by filters; the specification `fits` in `SpecXml.v` reuses `in_force` and `text_satisfies`
C90|model of the patterns' example and rule generation (Pattern.v) composed with the JSON comparison; the generated rules are shown equal to a list of (steps, rule) pairs, each of which holds of the example at every place it accepts; induction over the document
C91|same composition; the rule in force at each place is computed from path weights, then induction over the pattern against the inductive description `means` of SpecPattern.v
C92|lexer and parser modelled; a relation for reading words and numbers by longest match and sentences over it (SpecDateText.v) is proved equivalent to the parsers for all texts; round trip of written expressions as a corollary
C93|calendar by eras of 400 years, proved to count days one after another (eras, centuries, cycles of four years, years and months in turn); the loops day by day are proved to land on the day the specification (SpecDate.v) describes
C94|evaluation of times proved equal to the specification, texts by composition of C92 and C93; the documented table by computation
C95|inductive description of formats (`writes`) and of the texts that fit them (`fits`, with greedy shapes), proved equivalent to the parsers by induction over format and tokens; the calendar of C93 for the day
C96|model of the conversion to chrono items and of their output; each faithful item proved to write a text of the shape of its token whatever follows, then induction over the tokens
C97|The writers and readers of every part are composed in PactFile; each part is looked up in what was written (the last entry of a key), and the results of C11 (rules), C70 (generators), C41 (query) are used for the parts; base64 by induction in steps of three bytes; the sort by insertion with a stability invariant.
C98|OldFile.v models writing and reading of requests, responses, interactions, metadata and pacts for V1 to V3 and the choice of the format on loading; the file is computed, each entry looked up again, and the parts are put together from the round trips of headers, query strings, rules (V2 and V3) and generators.
C99|The same for messages; the declared content type is followed through the metadata, and the cases where a file is refused are computed.
C100|The conversions of OldFile.v are composed with the round trips C97 to C99; refusal is decided by the kinds of the interactions and a proof that writing an old version never returns an error; the version is followed through the metadata of the file.
C101|Engine.v models the plan interpreter with a step bound; EngineRuns.v proves by induction on the depth of a plan that a bound exists from which the outcome no longer changes, for every stack (the queues of splat nodes and the plans that for-each makes included).
C102|evaluation relation for plans; per part: the executed nodes report an error exactly when the condition fails; then the parts are put together
C103|`EngineRules.v` shows what a rule node decides (one rule, and lists under "and"/"or"), `EngineRequest.v`/`EngineHeaders.v` decide each parameter and header, `EngineWhole.v` puts the parts together.
C104|The conditions are stated on the JSON document (SpecReadSafe.v); every reading function of the model is shown not to panic under them, down to the path parser (texts of fields are parts of the key, so the V2 keys read twice are covered); converses by computation along the first interaction for an arbitrary rest of the file.
C105|The part comparison is shown equivalent to a relation on parts (SpecMultipart.v) by case analysis on the code, reusing the rule lookup lemmas of C67/C89 for fields and headers and C67 for JSON files; the whole body by induction over the expected parts; consequences from the equivalence.
C106|SpecParams.v states when a parameter or header is accepted under any rule set; PropParams.v shows lookup = first matching rule list, then the generic list comparison, query and header comparison are these relations (induction over value lists and rule lists); PropParams2.v lifts to forms, requests, responses, the rules of pact files, and shows that the order of the rule map matters.
C107|Builder.v models the builders as a fold over the calls; BuilderProofs*.v show what each category of rules, the query and the header map contain after any sequence (induction over the calls), that lower-casing and shuffling the rule maps keeps this, and that the comparison of C106 with such rules is the relation of SpecBuilder.v; JSON bodies by C91, text bodies by C51; generators by an invariant on the collection.
C108|XmlPath.v models the arena search as the forest it appends; SpecXmlPath.v defines the ways into a document and what an expression stands for; PropXmlPath.v shows by induction over the expression that the label lists of full depth are exactly these ways; PropXmlPath2.v: labels are injective, so no pointer twice, and following a pointer by induction over the way; PropXmlPath3.v: other names, example.
C109|FormJson.v models the form encoding and the conversion; PropForm.v: reading inverts writing (induction over bytes and fields); PropFormJson.v: the conversion gives the fields of SpecFormJson.v and its removals amount to dropping paths by text (induction over entries and over the places left out), combined with C75.
C110|XmlJson.v models xml.rs with fuel for the depth; SpecXmlJson.v describes documents as mutually inductive relations over the JSON description; PropXmlJson.v: what is made is described (induction on fuel and lists); PropXmlJson2.v: every description is followed (mutual induction), no other outcome but a panic.
C111|the calls of the FFI handle are modelled one by one and related to what they say; a history's configuration is a relation on the list of sayings (last one on each matter), proved by induction on the history; escape codes by induction on the text; the command line by cases over its options
C112|Model of both message builders as a fold over calls (MessageBuilder.v); the built contents are characterised by snoc induction over the calls (last body, last metadata value since a reset, rules of the patterns), then acceptance is reduced to C91 (patterns), C54 (metadata) and C51 (bytes).
C113|Induction over the calls of the pact builder; the iterators are characterised by an inductive predicate that counts the messages before a position.
C114|Inversion of every reading function of PactFile.v and OldFile.v against an independent field-by-field reading (SpecReading: field present / left out), lists by induction over the elements.
C115|Model of the calls (FfiBody.v) over the document readers of C75, C109 and C110; each call is inverted into an inductive specification of what a text becomes (SpecFfiBody), totality from the outcome theorems of those readers.
C116|Prefix/suffix stripping and the marker search are characterised (first marker by induction over the bytes); a history of calls by induction over the calls with the invariant "body = multipart B parts".
C117|Reading holds every category and path once (invariant over the reading folds); merging is then pointwise at (category, path) by induction over the merged collection.
C118|Model of the getters and setters (FfiRead.v); each set call is an effect on at most one place, histories by induction from the last call; UTF-8 by the round trip of the decoder.
C119|An iterator is a list and a counter; the answers of n calls are the entries in order followed by NULL (induction over the calls); the sort is shown stable, sorted and a permutation, so the order of the map does not matter.
C120|Model of the calls (FfiMessage.v) over the document readers of C75, C76 and C110, inverted into an inductive specification; histories of metadata calls by induction with the invariant that names stay distinct.
C121|Each call is an effect on (namespace, name); histories by induction from the last call, with insertion into sorted maps characterised pointwise.
C122|`FileCheck.v`: the checks list by list; neatness and usability part by part as equivalences, places as an inductive relation, strictness by Forall2 over the concatenations, the version by filtering, the written file computed (`PropFileCheck`-`PropFileCheck3`)
C123|The argument parser is modelled as the table of arguments, checks of values, requirements and conflicts; acceptance, panics and the options are each characterised by an independent specification of values, of arguments given once and of arguments that go together; examples of every kind of error.
C124|Histories of calls as an inductive relation over threads, one subscriber and targets; what is attached, written and fetched specified as inductive relations over the history; proved by induction on histories from what one step does (`PropLogging`-`PropLogging4`); levels characterised by names and numerals
C125|Histories of calls over definitions and iterators as an inductive relation; the table of rules as an independent inductive relation; what an iterator gave is a function of the history, proved by induction on it; decimal numerals are injective (`PropDefFfi`, `PropDefFfi2`)
C126|Kinds of values and rules tabled in a separate specification (reusing the meaning of rules of C42 and C15); case analysis on kind and rule gives a fate (follows, speechless, neither) from which each result is characterised exactly (`PropMatchFfi`)
C127|When data has a type specified as inductive relations over what the detections answer; case analysis; structural equality of content types; the rule of each kind of value under the hypothesis that its check is this one, which every world can be given (`PropKindOf`)
