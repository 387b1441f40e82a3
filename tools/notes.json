{
"C01": "Exact; C01_why_no_backslash shows that other paths can be read silently as different steps.",
"C02": "Exact (C02_panics_exactly_when).",
"C03": "Exact.",
"C04": "Exact; C04_why_fewer_than_64 is the overflow.",
"C05": "Exact.",
"C06": "Proved in full.",
"C07": "Proved for all histories of the listed public operations starting at the root path.",
"C37": "Exact.",
"C08": "Exact; the 64-bit boundary is shown by C08_why_short_paths.",
"C09": "Exact (iff); order-dependent selections are shown by C09_why_agree and C09_why_headers_agree.",
"C10": "Exact; conditions shown necessary by C10_why_*.",
"C11": "Proved under collection_ok; each condition shown necessary by a C11_why_* theorem.",
"C12": "Proved with conditions shown necessary by C12_why_*.",
"C13": "Proved; C13_why_no_status shows the exception, and that removing duplicates drops a rule.",
"C14": "Proved in full, for any set of rules in the body; C14_why_* show why objects are the exception.",
"C15": "Proved in full; C15_why_nonempty shows the empty expected array.",
"C16": "Proved in full.",
"C17": "Proved in full (documents without NaN; serde_json cannot hold one).",
"C18": "Proved in full.",
"C19": "Proved in full.",
"C20": "Proved in full, for every rule set.",
"C34": "Proved in full.",
"C36": "Proved for any set of rules.",
"C38": "Proved for any set of rules.",
"C39": "Proved; C39_why_agree shows two orders with different verdicts otherwise.",
"C40": "Proved in full.",
"C41": "Proved in full; C41_why_strings: a number in a hand-written array is read as the text of the whole array.",
"C21": "Proved in full; C21_why_names_must_differ shows the condition on actual names is needed (the verdict depends on the hash map order).",
"C22": "Proved in full for well-formed values (a media type, parameters of the form name=value).",
"C26": "Proved as stated; C26_why_* show a non-ASCII value and a name with an ampersand that do not come back.",
"C27": "Proved in full (the decoder is a total function of the model without a panic case).",
"C35": "Proved in full (both directions).",
"C42": "Proved in full; regex, semver, date and float parsing are parameters of the model (world). C42_why_unsigned records the difference between integers in text and in JSON.",
"C43": "Array-contains, each-key and each-value names are covered by C10.",
"C44": "Rule lists whose nested hash maps have distinct keys (a representation invariant of HashMap).",
"C45": "Proved for any set of rules and any documents; the _single_entry theorems give closed forms for scalars.",
"C46": "Proved for any set of rules and any documents; C46_each_key_single_entry gives a closed form for scalars.",
"C23": "Proved in full.",
"C24": "Proved in full, for results of match_request and for every result whose path mismatch list is not empty.",
"C25": "Proved in full; for other text, equal lower-case forms.",
"C47": "Proved for one rule list at a name that is not a non-canonical number (C47_why_plain_name: 01 is not found), with rules other than array-contains and each-value.",
"C48": "Proved relative to the external parsers (JSON, MIME); header values of Accept/Content-Type well-formed, actual header names distinct ignoring case.",
"C49": "Proved relative to the external parsers (JSON, MIME).",
"C50": "Proved in full.",
"C51": "Proved in full.",
"C52": "Proved in full. Recorded boundaries: equivalence is not symmetric, and it ignores the suffix (hal+json is equivalent to hal+xml).",
"C53": "Proved relative to the external form decoder (serde_urlencoded).",
"C54": "Proved in full.",
"C55": "Proved in full; without expected responses any responses are accepted (C55_no_expected_responses).",
"C56": "Proved in full; C56_why_127_parts: with 130 matching headers the score is negative in a release build and the computation panics in a debug build.",
"C28": "Exact characterisation for the three kinds of pacts plus the consequence 'nothing lost' with its condition; C28_why_* show that the condition cannot be dropped.",
"C29": "C29_why_descriptions_ascend is the proved boundary of the V4 claim (n writes give n copies).",
"C30": "Proved for the whole modelled merge.",
"C31": "Small-step model with crash points at every system call. The stronger claim 'old or new content' is false of the code: C31_every_prefix_can_be_left.",
"C57": "Proved.",
"C58": "Small-step model; C58_why_no_overwriting is the boundary.",
"C59": "Serialisability by invariant; C59_why_one_process is the boundary.",
"C32": "Exact, C32_number_zero is the exception.",
"C33": "Exact; the excess is cleared completely only in the cases given by C33_excess_cleared_iff (the code clears from offset 2n, not n).",
"C60": "",
"C61": "",
"C62": "C62_why_65535, C62_why_65535_messages: beyond that limit handles are cut or spill into another pact.",
"C63": "The documentation says that these calls fail; the theorem states what the code does.",
"C64": "Plain values; values that are integration JSON are not modelled here.",
"C65": "Plain values; values that are integration JSON are not modelled here.",
"C66": "",
"C67": "Proved in full: the specification (SpecBody.v, conforms) is an inductive relation that does not mention the code.",
"C68": "Exact in all three outcomes; C68_aborts_exactly_when documents a panic on texts like \"a}${b}\".",
"C69": "f64 conversions are modelled with SpecFloat (IEEE), str::parse::<f64> is an argument. C69_why_negative_texts and C69_why_large_numbers show where body and header conversions disagree.",
"C70": "The V2 (non-)writing of generators is covered with the pact writing properties.",
"C71": "What a generator produces is an argument here (any outcome per call); see C73 for the outcomes.",
"C72": "the values a generator produces are an arbitrary outcome function here; C73 describes the values themselves V4 messages: C72_async_message, C72_sync_message; C72_async_as_message says when the two ways of generating metadata agree, C72_why_async that they do not in general.",
"C73": "The regular expression sampler, the clock with date expressions and the regular expression engine are arguments of the model. Panics inside nested array-contains generators end the call.",
"C74": "The logos lexer is modelled as longest match (its documented semantics); how much it swallows at an error is an arbitrary function. Texts of error messages are not modelled. Known deviations proved: junk at the end, decimal with provider state, unescaped values, trailing backslash, atLeast not recognised.",
"C75": "Rules are created by the functions of C10, C43 and C74. Logging and error texts are not modelled.",
"C76": "C76_why_first_value_again: setting the first value again and then a later one loses the rules given first. C76_why_status_needs_a_value: the documented example of pactffi_response_status_v2 has no value and gives status 0.",
"C77": "",
"C78": "",
"C79": "",
"C80": "",
"C81": "",
"C82": "C82_why_ids_needed: interactions without ids are merged into one entry with an empty id.",
"C83": "The word characters beyond ASCII of the regular expression class are an argument.",
"C84": "C84_why_notices: one listed pact whose verification properties lack notices makes the whole list count as empty (not found).",
"C85": "",
"C86": "reqwest and http are outside: which names and values HTTP allows, and the answers, are arguments. The text of the JSON body is that of the model of serde_json's printer. Log messages and the texts of errors are not modelled.",
"C87": "Reading a file is outside the model: each file is given by the result of reading it.",
"C88": "Without colours. Texts of error messages are an argument. The report of a synchronous message is modelled but only its shape is the message's; with several responses the code itself reports on the first only.",
"C89": "The parser (sxd_document) is an argument; a document is its root element with qualified names, attributes and child nodes. C89_exact is the comparison of elements, C89_bodies and C89_http of bodies and of request and response bodies, C89_without_rules the meaning without rules. C89_why_sizes: size bounds count the nodes inside each element; C89_why_unexpected and C89_why_text show further surprises.",
"C90": "The Pattern macros' parsing is not modelled; object_matching! is excluded (its rules are Pattern.v's PObjectMatching). Needed hypotheses are shown necessary by C90_why_*.",
"C91": "The depth bound 57 keeps path weights below overflow; C91_why_untied shows nested each_like! with a ruled element depends on map order.",
"C92": "Lexers of the crate logos (longest match) are modelled; how much is consumed after an error is an argument. Leftovers such as '+ 1 day yesterday' are accepted (theorem C92_leftovers).",
"C93": "Zones with changing offsets are not modelled. Amounts of 2^30 and more are truncated or panic (C93_large_amounts).",
"C94": "",
"C95": "Modelled: TimeFormat.v. The tables of chrono-tz and of zone abbreviations are arguments (functions from text to bool).",
"C96": "chrono's strftime items are modelled from its documentation (TimeFormat.v, write_item): a trusted part.",
"C97": "The text of the file (serde_json's parser and printer) and the parsing of MIME types are external; a type has to parse from its own text.",
"C98": "",
"C99": "",
"C100": "",
"C101": "XML values and the xml: actions are not modelled",
"C102": "The theorem states what the engine does, including where that differs from what a user would expect: a body of another content type is accepted (C102_other_type_accepted), array items that are arrays or objects are not compared (C102_nested_items_unchecked). XML bodies and rules are not covered.",
"C103": "Not covered: array-contains, each-key and each-value rules, and rules on the body (C101 still covers those).",
"C104": "Sufficient conditions for no panic, stated on the JSON document, with converses for the first interaction.",
"C105": "The splitting of bytes into fields (multer) and UTF-8 repair are parameters; the 30 second limit and plugins are not modelled.",
"C106": "Generalises C23, C21 and C47 to any rule set. Structured headers (Accept, Content-Type) are assumed readable.",
"C107": "Plugin contents and interaction markup are not modelled. Bodies set several times are claimed when all but the last were literal.",
"C108": "kiss_xml is not modelled: the document is its tree, Element::text a parameter. The classes \\w and \\d beyond ASCII are parameters.",
"C109": "The encoding of the serde_urlencoded crate is modelled from its documentation; printing a JSON value and reading it again is taken as the identity; from_utf8_lossy of invalid bytes is a parameter.",
"C110": "The document is the tree; printing it (sxd_document) and parsing the JSON text are not modelled.",
"C111": "C111_configuration and C111_returns: histories; C111_filter with C77: which interactions; C111_result, C111_report_of_the_last_run, C111_report: results; C111_codes_are_stripped; C111_selectors; C111_exit_code, C111_command_line_sources: command line. Clap's parsing and the log buffers are not modelled; the run is a parameter (C79 describes it).",
"C112": "Contents set up by plugins are not modelled. JSON of the example must be read back by serde_json as the example.",
"C113": "Whether the task that generates messages has sent them is a parameter of the model; the generation of one message is a parameter (its effect is C72).",
"C114": "The reading functions of PactFile.v and OldFile.v against SpecReading, which speaks of fields of the document only. The contents of matching rules and generators are C11/C12/C70 and only their absence is treated here.",
"C115": "Parsers (JSON, content types, XML printing) are parameters. The content of forms is characterised by C109, of XML by C110. The handle lookup and NULL/UTF-8 conversion of C strings are not modelled. Found: the header is looked up by its exact name (a second one is added beside \"content-type\"), NULL gives an empty body, rules of an overwritten body stay, a type that cannot be read panics.",
"C116": "The bytes the multipart crate makes of one file are a parameter of the shape marker, part, end marker. Found: with a boundary of other characters the second call makes a broken body; a text with a line that has \"--\" takes the part behind it without a header.",
"C117": "Found: how the rules of a path are combined (AND/OR) is not changed by a later call that says otherwise.",
"C118": "Who frees what is not modelled; a failed call is modelled as its error value (C60 has the last error). The content type parser and from_utf8_lossy are parameters. V3 get_contents also runs the generators first, which is not modelled. Found: a failed set of a response still adds the responses up to it; contents with neither a type nor a mark are shown as an empty text; a body that is not UTF-8 is accepted by message_new_from_body although the comment says NULL.",
"C119": "Memory and the overflow of the counter are not modelled. Found: NULL does not always mean the end (an entry with a NUL character is NULL too, with an error); the same text is shown bare in metadata and quoted in provider state parameters.",
"C120": "The JSON parser, content types and XML printing are parameters; the handle lookup is C66. A NULL pointer for contents that are not text (undefined behaviour) is not modelled. Found: XML contents are lost (empty bytes) where pactffi_with_body keeps them; a text/plain text that is a JSON document is printed anew; metadata for the responses of a message without responses says true and is lost; a name that is no path panics only if the value has structure.",
"C121": "The handle lookup is C66. Found: once the mock server has started the call says false but still changes the metadata; pactffi_with_message_pact_metadata drops the other names of the namespace and writes the protected ones.",
"C122": "The version parser is a parameter that knows the versions the library writes. Found: the requests and responses are not looked at; the messages name the type of the enclosing object instead of the value that is wrong (name, description, params, interactions); attributes that V4 adds are unknown; V4 and message pacts are not verified beyond being an object; a version 9.1 in lenient mode is an error.",
"C123": "clap is modelled as far as args.rs uses it (values checked in order, given once, requires/conflicts/required_unless_present_any); the spelling of arguments, help, version and environment variables are not. Found: a transport with a port over 65535, or with digits outside ASCII, panics instead of being a usage error; a password without a user is silently not used.",
"C124": "Records are written whole and a write does not fail; calls are one after the other; what the library logs of itself is an arbitrary record. The filter of pactffi_init is not modelled: for it only C124_once and C124_nothing apply. Found: the answers -5 and -2 cannot happen; attaching after applying is answered with 0, contrary to the documentation, and nothing comes of it; sinks belong to a thread, so applying in another one starts the default; an apply that is refused drops the sinks; applying panics, and so ends the program, if a file cannot be opened a second time; a fetch that fails loses the contents; pactffi_init uses the name of the variable as the filter, not its value.",
"C125": "What a text stands for is the parser of C74; following a format is that of C95. The text of an error is an arbitrary function; calls with a pointer to something deleted are excluded. Found: a definition with an escaped zero in a value parses without an error, but has neither a value nor an iterator (the unwrap of a CString panics and the call gives NULL).",
"C126": "Regular expressions, dates, semantic versions, content types, the JSON parser and the texts of errors are arbitrary functions. Found: bytes that differ or cannot be checked, of which one is shorter than ten bytes, give 'INTERNAL ERROR: function panicked' instead of a mismatch (split_at(10) panics).",
"C127": "The detection libraries, the detection from text and the parser of content types are arbitrary functions. Found: data of no known signature has the empty content type, whatever it is."
}