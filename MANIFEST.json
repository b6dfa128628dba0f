{
 "claims": [
  {
   "property": "C01",
   "status": "proved",
   "theorems": [
    "C01_parser_accepts_language",
    "C01_http_symbols"
   ],
   "note": "for every grammar with finitely many reachable symbols on which the nullability test ends; all symbols of httpolice/syntax satisfy this"
  },
  {
   "property": "C02",
   "status": "proved",
   "theorems": [
    "C02_result_is_meaning",
    "C02_unambiguous"
   ],
   "note": ""
  },
  {
   "property": "C03",
   "status": "proved",
   "theorems": [
    "C03_parser_terminates",
    "C03_left_recursion_refuted"
   ],
   "note": "without the condition on the nullability test the claim is false, as the second theorem shows (RecursionError in Python); no grammar in httpolice/syntax is of that kind"
  },
  {
   "property": "C04",
   "status": "proved",
   "theorems": [
    "C04_error_exact"
   ],
   "note": ""
  },
  {
   "property": "C05",
   "status": "proved",
   "theorems": [
    "C05_end_of_data",
    "C05_end_of_data_unnested",
    "C05_end_of_data_refuted",
    "C05_http_symbols"
   ],
   "note": "as first stated false of the code when the start symbol occurs inside itself; C05_end_of_data says exactly when it is listed for any grammar; C05_http_symbols: the first statement for every symbol of httpolice/syntax"
  },
  {
   "property": "C06",
   "status": "proved",
   "theorems": [
    "C06_memo_invisible",
    "C06_memo_lru"
   ],
   "note": "the values stored in the table are shared, not copied, in Python; they are immutable values in the model"
  },
  {
   "property": "C07",
   "status": "proved",
   "theorems": [
    "C07_annotated_input",
    "C07_disjoint_objects_shown"
   ],
   "note": ""
  },
  {
   "property": "C08",
   "status": "proved",
   "theorems": [
    "C08_string_excluding",
    "C08_string_excluding_spelled",
    "C08_string_excluding_refuted",
    "C08_http_symbols"
   ],
   "note": "as first stated false of the code when an excluded word has a character outside the terminal; C08_string_excluding gives the language for any words, _spelled when they are in the terminal, C08_http_symbols as used in httpolice/syntax"
  },
  {
   "property": "C09",
   "status": "proved",
   "theorems": [
    "C09_product",
    "C09_union",
    "C09_function_and_name",
    "C09_optional",
    "C09_repetition",
    "C09_many",
    "C09_literal",
    "C09_octets",
    "C09_no_copies_refuted"
   ],
   "note": "except times(0, 0, x), which accepts one copy (last theorem)"
  },
  {
   "property": "C10",
   "status": "proved",
   "theorems": [
    "C10_lists"
   ],
   "note": "for elements whose value is never None (such elements are dropped by the code) and is not skipped"
  },
  {
   "property": "C100",
   "status": "proved",
   "theorems": [
    "C100_intermediaries"
   ],
   "note": "dates as in C58"
  },
  {
   "property": "C101",
   "status": "proved",
   "theorems": [
    "C101_conditions"
   ],
   "note": "dates as in C58; entity tags are specified in SyntaxTags.v"
  },
  {
   "property": "C102",
   "status": "proved",
   "theorems": [
    "C102_origins"
   ],
   "note": ""
  },
  {
   "property": "C103",
   "status": "proved",
   "theorems": [
    "C103_silence"
   ],
   "note": ""
  },
  {
   "property": "C104",
   "status": "proved",
   "theorems": [
    "C104_nodes_and_relations"
   ],
   "note": ""
  },
  {
   "property": "C105",
   "status": "proved",
   "theorems": [
    "C105_arguments"
   ],
   "note": "All five tables of names with arguments."
  },
  {
   "property": "C106",
   "status": "proved",
   "theorems": [
    "C106_alternatives"
   ],
   "note": "The parser of the quoted part is any function that decides as the parser does (there is one: decider)."
  },
  {
   "property": "C107",
   "status": "proved",
   "theorems": [
    "C107_links"
   ],
   "note": "As for C106. Notices of one value may come in any order."
  },
  {
   "property": "C108",
   "status": "proved",
   "theorems": [
    "C108_headers"
   ],
   "note": "Brings C85 to C107 together."
  },
  {
   "property": "C109",
   "status": "proved",
   "theorems": [
    "C109_malformed"
   ],
   "note": "From left to right also if the check does not finish (C67_sound); that it finishes, see C56."
  },
  {
   "property": "C11",
   "status": "proved",
   "theorems": [
    "C11_content_length",
    "C11_decimal"
   ],
   "note": ""
  },
  {
   "property": "C110",
   "status": "proved",
   "theorems": [
    "C110_fields"
   ],
   "note": "The other six headers: C66. Notices 1013, 1026, 1299 and 1300 are in C34 to C36 and C62."
  },
  {
   "property": "C111",
   "status": "proved",
   "theorems": [
    "C111_notes",
    "C111_boxes"
   ],
   "note": "The attributes of ParseError and of the stream are listed, not modelled as objects."
  },
  {
   "property": "C112",
   "status": "proved",
   "theorems": [
    "C112_request_heading",
    "C112_response_heading",
    "C112_chunked",
    "C112_runs",
    "C112_shown"
   ],
   "note": "The stack of parts is modelled beside the framing of Stream.v and Framing.v, to which it is proved to agree."
  },
  {
   "property": "C113",
   "status": "proved",
   "theorems": [
    "C113_arguments",
    "C113_requirements"
   ],
   "note": "Together with C110 this is about all headers that are parsed. Notices 1296, 1297, 1299 and 1300 are in C62 and C63."
  },
  {
   "property": "C114",
   "status": "proved",
   "theorems": [
    "C114_headers"
   ],
   "note": "Makes C34 to C36, C62 and the rules of C67 explicit: they refer to these properties of names."
  },
  {
   "property": "C12",
   "status": "proved",
   "theorems": [
    "C12_token",
    "C12_quoted_string"
   ],
   "note": ""
  },
  {
   "property": "C13",
   "status": "proved",
   "theorems": [
    "C13_entity_tag",
    "C13_comparison"
   ],
   "note": ""
  },
  {
   "property": "C14",
   "status": "proved",
   "theorems": [
    "C14_framing_terminates"
   ],
   "note": "also bounds the number of exchanges"
  },
  {
   "property": "C15",
   "status": "proved",
   "theorems": [
    "C15_no_byte_dropped"
   ],
   "note": ""
  },
  {
   "property": "C16",
   "status": "proved",
   "theorems": [
    "C16_at_least_one_exchange"
   ],
   "note": ""
  },
  {
   "property": "C17",
   "status": "proved",
   "theorems": [
    "C17_request_round_trip",
    "C17_chunked_request_round_trip"
   ],
   "note": ""
  },
  {
   "property": "C18",
   "status": "proved",
   "theorems": [
    "C18_pipelining"
   ],
   "note": ""
  },
  {
   "property": "C19",
   "status": "proved",
   "theorems": [
    "C19_chunked_body"
   ],
   "note": ""
  },
  {
   "property": "C20",
   "status": "proved",
   "theorems": [
    "C20_chunk_size_refuted",
    "C20_chunk_size_accepted",
    "C20_chunk_size_reported"
   ],
   "note": "as first stated false of the code: int(x, 16) also accepts 0x3, +3, 1_0; proved that exactly the numbers of Python's grammar are accepted"
  },
  {
   "property": "C21",
   "status": "proved",
   "theorems": [
    "C21_request_content_length",
    "C21_response_content_length",
    "C21_malformed_content_length"
   ],
   "note": ""
  },
  {
   "property": "C22",
   "status": "proved",
   "theorems": [
    "C22_no_body",
    "C22_interim",
    "C22_chunked",
    "C22_unchunked_coding",
    "C22_until_close"
   ],
   "note": ""
  },
  {
   "property": "C23",
   "status": "proved",
   "theorems": [
    "C23_stops_after_switch"
   ],
   "note": ""
  },
  {
   "property": "C24",
   "status": "proved",
   "theorems": [
    "C24_notices_stay_with_their_message"
   ],
   "note": ""
  },
  {
   "property": "C25",
   "status": "proved",
   "theorems": [
    "C25_body_size",
    "C25_long_line",
    "C25_heading_lines"
   ],
   "note": ""
  },
  {
   "property": "C26",
   "status": "proved",
   "theorems": [
    "C26_framing_raises_refuted",
    "C26_framing_raises_only",
    "C26_framing_raises_always"
   ],
   "note": "as first stated false of the code: a chunk size of -2 raises ValueError; proved that only sizes below -1 raise, only ValueError, and that they do"
  },
  {
   "property": "C27",
   "status": "proved",
   "theorems": [
    "C27_folded_fields"
   ],
   "note": ""
  },
  {
   "property": "C28",
   "status": "proved",
   "theorems": [
    "C28_silencing",
    "C28_any_time",
    "C28_generator_refuted"
   ],
   "note": "for collections of ids; with a one-shot iterator Exchange.silence reaches only the exchange itself (last theorem)"
  },
  {
   "property": "C29",
   "status": "proved",
   "theorems": [
    "C29_once",
    "C29_first"
   ],
   "note": ""
  },
  {
   "property": "C30",
   "status": "proved",
   "theorems": [
    "C30_scope",
    "C30_scope_only"
   ],
   "note": "first theorem for exchanges whose checks end normally, second for all; the reader of header values is any function that agrees with the parser"
  },
  {
   "property": "C31",
   "status": "proved",
   "theorems": [
    "C31_called_once",
    "C31_assigned",
    "C31_same_value",
    "C31_assigned_value",
    "C31_raising_refuted"
   ],
   "note": "a getter that raises is evaluated again (last theorem)"
  },
  {
   "property": "C32",
   "status": "proved",
   "theorems": [
    "C32_final",
    "C32_final_only",
    "C32_continue"
   ],
   "note": "for exchanges whose checks end normally; also, without that hypothesis, 1304 only after the first final response"
  },
  {
   "property": "C33",
   "status": "proved",
   "theorems": [
    "C33_entries",
    "C33_unique",
    "C33_case",
    "C33_lookups",
    "C33_names"
   ],
   "note": ""
  },
  {
   "property": "C34",
   "status": "proved",
   "theorems": [
    "C34_single"
   ],
   "note": ""
  },
  {
   "property": "C35",
   "status": "proved",
   "theorems": [
    "C35_multi",
    "C35_split"
   ],
   "note": ""
  },
  {
   "property": "C36",
   "status": "proved",
   "theorems": [
    "C36_trailers"
   ],
   "note": ""
  },
  {
   "property": "C37",
   "status": "proved",
   "theorems": [
    "C37_compare",
    "C37_headers",
    "C37_absent",
    "C37_absent_list_refuted"
   ],
   "note": "the value of an absent header that holds a list is the empty list, so != is True for it (last theorem)"
  },
  {
   "property": "C38",
   "status": "proved",
   "theorems": [
    "C38_lookup",
    "C38_table"
   ],
   "note": ""
  },
  {
   "property": "C39",
   "status": "proved",
   "theorems": [
    "C39_interleaving",
    "C39_interleaving_meaning",
    "C39_files",
    "C39_empty_refuted"
   ],
   "note": "Also: exceptions come only from reading a connection or from a time that does not fit into a datetime; the crash on a connection without exchanges is unreachable from files."
  },
  {
   "property": "C40",
   "status": "proved",
   "theorems": [
    "C40_sorted",
    "C40_late_start_refuted"
   ],
   "note": "Unknown start times are allowed; a start time later than the first exchange breaks the order."
  },
  {
   "property": "C41",
   "status": "proved",
   "theorems": [
    "C41_recombine",
    "C41_time",
    "C41_tcpflow",
    "C41_tcpflow_every_file",
    "C41_tcpflow_name",
    "C41_tcpick",
    "C41_tcpick_name",
    "C41_same_key_refuted"
   ],
   "note": "tcpick directories may contain two files with the same key; then one is lost (C41_same_key_refuted)."
  },
  {
   "property": "C42",
   "status": "proved",
   "theorems": [
    "C42_combined"
   ],
   "note": ""
  },
  {
   "property": "C43",
   "status": "proved",
   "theorems": [
    "C43_status",
    "C43_failure"
   ],
   "note": "reading, checking and reporting are arbitrary; exchanges do not share messages; silencing with collections, as the program does"
  },
  {
   "property": "C44",
   "status": "proved",
   "theorems": [
    "C44_lines",
    "C44_finished",
    "C44_checked",
    "C44_characters",
    "C44_newline_refuted"
   ],
   "note": "if no text that is printed contains a newline; without that it is false (last theorem)"
  },
  {
   "property": "C45",
   "status": "proved",
   "theorems": [
    "C45_printable"
   ],
   "note": ""
  },
  {
   "property": "C46",
   "status": "proved",
   "theorems": [
    "C46_ellipsize",
    "C46_small_limit_refuted"
   ],
   "note": "limits below 3 make the result longer (last theorem); the callers pass 60 or more"
  },
  {
   "property": "C47",
   "status": "proved",
   "theorems": [
    "C47_displayed"
   ],
   "note": "the pretty-printer of JSON and the decoders are arbitrary functions; holds whenever the displayable body is obtained without an exception"
  },
  {
   "property": "C48",
   "status": "proved",
   "theorems": [
    "C48_descriptions",
    "C48_unambiguous",
    "C48_intervals"
   ],
   "note": ""
  },
  {
   "property": "C49",
   "status": "proved",
   "theorems": [
    "C49_duplicates",
    "C49_complete"
   ],
   "note": ""
  },
  {
   "property": "C50",
   "status": "proved",
   "theorems": [
    "C50_lookup",
    "C50_names",
    "C50_index"
   ],
   "note": ""
  },
  {
   "property": "C51",
   "status": "proved",
   "theorems": [
    "C51_equality",
    "C51_equivalence",
    "C51_prefix",
    "C51_plain_refuted",
    "C51_lower_case_keys"
   ],
   "note": "equality with a plain string is not compatible with hashing unless the plain string is in lower case"
  },
  {
   "property": "C52",
   "status": "proved",
   "theorems": [
    "C52_pseudo_headers",
    "C52_cgi",
    "C52_host_first"
   ],
   "note": ""
  },
  {
   "property": "C53",
   "status": "proved",
   "theorems": [
    "C53_decoded",
    "C53_determined",
    "C53_one_notice",
    "C53_no_body"
   ],
   "note": "the decoders are arbitrary partial functions; the codings are those of the parsed Content-Encoding header"
  },
  {
   "property": "C54",
   "status": "proved",
   "theorems": [
    "C54_shown",
    "C54_unique"
   ],
   "note": "for the notices reported by check_exchange: the entry exists and every reference in its text to a part of the message can be resolved; for the notices of framing see C111"
  },
  {
   "property": "C55",
   "status": "proved",
   "theorems": [
    "C55_same",
    "C55_dense",
    "C55_objects",
    "C55_reuse_refuted"
   ],
   "note": "identities are the numbers that id() gives; these may be reused after an object is freed, and then two objects share a number (last theorem)"
  },
  {
   "property": "C56",
   "status": "proved",
   "theorems": [
    "C56_blame",
    "C56_no_mistake",
    "C56_finishes",
    "C56_stopped",
    "C56_age_refuted"
   ],
   "note": "the claim that no value of Age makes the check raise is false (last theorem); int() of very long numbers is not modelled (finding 23)"
  },
  {
   "property": "C57",
   "status": "proved",
   "theorems": [
    "C57_exempt"
   ],
   "note": "the list of notices about a final response is written out in P_Early.v"
  },
  {
   "property": "C58",
   "status": "proved",
   "theorems": [
    "C58_dates",
    "C58_misspelled_refuted"
   ],
   "note": "a two-digit year is taken to be 19xx and leap seconds are reported as impossible; the text of 1108 misspells Saturday"
  },
  {
   "property": "C59",
   "status": "proved",
   "theorems": [
    "C59_clean_runs_are_conversations",
    "C59_clean_requests",
    "C59_clean_responses"
   ],
   "note": ""
  },
  {
   "property": "C60",
   "status": "proved",
   "theorems": [
    "C60_pivots_sound",
    "C60_pivots_found"
   ],
   "note": ""
  },
  {
   "property": "C61",
   "status": "proved",
   "theorems": [
    "C61_responses",
    "C61_requests",
    "C61_one_sided"
   ],
   "note": ""
  },
  {
   "property": "C62",
   "status": "proved",
   "theorems": [
    "C62_delimiters"
   ],
   "note": ""
  },
  {
   "property": "C63",
   "status": "proved",
   "theorems": [
    "C63_forwarded"
   ],
   "note": ""
  },
  {
   "property": "C64",
   "status": "proved",
   "theorems": [
    "C64_values",
    "C64_arguments",
    "C64_views"
   ],
   "note": "all 68 headers whose syntax is known; the texts parsed inside other texts are covered too"
  },
  {
   "property": "C65",
   "status": "proved",
   "theorems": [
    "C65_no_exception",
    "C65_views",
    "C65_link",
    "C65_link_refuted"
   ],
   "note": "false for Link; C65_link says exactly which parameters raise"
  },
  {
   "property": "C66",
   "status": "proved",
   "theorems": [
    "C66_arguments",
    "C66_lookup",
    "C66_preference"
   ],
   "note": "for a reader that does what the parser does; the shape of parsed values (C64) shows that unpacking never fails"
  },
  {
   "property": "C67",
   "status": "proved",
   "theorems": [
    "C67_sound",
    "C67_complete",
    "C67_apart"
   ],
   "note": "the conditions are in Rules.v and RulesOfResponse.v, one rule per notice, written without the definitions of the checks; events on the side such as derived properties (decoded bodies and so on) are rules too; for a reader that does what the parser does"
  },
  {
   "property": "C68",
   "status": "proved",
   "theorems": [
    "C68_har_exchanges"
   ],
   "note": "for URLs that urlparse accepts; files that cannot be opened are left out"
  },
  {
   "property": "C69",
   "status": "proved",
   "theorems": [
    "C69_har_errors",
    "C69_har_errors_refuted",
    "C69_har_files",
    "C69_har_not_json",
    "C69_har_entries",
    "C69_har_entry"
   ],
   "note": "as first stated (InputError for every bad file) false of the code; proved for members of the right types"
  },
  {
   "property": "C70",
   "status": "proved",
   "theorems": [
    "C70_har_says"
   ],
   "note": "for every JSON value, with str() of values that are not strings left open"
  },
  {
   "property": "C71",
   "status": "proved",
   "theorems": [
    "C71_looking",
    "C71_unchanged"
   ],
   "note": "for a reader that does what the parser does; if checking returns (C56 says when)"
  },
  {
   "property": "C72",
   "status": "proved",
   "theorems": [
    "C72_value_shown",
    "C72_shown_as_sent",
    "C72_warning_shown_as_sent",
    "C72_objects",
    "C72_shown_as_sent_refuted"
   ],
   "note": "false of the code for warn codes that begin with a zero (last theorem); C72_value_shown says what is shown then"
  },
  {
   "property": "C73",
   "status": "proved",
   "theorems": [
    "C73_listed",
    "C73_finished",
    "C73_checked"
   ],
   "note": "the report as a tree of elements; how Dominate writes it down is left out; C73_checked is for exchanges without notices on the exchange itself (C73_finished has the condition for those)"
  },
  {
   "property": "C74",
   "status": "proved",
   "theorems": [
    "C74_markup",
    "C74_addresses",
    "C74_titles",
    "C74_characters"
   ],
   "note": "escaping of texts and values is Dominate's; the details of parse errors are taken to cite only what the grammar cites, and names of codecs to be printable"
  },
  {
   "property": "C75",
   "status": "proved",
   "theorems": [
    "C75_list_notices"
   ],
   "note": ""
  },
  {
   "property": "C76",
   "status": "proved",
   "theorems": [
    "C76_displayed"
   ],
   "note": "as far as the report is written (C73_checked says when it is complete); remarks on messages are left out"
  },
  {
   "property": "C77",
   "status": "proved",
   "theorems": [
    "C77_references"
   ],
   "note": "that different objects can have one number (interned strings and small numbers, or one object in several places) is left out: nothing is said about what else is highlighted"
  },
  {
   "property": "C78",
   "status": "proved",
   "theorems": [
    "C78_titles"
   ],
   "note": ""
  },
  {
   "property": "C79",
   "status": "proved",
   "theorems": [
    "C79_links"
   ],
   "note": "in the displays of messages; what the objects in a value are is the subject of C72"
  },
  {
   "property": "C80",
   "status": "proved",
   "theorems": [
    "C80_order",
    "C80_names"
   ],
   "note": "for a parser that takes field names alike in any case (C80_names: the parser of the program does); notices made while a message is read off the wire are not part of this"
  },
  {
   "property": "C81",
   "status": "proved",
   "theorems": [
    "C81_explanation",
    "C81_http_symbols",
    "C81_fields"
   ],
   "note": "C81_explanation is for any productive grammar over bytes; symbols are taken to have names and, if they cite anything, valid citations with titles"
  },
  {
   "property": "C82",
   "status": "proved",
   "theorems": [
    "C82_equality",
    "C82_truth",
    "C82_order",
    "C82_fraction"
   ],
   "note": "case is that of ISO-8859-1; Python's shortcut for identical objects inside tuples and lists is left out"
  },
  {
   "property": "C83",
   "status": "proved",
   "theorems": [
    "C83_length",
    "C83_codings"
   ],
   "note": "for the parser: any reader that conforms to the grammar"
  },
  {
   "property": "C84",
   "status": "proved",
   "theorems": [
    "C84_notices",
    "C84_checked",
    "C84_apart"
   ],
   "note": "the rules are those of C67, traffic without framing errors is that of C59, the known exceptions are those of C56"
  },
  {
   "property": "C85",
   "status": "proved",
   "theorems": [
    "C85_media_types"
   ],
   "note": "complaints in some order"
  },
  {
   "property": "C86",
   "status": "proved",
   "theorems": [
    "C86_ranges"
   ],
   "note": ""
  },
  {
   "property": "C87",
   "status": "proved",
   "theorems": [
    "C87_weights"
   ],
   "note": "an asterisk among codings may be read in either of two ways"
  },
  {
   "property": "C88",
   "status": "proved",
   "theorems": [
    "C88_protocols",
    "C88_one_encoding"
   ],
   "note": ""
  },
  {
   "property": "C89",
   "status": "proved",
   "theorems": [
    "C89_cache_control"
   ],
   "note": ""
  },
  {
   "property": "C90",
   "status": "proved",
   "theorems": [
    "C90_transfer_codings"
   ],
   "note": ""
  },
  {
   "property": "C91",
   "status": "proved",
   "theorems": [
    "C91_authentication"
   ],
   "note": ""
  },
  {
   "property": "C92",
   "status": "proved",
   "theorems": [
    "C92_programs"
   ],
   "note": "for Via see C100"
  },
  {
   "property": "C93",
   "status": "proved",
   "theorems": [
    "C93_accepted"
   ],
   "note": "a range with an asterisk may be read in either of two ways"
  },
  {
   "property": "C94",
   "status": "proved",
   "theorems": [
    "C94_missing_parts"
   ],
   "note": ""
  },
  {
   "property": "C95",
   "status": "proved",
   "theorems": [
    "C95_lists_of_names"
   ],
   "note": "an asterisk in Vary and none in Accept-Ranges may be read in either of two ways"
  },
  {
   "property": "C96",
   "status": "proved",
   "theorems": [
    "C96_hosts"
   ],
   "note": "all of RFC 3986 3.2 with the zones of RFC 6874"
  },
  {
   "property": "C97",
   "status": "proved",
   "theorems": [
    "C97_uris"
   ],
   "note": "the specification does not follow the code's five kinds of paths"
  },
  {
   "property": "C98",
   "status": "proved",
   "theorems": [
    "C98_language_tags"
   ],
   "note": "the subtags of a text are found by splitting it at hyphens"
  },
  {
   "property": "C99",
   "status": "proved",
   "theorems": [
    "C99_dispositions"
   ],
   "note": "UTF-8 is specified by how scalar values are encoded; Utf8.v proves that the decoder accepts exactly these"
  }
 ]
}