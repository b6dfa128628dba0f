# Formal model of httpolice in Rocq

This file says what is modelled, how each property of `properties.jsonl` is
proved, and what the proofs rest on.

## Method

* The model is shallow Gallina: total functions over lists, `N`, `Z`, records.
  Each Python function becomes one definition with the same branches, and a
  comment citing file and lines. Exceptions are values.
* Bytes and Unicode strings are both `list N` (code points; a byte is `< 256`).
  ISO-8859-1 decoding is then the identity, as it is in Python.
* External calls (gzip, zlib, brotli, charset codecs, file names, the clock)
  are arguments of the model, universally quantified in the theorems.
* Loops that are not structurally recursive take a `fuel` argument and return
  an explicit out-of-fuel value. The theorems exclude that value by proving
  that enough fuel exists for every input.
* For each area there is a model file (`X.v`), a small independent
  specification (`XSpec.v` or the head of the property file), proofs
  (`XProofs.v`) and a property file `P_X.v` with theorems and nothing else,
  each followed by `Print Assumptions`, with an `Example` next to it that
  instantiates the hypotheses on a concrete case.
* A claim that is false of the code is not weakened silently: there is a
  theorem `..._refuted` with the counterexample, a theorem for the part that
  holds, and an entry in the findings below.

## Areas and plan per property

| Properties | Model | Proof plan |
|---|---|---|
| C01-C05, C60 grammar parser | `Earley.v`: chart construction, item list per position, nullable skipping, live candidate lists, the frame-stack result search, the error builder, over an arbitrary grammar (`rules : nonterminal -> list rule`) | chart invariant (every item is supported by derivations), closure of the finished chart, completeness by induction on derivations; result search: every yielded result is the evaluation of a derivation tree; existence by taking a smallest tree; termination by a lexicographic measure |
| C06 memo, C07 annotations | `Parse.v`: ordered dictionary, pop/reinsert/evict, `_splice_annotations` | invariant over all call sequences; induction over the annotation list |
| C08-C13, C58 grammar combinators and concrete symbols | `Grammar.v`: symbols as a datatype, the combinators as functions building it; `Syntax.v`: every symbol of `httpolice/syntax`; `Actions.v`: the functions they call | language and value lemma per combinator (`GrammarLang`, `GrammarVals`, `GrammarCalc`), then per symbol, then through the parser (`Reading.v`) |
| C13, C50, C51 structures | `Structure.v` | direct |
| C14-C27, C59 framing | `Stream.v`, `Framing.v` | invariants over the read loop, round-trip lemmas by induction over chunks, headers, messages |
| C28-C32 notices | `Blackboard.v`, `ChecksResponse.v` | induction over operation sequences; for the checks, what each of them can report (`ChecksSays.v`, `ChecksTop.v`) |
| C33-C38, C62-C63 header views | `Header.v`, `Known.v` (generated from the CSV tables) | induction over entries; table lemmas by computation lifted to all names |
| C64-C66 shapes of values | `Types.v`: type inference for grammar symbols and semantic actions, proved sound against the semantics; `Nested.v`: actions that parse again | inference run on every known header, lifted by soundness to all texts; that Link can raise is shown through C107 (`P_LinkRaises.v`) instead of running the parser, which takes long on Link when `coqchk` repeats it |
| C39-C42, C61 inputs | `Inputs.v` | merge invariant, permutation, sortedness |
| C68-C70 HAR | `Har.v`: JSON values, the Python operations on them with their exceptions, the conversion; `P_Har.v` | inversion of the conversion step by step, induction over entries and files |
| C43-C44, C55 CLI and reports | `Cli.v`, `TextReport.v`, `Titles.v` (generated); `P_Reports.v`, `P_Cli.v` | induction over exchanges; the report is read back line by line |
| C45-C49, C52 text helpers | `Text.v` | induction over strings |
| C53, C47 bodies | `ChecksMessage.v`; specification and theorems in `P_Bodies.v` | induction over codings; the clipping function against a character-by-character relation |
| C54 notice ids | `Catalogue.v` (generated), `Reports.v` (resolution of references, httpolice/reports/common.py), checks; `P_Catalogue.v` | the tables of possible notices, compared with the catalogue |
| C67 when notices are due | `Rules.v`, `RulesOfResponse.v`: one rule per notice, saying in terms of headers, bodies, methods and statuses when it is due; `P_Rules.v` | a logic for exactly what a computation reports (`RulesLogic.v`); each check follows its rules (`RulesMessage.v`, `RulesPayload.v`, `RulesRequest.v`, `RulesResponse.v`, `RulesContext.v`), then induction over responses |
| C71 looking at checked exchanges | `ChecksMessage.v`; `P_Looks.v` | the notices of a lookup are rules of C67, so they are due and hence were reported; induction over repeated complaints in `Blackboard.v` |
| C72 annotated values | `Annotated.v`; `Verbatim.v`: an analysis of grammar rules and actions that tells whether a marked object has all of the text of its rule, proved sound; `P_Annotated.v` | the analysis run on every known header; invariant over derivation trees (each mark has its text, or another mark hides it); induction over the marks |
| C73-C79 HTML report | `Html.v` (elements as a tree), `HtmlData.v` (what it is fed with), `Templates.v`, `Links.v` (generated from `notices.xml` and the known/*.csv files), `Citation.v`; `P_Html.v`, `P_HtmlData.v`, `P_Markup.v`, `P_Display.v`, `P_Refs.v`, `P_Same.v`, `P_Links.v` | induction over exchanges and notices, and over elements; the texts of all notices are compared with the catalogue of C54; the safety logic of C56 for bodies |
| C80 order and case of fields | `Alike.v` (computations that say the same up to places), `AlikeViews.v`, `AlikeChecks.v`, `AlikeTop.v`; `P_Order.v` | a relation between runs, kept by every check; sorted lists for fields with one name, permutations for the rest |
| C81 explanations of parse errors | `Details.v` (from the state of the parser to `ParseError`), `Html.v`; `P_Details.v` | the groups as a map from texts to sets; descriptions of bytes read back (C48); for pivots, paths through the chart without repetitions |
| C82 values | `Values.v`; `P_Values.v` | an inductive definition of equality; by induction on the size of both values |
| C83 framing against checks, C84 end to end | `Joined.v`, `FramingIds.v`; `P_Joined.v` | the framing is instantiated with the environment of the checks; C34, C35 and C11 on the values; C59, C67 and C56 composed; an invariant on the ids of the framing's notices |
| C85–C89 values of header fields: media types, ranges, weights, protocol names, cache directives | `SyntaxDen.v`, `SyntaxParts.v`, `SyntaxKit.v`, `SyntaxMore.v`; `HttpValues.v` (specification); `P_Syntax.v` | a calculus of relations between strings, values and complaints along the combinators; then each symbol is unfolded once |
| C90–C95 values of more header fields: transfer codings, challenges, comments and programs, Accept, missing parts, lists of names | `SyntaxFields.v`, `SyntaxAgents.v`; `HttpValues.v` (specification); `P_Fields.v` | as for C85; comments by induction on the length of the text and on the nesting |
| C96–C97 hosts and URIs | `SyntaxUri.v`; `UriText.v` (specification); `P_Uri.v` | each symbol of RFC 3986 has as its language the texts of the specification; IPv6 addresses by the number of groups before and after the double colon, paths by splitting at slashes |
| C98–C104 language tags, encoded values, Via, Warning, conditions, origins and others | `SyntaxLang.v`, `Utf8.v`, `SyntaxExt.v`, `SyntaxRest.v`; `MoreValues.v` (specification); `P_More.v` | each symbol has the meaning of the specification, by the calculus of `SyntaxDen.v` and `SyntaxKit.v`; the bytes that the decoder accepts are the encodings of scalar values, by induction on them |
| C105–C108 arguments, Alt-Svc, Link, all headers | `SyntaxAgain.v`; `AgainValues.v` (specification); `P_Again.v` | the inner parse is a function that agrees with the parser for every symbol and string; such a function exists because the parser always ends (C03); induction on the parameters of a link; the tables are compared with the names in the specification |
| C109–C110 from the text of a field to its notices and values | `P_Whole.v` | C108 for the texts, C34, C35 and C67 for the views and the notices, with the environment of the checks reading as the parser does |
| C111 the notices of framing can be shown | `FramingIds.v`, `P_Framed.v` | invariant of the framing: which ids come with which context; then the catalogue is searched for each, as in C54 |
| C112 the part that an error of framing is about | `FramingParts.v`, `P_FramingParts.v`, `P_FramingShown.v` | the framing again, with the stack that `with stream.parsing(...)` keeps; it is proved to do the same as `Framing.v`, to restore the stack and to blame the right part, by a small program logic; then an invariant of the loops over messages |
| C113 arguments in the values of headers | `P_Argued.v` | C66 (how views process what was parsed) with its uses of the parser replaced by the specifications of C105 and C108 |
| C114 what is known of headers | `P_Known.v` | the names with each property are listed; a name has it exactly if it is one of them but for case |
| C30, C32, C56, C57 checks | `ChecksMessage.v`, `ChecksRequest.v`, `ChecksResponse.v`; for C56 `ChecksSafe.v`, `SafeMessage.v`, `SafeRequest.v`, `SafeResponse.v` | case analysis over the checks; C56 by a Hoare logic for computations that may raise, with the types of header values inferred from the grammar |

## Properties and theorems

* **C01** Header grammar parser accepts exactly the language. *proved* in P_Earley.v, P_Grammar.v: `C01_parser_accepts_language`, `C01_http_symbols`. for every grammar with finitely many reachable symbols on which the nullability test ends; all symbols of httpolice/syntax satisfy this.
* **C02** Parse result is the meaning of a real derivation. *proved* in P_Earley.v: `C02_result_is_meaning`, `C02_unambiguous`.
* **C03** Parsing always terminates. *proved* in P_Earley.v: `C03_parser_terminates`, `C03_left_recursion_refuted`. without the condition on the nullability test the claim is false, as the second theorem shows (RecursionError in Python); no grammar in httpolice/syntax is of that kind.
* **C04** Parse error position and expectation are exact. *proved* in P_Earley.v: `C04_error_exact`.
* **C05** 'end of data' is offered in a parse error exactly when stopping there would be accepted. *proved* in P_Earley.v, P_Grammar.v: `C05_end_of_data`, `C05_end_of_data_unnested`, `C05_end_of_data_refuted`, `C05_http_symbols`. as first stated false of the code when the start symbol occurs inside itself; C05_end_of_data says exactly when it is listed for any grammar; C05_http_symbols: the first statement for every symbol of httpolice/syntax.
* **C06** Memoization is invisible and bounded. *proved* in P_Parse.v: `C06_memo_invisible`, `C06_memo_lru`. the values stored in the table are shared, not copied, in Python; they are immutable values in the model.
* **C07** Annotated input reproduces the input. *proved* in P_Parse.v: `C07_annotated_input`, `C07_disjoint_objects_shown`.
* **C08** string_excluding is string() minus the excluded words. *proved* in P_Grammar.v: `C08_string_excluding`, `C08_string_excluding_spelled`, `C08_string_excluding_refuted`, `C08_http_symbols`. as first stated false of the code when an excluded word has a character outside the terminal; C08_string_excluding gives the language for any words, _spelled when they are in the terminal, C08_http_symbols as used in httpolice/syntax.
* **C09** Grammar combinators have their documented languages. *proved* in P_Grammar.v: `C09_product`, `C09_union`, `C09_function_and_name`, `C09_optional`, `C09_repetition`, `C09_many`, `C09_literal`, `C09_octets`, `C09_no_copies_refuted`. except times(0, 0, x), which accepts one copy (last theorem).
* **C10** List headers follow the #rule with empty elements. *proved* in P_Grammar.v: `C10_lists`. for elements whose value is never None (such elements are dropped by the code) and is not skipped.
* **C11** Content-Length is accepted exactly when it is a run of digits. *proved* in P_Grammar.v: `C11_content_length`, `C11_decimal`.
* **C12** token and quoted-string are recognized and unquoted correctly. *proved* in P_Grammar.v: `C12_token`, `C12_quoted_string`.
* **C13** Entity tags compare as RFC 7232 prescribes. *proved* in P_Grammar.v: `C13_entity_tag`, `C13_comparison`.
* **C14** Framing terminates and always makes progress. *proved* in P_FramingRuns.v: `C14_framing_terminates`. also bounds the number of exchanges.
* **C15** No input byte is silently dropped. *proved* in P_FramingRuns.v: `C15_no_byte_dropped`.
* **C16** Every stream produces at least one exchange. *proved* in P_FramingRuns.v: `C16_at_least_one_exchange`.
* **C17** Requests survive a wire round-trip. *proved* in P_FramingWire.v: `C17_request_round_trip`, `C17_chunked_request_round_trip`.
* **C18** Pipelined messages are split and paired in order. *proved* in P_FramingWire.v: `C18_pipelining`.
* **C19** Chunked bodies decode to the concatenation of their chunks. *proved* in P_FramingWire.v: `C19_chunked_body`.
* **C20** Chunk sizes must be hexadecimal digits. *proved* in P_FramingWire.v: `C20_chunk_size_refuted`, `C20_chunk_size_accepted`, `C20_chunk_size_reported`. as first stated false of the code: int(x, 16) also accepts 0x3, +3, 1_0; proved that exactly the numbers of Python's grammar are accepted.
* **C21** A body with Content-Length is exactly that many bytes. *proved* in P_FramingBodies.v: `C21_request_content_length`, `C21_response_content_length`, `C21_malformed_content_length`.
* **C22** Response body delimitation follows RFC 7230 section 3.3.3. *proved* in P_FramingBodies.v: `C22_no_body`, `C22_interim`, `C22_chunked`, `C22_unchunked_coding`, `C22_until_close`.
* **C23** Parsing stops after a protocol switch. *proved* in P_FramingBodies.v: `C23_stops_after_switch`.
* **C24** Framing notices are attributed to the message they occurred in. *proved* in P_FramingBodies.v: `C24_notices_stay_with_their_message`.
* **C25** No parsed body exceeds the size limit. *proved* in P_FramingBodies.v: `C25_body_size`, `C25_long_line`, `C25_heading_lines`.
* **C26** Framing never raises. *proved* in P_FramingBodies.v: `C26_framing_raises_refuted`, `C26_framing_raises_only`, `C26_framing_raises_always`. as first stated false of the code: a chunk size of -2 raises ValueError; proved that only sizes below -1 raise, only ValueError, and that they do.
* **C27** Folded header lines are unfolded. *proved* in P_FramingBodies.v: `C27_folded_fields`.
* **C28** Silencing hides exactly the given notices, whenever it is done. *proved* in P_Blackboard.v: `C28_silencing`, `C28_any_time`, `C28_generator_refuted`. for collections of ids; with a one-shot iterator Exchange.silence reaches only the exchange itself (last theorem).
* **C29** Identical complaints are reported once. *proved* in P_Blackboard.v: `C29_once`, `C29_first`.
* **C30** HTTPolice-Silence header scope. *proved* in P_Exchange.v: `C30_scope`, `C30_scope_only`. first theorem for exchanges whose checks end normally, second for all; the reader of header values is any function that agrees with the parser.
* **C31** A derived property is computed at most once. *proved* in P_Blackboard.v: `C31_called_once`, `C31_assigned`, `C31_same_value`, `C31_assigned_value`, `C31_raising_refuted`. a getter that raises is evaluated again (last theorem).
* **C32** Final response order is checked. *proved* in P_Exchange.v: `C32_final`, `C32_final_only`, `C32_continue`. for exchanges whose checks end normally; also, without that hypothesis, 1304 only after the first final response.
* **C33** Header lookups see every entry, ignoring name case. *proved* in P_Header.v: `C33_entries`, `C33_unique`, `C33_case`, `C33_lookups`, `C33_names`.
* **C34** Single-valued headers: the last value wins and repetition is reported. *proved* in P_Header.v: `C34_single`.
* **C35** List-valued headers: entries concatenate. *proved* in P_Header.v: `C35_multi`, `C35_split`.
* **C36** Forbidden trailer fields are ignored. *proved* in P_Header.v: `C36_trailers`.
* **C37** Comparing an absent or malformed header is always false. *proved* in P_Header.v: `C37_compare`, `C37_headers`, `C37_absent`, `C37_absent_list_refuted`. the value of an absent header that holds a list is the empty list, so != is True for it (last theorem).
* **C38** Header lookup never fails. *proved* in P_Header.v: `C38_lookup`, `C38_table`.
* **C39** Merging connections by time loses and reorders nothing within a connection. *proved* in P_Inputs.v: `C39_interleaving`, `C39_interleaving_meaning`, `C39_files`, `C39_empty_refuted`. Also: exceptions come only from reading a connection or from a time that does not fit into a datetime; the crash on a connection without exchanges is unreachable from files.
* **C40** Merging by time sorts when times are known. *proved* in P_Inputs.v: `C40_sorted`, `C40_late_start_refuted`. Unknown start times are allowed; a start time later than the first exchange breaks the order.
* **C41** Stream files are paired with their reverse direction and none is lost. *proved* in P_Inputs.v: `C41_recombine`, `C41_time`, `C41_tcpflow`, `C41_tcpflow_every_file`, `C41_tcpflow_name`, `C41_tcpick`, `C41_tcpick_name`, `C41_same_key_refuted`. tcpick directories may contain two files with the same key; then one is lost (C41_same_key_refuted).
* **C42** Combined files split exactly. *proved* in P_Inputs.v: `C42_combined`.
* **C43** Exit status reflects reported notices. *proved* in P_Cli.v: `C43_status`, `C43_failure`. reading, checking and reporting are arbitrary; exchanges do not share messages; silencing with collections, as the program does.
* **C44** The text report shows every visible notice and nothing else. *proved* in P_Reports.v: `C44_lines`, `C44_finished`, `C44_checked`, `C44_characters`, `C44_newline_refuted`. if no text that is printed contains a newline; without that it is false (last theorem).
* **C45** printable() output is always printable and otherwise faithful. *proved* in P_Util.v: `C45_printable`.
* **C46** ellipsize() bounds length and keeps a prefix. *proved* in P_Util.v: `C46_ellipsize`, `C46_small_limit_refuted`. limits below 3 make the result longer (last theorem); the callers pass 60 or more.
* **C47** Displayed body is bounded and printable. *proved* in P_Bodies.v: `C47_displayed`. the pretty-printer of JSON and the decoders are arbitrary functions; holds whenever the displayable body is obtained without an exception.
* **C48** Character-set descriptions denote exactly the set. *proved* in P_Util.v: `C48_descriptions`, `C48_unambiguous`, `C48_intervals`.
* **C49** Duplicate detection is exact. *proved* in P_Util.v: `C49_duplicates`, `C49_complete`.
* **C50** Multi-valued parameter maps behave as ordered multimaps. *proved* in P_Util.v: `C50_lookup`, `C50_names`, `C50_index`.
* **C51** Case-insensitive strings form an equivalence compatible with hashing. *proved* in P_Util.v: `C51_equality`, `C51_equivalence`, `C51_prefix`, `C51_plain_refuted`, `C51_lower_case_keys`. equality with a plain string is not compatible with hashing unless the plain string is in lower case.
* **C52** CGI headers and pseudo-headers are converted faithfully. *proved* in P_Util.v: `C52_pseudo_headers`, `C52_cgi`, `C52_host_first`.
* **C53** Content codings are undone in reverse order, stopping at the first failure. *proved* in P_Bodies.v: `C53_decoded`, `C53_determined`, `C53_one_notice`, `C53_no_body`. the decoders are arbitrary partial functions; the codings are those of the parsed Content-Encoding header.
* **C54** Every reported notice exists. *proved* in P_Catalogue.v: `C54_shown`, `C54_unique`. for the notices reported by check_exchange: the entry exists and every reference in its text to a part of the message can be resolved; for the notices of framing see C111.
* **C55** Anonymous ids in the HTML report are unique. *proved* in P_Cli.v: `C55_same`, `C55_dense`, `C55_objects`, `C55_reuse_refuted`. identities are the numbers that id() gives; these may be reused after an object is freed, and then two objects share a number (last theorem).
* **C56** Checking an exchange does not raise, apart from three known faults. *proved* in P_Safe.v: `C56_blame`, `C56_no_mistake`, `C56_finishes`, `C56_stopped`, `C56_age_refuted`. the claim that no value of Age makes the check raise is false (last theorem); int() of very long numbers is not modelled (finding 23).
* **C57** Early hints are exempt from checks on final headers. *proved* in P_Early.v: `C57_exempt`. the list of notices about a final response is written out in P_Early.v.
* **C58** HTTP dates are understood correctly. *proved* in P_Grammar.v: `C58_dates`, `C58_misspelled_refuted`. a two-digit year is taken to be 19xx and leap seconds are reported as impossible; the text of 1108 misspells Saturday.
* **C59** Cleanly parsed traffic was on the wire. *proved* in P_FramingWire.v: `C59_clean_runs_are_conversations`, `C59_clean_requests`, `C59_clean_responses`.
* **C60** The context named in a parse error is right. *proved* in P_Details.v, P_Earley.v: `C60_pivots_sound`, `C60_pivots_found`.
* **C61** Captured files are recognised as requests or responses by their contents. *proved* in P_Inputs.v: `C61_responses`, `C61_requests`, `C61_one_sided`.
* **C62** Delimiters inside quoted strings are reported exactly. *proved* in P_Header.v: `C62_delimiters`.
* **C63** Repeated and misplaced parameters of Forwarded are reported exactly. *proved* in P_Header.v: `C63_forwarded`.
* **C64** Every parsed header value has its documented shape. *proved* in P_Types.v, P_Views.v: `C64_values`, `C64_arguments`, `C64_views`. all 68 headers whose syntax is known; the texts parsed inside other texts are covered too.
* **C65** Parsing a header field never raises. *proved* in P_LinkRaises.v, P_Types.v, P_Views.v: `C65_no_exception`, `C65_views`, `C65_link`, `C65_link_refuted`. false for Link; C65_link says exactly which parameters raise.
* **C66** Arguments of directives are judged as documented. *proved* in P_Views.v: `C66_arguments`, `C66_lookup`, `C66_preference`. for a reader that does what the parser does; the shape of parsed values (C64) shows that unpacking never fails.
* **C67** Every notice is reported exactly when the condition for it holds. *proved* in P_Rules.v: `C67_sound`, `C67_complete`, `C67_apart`. the conditions are in Rules.v and RulesOfResponse.v, one rule per notice, written without the definitions of the checks; events on the side such as derived properties (decoded bodies and so on) are rules too; for a reader that does what the parser does.
* **C68** A HAR file becomes one exchange for each entry, as the file says. *proved* in P_Har.v: `C68_har_exchanges`. for URLs that urlparse accepts; files that cannot be opened are left out.
* **C69** A HAR file that cannot be understood gives InputError after the exchanges before it. *proved* in P_Har.v: `C69_har_errors`, `C69_har_errors_refuted`, `C69_har_files`, `C69_har_not_json`, `C69_har_entries`, `C69_har_entry`. as first stated (InputError for every bad file) false of the code; proved for members of the right types.
* **C70** Nothing in an exchange from a HAR file is made up. *proved* in P_Har.v: `C70_har_says`. for every JSON value, with str() of values that are not strings left open.
* **C71** Looking at a checked exchange adds no notices. *proved* in P_Looks.v: `C71_looking`, `C71_unchanged`. for a reader that does what the parser does; if checking returns (C56 says when).
* **C72** The HTML report shows the values of headers as they were sent. *proved* in P_Annotated.v: `C72_value_shown`, `C72_shown_as_sent`, `C72_warning_shown_as_sent`, `C72_objects`, `C72_shown_as_sent_refuted`. false of the code for warn codes that begin with a zero (last theorem); C72_value_shown says what is shown then.
* **C73** The HTML report lists each visible notice once, at its message, and is written to the end. *proved* in P_Html.v, P_HtmlData.v: `C73_listed`, `C73_finished`, `C73_checked`. the report as a tree of elements; how Dominate writes it down is left out; C73_checked is for exchanges without notices on the exchange itself (C73_finished has the condition for those).
* **C74** Nothing from messages becomes markup in the HTML report. *proved* in P_Markup.v: `C74_markup`, `C74_addresses`, `C74_titles`, `C74_characters`. escaping of texts and values is Dominate's; the details of parse errors are taken to cite only what the grammar cites, and names of codecs to be printable.
* **C75** The list of all notices is complete and in order. *proved* in P_Markup.v: `C75_list_notices`.
* **C76** The HTML report shows every part of every message. *proved* in P_Display.v: `C76_displayed`. as far as the report is written (C73_checked says when it is complete); remarks on messages are left out.
* **C77** References in the HTML report lead to the parts of the messages that notices are about. *proved* in P_Refs.v: `C77_references`. that different objects can have one number (interned strings and small numbers, or one object in several places) is left out: nothing is said about what else is highlighted.
* **C78** The HTML report and the text report give each notice the same title. *proved* in P_Same.v: `C78_titles`.
* **C79** Names in the HTML report link to what defines them. *proved* in P_Links.v: `C79_links`. in the displays of messages; what the objects in a value are is the subject of C72.
* **C80** The order of header fields with different names and the case of their names do not matter. *proved* in P_Order.v: `C80_order`, `C80_names`. for a parser that takes field names alike in any case (C80_names: the parser of the program does); notices made while a message is read off the wire are not part of this.
* **C81** The HTML report explains parse errors correctly. *proved* in P_Details.v: `C81_explanation`, `C81_http_symbols`, `C81_fields`. C81_explanation is for any productive grammar over bytes; symbols are taken to have names and, if they cite anything, valid citations with titles.
* **C82** Parsed values compare, order and count as true in one definite way. *proved* in P_Values.v: `C82_equality`, `C82_truth`, `C82_order`, `C82_fraction`. case is that of ISO-8859-1; Python's shortcut for identical objects inside tuples and lists is left out.
* **C83** Framing and checks agree on Content-Length and Transfer-Encoding. *proved* in P_Joined.v: `C83_length`, `C83_codings`. for the parser: any reader that conforms to the grammar.
* **C84** Traffic given as bytes is checked as the exchanges in it would be if made by hand. *proved* in P_Joined.v: `C84_notices`, `C84_checked`, `C84_apart`. the rules are those of C67, traffic without framing errors is that of C59, the known exceptions are those of C56.
* **C85** Media types are read as RFC 7231 says. *proved* in P_Syntax.v: `C85_media_types`. complaints in some order.
* **C86** Ranges are read as RFC 7233 says. *proved* in P_Syntax.v: `C86_ranges`.
* **C87** Weights are read as RFC 7231 says. *proved* in P_Syntax.v: `C87_weights`. an asterisk among codings may be read in either of two ways.
* **C88** Protocol names of alternative services are decoded, and the one right encoding is suggested. *proved* in P_Syntax.v: `C88_protocols`, `C88_one_encoding`.
* **C89** Cache directives are read as RFC 7234 says. *proved* in P_Syntax.v: `C89_cache_control`.
* **C90** Transfer codings are read as RFC 7230 says. *proved* in P_Fields.v: `C90_transfer_codings`.
* **C91** Challenges and credentials are read as RFC 7235 says. *proved* in P_Fields.v: `C91_authentication`.
* **C92** Comments and names of programs are read as RFC 7230 and 7231 say. *proved* in P_Fields.v: `C92_programs`. for Via see C100.
* **C93** What a client accepts is read as RFC 7231 says. *proved* in P_Fields.v: `C93_accepted`. a range with an asterisk may be read in either of two ways.
* **C94** Headers whose parts may be missing are read with the parts that are there. *proved* in P_Fields.v: `C94_missing_parts`.
* **C95** Lists of names are read as such. *proved* in P_Fields.v: `C95_lists_of_names`. an asterisk in Vary and none in Accept-Ranges may be read in either of two ways.
* **C96** Hosts are read as RFC 3986 says. *proved* in P_Uri.v: `C96_hosts`. all of RFC 3986 3.2 with the zones of RFC 6874.
* **C97** URIs and references are read as RFC 3986 says. *proved* in P_Uri.v: `C97_uris`. the specification does not follow the code's five kinds of paths.
* **C98** Language tags are read as RFC 5646 says. *proved* in P_More.v: `C98_language_tags`. the subtags of a text are found by splitting it at hyphens.
* **C99** Encoded parameters and Content-Disposition are read as RFC 8187 and 6266 say. *proved* in P_More.v: `C99_dispositions`. UTF-8 is specified by how scalar values are encoded; Utf8.v proves that the decoder accepts exactly these.
* **C100** Via and Warning are read as RFC 7230 and 7234 say. *proved* in P_More.v: `C100_intermediaries`. dates as in C58.
* **C101** Conditions, dates and numbers are read as such. *proved* in P_More.v: `C101_conditions`. dates as in C58; entity tags are specified in SyntaxTags.v.
* **C102** Origins and fields of few values are read as such. *proved* in P_More.v: `C102_origins`.
* **C103** The header that silences notices is read as documented. *proved* in P_More.v: `C103_silence`.
* **C104** Forwarded nodes, scopes and relation types are read as such. *proved* in P_More.v: `C104_nodes_and_relations`.
* **C105** Arguments of directives, preferences and parameters are read as their specifications say. *proved* in P_Again.v: `C105_arguments`. All five tables of names with arguments.
* **C106** Alt-Svc is read as RFC 7838 says. *proved* in P_Again.v: `C106_alternatives`. The parser of the quoted part is any function that decides as the parser does (there is one: decider).
* **C107** Link is read as RFC 8288 says. *proved* in P_Again.v: `C107_links`. As for C106. Notices of one value may come in any order.
* **C108** Every known header is read as its specification says. *proved* in P_Again.v: `C108_headers`. Brings C85 to C107 together.
* **C109** A header field is reported as malformed exactly if it is not as specified. *proved* in P_Whole.v: `C109_malformed`. From left to right also if the check does not finish (C67_sound); that it finishes, see C56.
* **C110** The value of a header is made of what its fields mean by the specification. *proved* in P_Whole.v: `C110_fields`. The other six headers: C66. Notices 1013, 1026, 1299 and 1300 are in C34 to C36 and C62.
* **C111** Every notice about the framing of streams can be shown. *proved* in P_Framed.v: `C111_notes`, `C111_boxes`. The attributes of ParseError and of the stream are listed, not modelled as objects.
* **C112** An error in the framing says which part of a message it is about. *proved* in P_FramingParts.v, P_FramingShown.v: `C112_request_heading`, `C112_response_heading`, `C112_chunked`, `C112_runs`, `C112_shown`. The stack of parts is modelled beside the framing of Stream.v and Framing.v, to which it is proved to agree.
* **C113** Arguments of directives and parameters are worth what their specifications say. *proved* in P_Argued.v: `C113_arguments`, `C113_requirements`. Together with C110 this is about all headers that are parsed. Notices 1296, 1297, 1299 and 1300 are in C62 and C63.
* **C114** What is known of each header is what the specifications say, whatever the case of its name. *proved* in P_Known.v: `C114_headers`. Makes C34 to C36, C62 and the rules of C67 explicit: they refer to these properties of names.

## Trusted base

* Coq 8.16.1's kernel, including its virtual machine (`vm_compute` is used for
  finite table lemmas and for the examples).
* Axioms: none. `Print Assumptions` after every theorem named above answers
  "Closed under the global context". `vcheck` also lists a constant of the
  standard library, `Coq.ssr.ssrunder`'s `Under_rel` module, among the library
  axioms of loaded files. It comes into scope with `lia` (through `ZifyBool`)
  and no theorem depends on it.
* That the model says what the Python code does. Every definition cites the
  lines it models, and deviations are stated in its comment. `Syntax.v` and
  `Known.v` were produced by scripts from the Python grammar and the CSV
  tables and read over.
* Python itself, as far as the model repeats its semantics: `int()`, `str`
  methods on the strings that occur, dictionaries with insertion order,
  `sorted`, `datetime` arithmetic.

## What is modelled

* `httpolice/parse.py`: all of it (symbols, combinators, the Earley parser, the
  search for a result, error construction, the grouping of what was expected, the memo table,
  annotations). The names and citations of symbols, and the order in which Python
  goes through a set of them, are parameters.
* `httpolice/syntax/*.py`: every symbol and every function used in them.
  `_check_alt_authority` and `_process_params` call the parser again; they are
  a parameter of the semantics, and `Nested.v` models them.
* `httpolice/stream.py`, `httpolice/framing1.py`: all of them.
* `httpolice/blackboard.py`, `exchange.py`: complaints, silencing, derived
  properties.
* `httpolice/header.py`: everything (annotations in `Annotated.v`) except `__getattr__` sugar.
* `httpolice/message.py`, `request.py`, `response.py`, `exchange.py`: all checks
  and all derived properties (`ChecksBase.v`, `ChecksMessage.v`,
  `ChecksRequest.v`, `ChecksResponse.v`). A check is a function from an
  environment (the clock, the libraries that decode bodies, the reader of
  header values) to the list of notices and silencings in order, and to a value
  or an exception. `Catalogue.v` lists the notices of `notices.xml` with their
  severities and references, `Complaints.v` the notices of each check.
* `httpolice/structure.py`: `CaseInsensitive`, `EntityTag`, `MultiDict`,
  `Parametrized`, `Unavailable`, `okay`, status classes where needed.
* `httpolice/known/*.csv`: the columns that the checks use.
* `httpolice/cli.py`: `run_cli`, without option parsing. `httpolice/reports`:
  `common.py`, all of `text.py`, and `html.py` up to the tree of elements that
  is handed to Dominate. `httpolice/notice.py` with the texts in
  `notices.xml`, `httpolice/citation.py`.
* `httpolice/inputs/streams.py` (combined, tcpflow, tcpick, req/resp streams),
  `httpolice/inputs/har.py`,
  `httpolice/helpers.py`, `httpolice/util/text.py`, `httpolice/util/data.py`.

## How the model of the checks was compared with the test data

The checks were extracted to OCaml (outside this directory) together with the
framing model, and run on the 539 files of `/repo/test/combined_data`, with
small stand-ins for the decoding libraries. On every file the set of reported
notices is the one that the file expects. This is a test of the model, not part
of the proofs.

## What is not modelled

* How Dominate writes elements down (escaping, white space), the scripts and
  style sheets of HTML reports, `tools/`, the test suite.
* The libraries that decode bodies (gzip, zlib, brotli, JSON, XML, e-mail,
  charset codecs) and `urllib.parse`: these are arbitrary functions in the
  model, which may fail.
* Memory and time consumption, logging, the operating system.

## Findings about the code

Statements marked *(theorem)* are proved in the file named.

1. Chunk sizes are read with `int(x, 16)`, so `+5`, `0x5`, `1_0` and sizes
   surrounded by white space are accepted *(C20_chunk_size_refuted)*. A size
   of `-1` reads the rest of the stream; a size of `-2` or less raises
   `ValueError` out of `parse_streams` *(C26_framing_raises_refuted)*.
2. `Exchange.silence` given a one-shot iterator silences only the exchange
   itself *(C28_generator_refuted)*.
3. `syntax/rfc8288.py:_process_params` raises `UnboundLocalError` or
   `AttributeError` on some parameters without a value *(C65_link says which,
   C65_link_refuted)*, for example on `Link: <>;rel`.
4. A large `Age` makes `timedelta` or the addition to `Date` raise
   `OverflowError` (`response.py:118-119`, `inputs/streams.py:314-315`)
   *(C56_age_refuted)*.
5. `_rearrange_by_time` raises on an empty sequence *(C39_empty_refuted)*; no
   input file leads there.
6. Two tcpick files with the same key: one stream is dropped silently
   *(C41_same_key_refuted)*. tcpflow checks for this.
7. `DAY_NAMES` says "Saturady" *(C58_misspelled_refuted)*. A two-digit year is
   always taken as 19xx. A leap second is reported as an impossible time.
8. `CaseInsensitive` strings equal plain strings with a different hash
   *(C51_plain_refuted)*. `Unavailable()` is not equal to itself.
9. `string_excluding` accepts excluded words that have a character outside the
   terminal *(C08_string_excluding_refuted)*.
10. 'end of data' is listed as expected although more is needed, when the start
    symbol occurs inside itself *(C05_end_of_data_refuted)*. No HTTP symbol is
    affected *(C05_http_symbols)*.
11. The nullability test does not end on some left-recursive grammars
    *(C03_left_recursion_refuted)*. No HTTP symbol is affected.
12. `times(0, 0, x)` accepts one copy *(C09_no_copies_refuted)*; it is not used
    like that.
13. `comma_list1` rejects white space after the last comma and drops elements
    whose value is `None`.
14. A derived property whose getter raises is evaluated again at the next
    access *(C31_raising_refuted)*.
15. `ellipsize` with a limit below 3 makes the text longer
    *(C46_small_limit_refuted)*.
16. A stream whose start time is later than its first exchange breaks the order
    of exchanges *(C40_late_start_refuted)*.
17. An absent list-valued header has the value `[]`, so `!=` on it is `True`,
    contrary to the docstring *(C37_absent_list_refuted)*.
18. Iterating over an absent or malformed single-valued header view raises
    `TypeError`. Iterating over `Vary: *` yields the characters of `*`.
19. `guessed_charset` lets `LookupError` escape for `charset=hex` and other
    codecs that are not text encodings. `json.loads` on deeply nested data
    raises `RecursionError`; XML with an unknown declared encoding raises
    `LookupError` or `ValueError`. These escape `check_exchange`.
20. Notices about line endings and folding that are pending when a chunked body
    fails to parse are never reported.
21. HAR input lets `ValueError` and `AttributeError` escape instead of
    `InputError` *(C69_har_errors_refuted)*. A tcpflow timestamp beyond the year 9999 raises `ValueError`,
    which `run_cli` does not catch.
22. With CGI variables, `HTTP_CONTENT_LENGTH` next to `CONTENT_LENGTH` gives two
    header entries.
23. Since Python 3.11, `int()` raises on very long digit strings; the model has
    no such limit.
24. A 451 response with a Link header one of whose `rel` parameters could not be
    parsed makes `u'blocked-by' in ...` raise `TypeError` (`response.py:328`).
25. The text report prints the method, the target and the reason phrase with
    newlines as they are. A target with a newline (possible in a HAR file and in
    the API) can make the report list a notice that was not reported
    *(C44_newline_refuted)*.
26. HTML reports number objects by `id()`, in a table that is never cleared. An
    object that is made after another was freed may get its number, and then a
    notice refers to both *(C55_reuse_refuted)*.
27. HTML reports show warn codes as numbers: `Warning: 099 - "x"` is shown as
    `99 - "x"`, which is not what was sent *(C72_shown_as_sent_refuted)*.
28. Two citations in `notices.xml` (notices 1302 and 1303) give the section in
    an attribute `section`, but `notice.py` reads `sect`: the report cites RFC 8246 as
    a whole instead of its section 3 (see the two entries in `Templates.v`).
29. `msg.body = stream.read(n)` (`framing1.py:134`) is not inside a
    `with stream.parsing(...)`, unlike all other reads, so its error names no part of
    the message. Notice 1004 does not show the error's details, so this is never seen
    (observed by reading; the errors that are shown are those of C112).
30. A header value that cannot be parsed is parsed again whenever its view is
    made anew, and `ParseError`s are compared by identity: in a chunked message
    with a trailer, `rebuild_headers` (`framing1.py:335-336`) makes the view of
    Transfer-Encoding anew, so an element that cannot be parsed gets notice 1000
    twice (observed by reading; the model compares complaints by their content).
