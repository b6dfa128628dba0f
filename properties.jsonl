{"id": "C01", "title": "Header grammar parser accepts exactly the language", "statement": "parse(data, symbol) returns a result (does not raise ParseError) if and only if the byte string can be derived from the symbol by the grammar rules built with the combinators.", "quantifier": "every finite grammar (nullable, left-recursive, right-recursive, ambiguous), every start symbol, every byte string of any length", "why_tests_cant": "The set of grammars and inputs is infinite; the chart algorithm has order-dependent treatment of nullable symbols and a back-tracking result search with a loop cut-off, so a missed case only shows on particular grammar/input pairs.", "anchors": ["httpolice/parse.py: parse, _inner_parse, _add_item, _find_results, Nonterminal.is_nullable"]}
{"id": "C02", "title": "Parse result is the meaning of a real derivation", "statement": "The value, the complaints and the annotations returned by parse are those obtained by applying the semantic actions bottom-up, left to right, along one derivation tree of exactly the input.", "quantifier": "every grammar, input and choice of semantic actions", "why_tests_cant": "Tests look at a handful of values; a result could be assembled from pieces that do not fit together (wrong spans, wrong order, complaints of an abandoned alternative) only on ambiguous inputs.", "anchors": ["httpolice/parse.py: _find_results, Rule.concat, Rule.wrap"]}
{"id": "C03", "title": "Parsing always terminates", "statement": "parse finishes on every input: the chart construction, the search for results and the error report reach their end, also for repetitions, cyclic, ambiguous and nullable grammars, provided that the recursive nullability test ends.", "quantifier": "every finite grammar and every input", "why_tests_cant": "Non-termination is the absence of an event; a test can only show that particular inputs finish.", "anchors": ["httpolice/parse.py: _inner_parse, _find_results, _find_pivots"]}
{"id": "C04", "title": "Parse error position and expectation are exact", "statement": "When parse raises ParseError, its position is the length of the longest prefix of the input that can still be continued, found is the byte there (empty at the end), and the listed expected character sets are exactly the bytes that can continue the prefix.", "quantifier": "every grammar whose symbols are productive and every rejected input", "why_tests_cant": "Needs a claim about all possible continuations of a prefix.", "anchors": ["httpolice/parse.py: _build_parse_error, ParseError"]}
{"id": "C05", "title": "'end of data' is offered in a parse error exactly when stopping there would be accepted", "statement": "The parse error lists 'end of data' as an alternative if and only if the input cut at the error position would be accepted. (True of every symbol of httpolice.syntax. False of grammars whose start symbol occurs inside itself; for any grammar, it is listed exactly when the input cut there ends in an acceptable string that begins where the start symbol may occur.)", "quantifier": "every grammar and rejected input", "why_tests_cant": "Depends on every way the start symbol can occur inside itself; only a particular kind of grammar exposes a difference.", "anchors": ["httpolice/parse.py: _build_parse_error"]}
{"id": "C06", "title": "Memoization is invisible and bounded", "statement": "For every history of earlier parse calls, a parse call returns the same result and reports the same complaints as it would in a fresh process, and the memo table never holds more than 500 entries, evicting least recently used entries first.", "quantifier": "every sequence of parse calls", "why_tests_cant": "The property is about all call histories, including ones long enough to cause eviction.", "anchors": ["httpolice/parse.py: parse, _memo, MEMO_LIMIT"]}
{"id": "C07", "title": "Annotated input reproduces the input", "statement": "Replacing every annotated object in the annotated string by the slice of the input it was parsed from and concatenating gives back the input bytes.", "quantifier": "every input and every list of annotations produced by a parse (nested, adjacent, empty)", "why_tests_cant": "All nestings and overlaps of annotations have to be covered.", "anchors": ["httpolice/parse.py: _splice_annotations, parse"]}
{"id": "C08", "title": "string_excluding is string() minus the excluded words", "statement": "string_excluding(t, words) parses a string if and only if all its characters are in t and it is not, ignoring case, one of the words; the value is the string itself. (False if a word has characters outside t: exactly then, a character outside t is also accepted where the string so far is the beginning of a word.)", "quantifier": "every terminal, every list of words, every input", "why_tests_cant": "The grammar is built recursively from the word list; overlapping prefixes among the words give unboundedly many shapes.", "anchors": ["httpolice/parse.py: string_excluding, literal"]}
{"id": "C09", "title": "Grammar combinators have their documented languages", "statement": "literal matches its text ignoring case (case_sens: exactly), x*y concatenation, x|y union, t1-t2 byte-set difference, times(min,max,x) between min and max copies, many/many1/string/string1 any number (at least one), maybe an optional part.", "quantifier": "every argument symbol, bound and input", "why_tests_cant": "Universally quantified over symbols, counts and strings; inlining of unnamed symbols changes the rule layout in ways single examples do not cover.", "anchors": ["httpolice/parse.py: literal, Symbol.__mul__, Symbol.__or__, Terminal.__or__, Terminal.__sub__, times, maybe, RepeatedNonterminal.rules"]}
{"id": "C10", "title": "List headers follow the #rule with empty elements", "statement": "comma_list(x) and comma_list1(x) accept exactly comma-separated lists of x with optional whitespace around commas and with empty elements; the value is the list of the elements' values in order, and notice 1151 is produced exactly when some element is empty.", "quantifier": "every element grammar and every input", "why_tests_cant": "Any number of elements, empty elements and blanks in any positions.", "anchors": ["httpolice/syntax/rfc7230.py: comma_list, comma_list1, _collect_elements"]}
{"id": "C11", "title": "Content-Length is accepted exactly when it is a run of digits", "statement": "A Content-Length value is accepted if and only if it is one or more ASCII digits, and its value is the decimal number they spell.", "quantifier": "every byte string of any length", "why_tests_cant": "Infinitely many inputs, unbounded digits.", "anchors": ["httpolice/syntax/rfc7230.py: Content_Length", "httpolice/syntax/common.py: DIGIT"]}
{"id": "C12", "title": "token and quoted-string are recognized and unquoted correctly", "statement": "token accepts exactly one or more token characters; quoted_string accepts exactly a double-quoted run of quoted-text and backslash pairs; its value is the text with each pair replaced by its second character, and 1017 is produced exactly when a needless backslash is present.", "quantifier": "every byte string", "why_tests_cant": "All escape positions and lengths.", "anchors": ["httpolice/syntax/rfc7230.py: token, quoted_string, quoted_pair"]}
{"id": "C13", "title": "Entity tags compare as RFC 7232 prescribes", "statement": "Weak comparison is an equivalence on entity tags, strong comparison implies weak comparison, is symmetric and transitive, and never holds for a weak tag.", "quantifier": "all pairs and triples of entity tags", "why_tests_cant": "Algebraic laws over an infinite set.", "anchors": ["httpolice/structure.py: EntityTag.weak_equiv, EntityTag.strong_equiv"]}
{"id": "C14", "title": "Framing terminates and always makes progress", "statement": "parse_streams yields finitely many exchanges on every pair of finite streams; each loop turn that is not the last consumes at least one byte.", "quantifier": "every inbound and outbound byte stream (or none), every behaviour of content decoders", "why_tests_cant": "Termination on all byte streams.", "anchors": ["httpolice/framing1.py: parse_streams, _parse_responses, parse_header_fields, _parse_chunked", "httpolice/stream.py: Stream"]}
{"id": "C15", "title": "No input byte is silently dropped", "statement": "After parse_streams is exhausted, either every byte of each stream was consumed or the result contains notice 1007 (inbound) / 1010 (outbound) carrying the offset of the first unread byte.", "quantifier": "every pair of streams", "why_tests_cant": "Must hold for every malformed stream and every point at which parsing gives up.", "anchors": ["httpolice/framing1.py: parse_streams", "httpolice/stream.py: Stream.read, Stream.readline, Stream.eof"]}
{"id": "C16", "title": "Every stream produces at least one exchange", "statement": "parse_streams given at least one stream yields at least one exchange (possibly a complaint box), even when the streams are empty.", "quantifier": "every pair of streams, at least one present", "why_tests_cant": "All inputs; downstream code (time re-ordering) relies on it.", "anchors": ["httpolice/framing1.py: parse_streams", "httpolice/inputs/streams.py: _rearrange_by_time"]}
{"id": "C17", "title": "Requests survive a wire round-trip", "statement": "Writing a request in HTTP/1.x wire format (request line, header lines, blank line, body delimited by Content-Length or chunked) and parsing it gives back the same method, target, version, header entries and body and consumes exactly its bytes, whatever follows.", "quantifier": "every well-formed request and every following bytes", "why_tests_cant": "Unbounded headers, bodies and following data.", "anchors": ["httpolice/framing1.py: _parse_request, _parse_request_heading, parse_header_fields, _parse_request_body"]}
{"id": "C18", "title": "Pipelined messages are split and paired in order", "statement": "For n serialized requests on the inbound stream and, for each, any number of 1xx responses and a final response on the outbound stream, parse_streams yields exactly n exchanges, the k-th holding the k-th request and its responses, in order, with no complaint box.", "quantifier": "every n and every sequence of well-formed messages", "why_tests_cant": "Unbounded pipelines with mixed framings.", "anchors": ["httpolice/framing1.py: parse_streams, _parse_responses"]}
{"id": "C19", "title": "Chunked bodies decode to the concatenation of their chunks", "statement": "For every division of a body into non-empty chunks, with any chunk extensions and trailer fields, the parsed body is the concatenation of the chunk data, the trailer entries are the trailer fields, and exactly the chunked bytes are consumed.", "quantifier": "every list of chunks, hexadecimal spelling, extension text, trailer and following bytes", "why_tests_cant": "Infinitely many chunkings.", "anchors": ["httpolice/framing1.py: _parse_chunk, _parse_chunked"]}
{"id": "C20", "title": "Chunk sizes must be hexadecimal digits", "statement": "A chunk whose size is not one or more hexadecimal digits (optionally followed by blanks) makes the chunked body be reported with notice 1005. (False for the other spellings that Python's int(x, 16) reads, such as 0x3, +3 or 1_0: exactly the numbers in its grammar are accepted, with their value, and any other size is reported.)", "quantifier": "every chunk header line", "why_tests_cant": "The accepted spellings are those of a library number parser, an infinite set.", "anchors": ["httpolice/framing1.py: _parse_chunk"]}
{"id": "C21", "title": "A body with Content-Length is exactly that many bytes", "statement": "When framing is by Content-Length n, the body is exactly the next n bytes; if fewer remain the body is unavailable and 1004 is reported; if n exceeds 2^30 the body is unavailable, 1298 is reported and parsing of the stream stops.", "quantifier": "every n and every stream contents", "why_tests_cant": "All lengths and truncation points.", "anchors": ["httpolice/framing1.py: _process_content_length", "httpolice/stream.py: Stream.read"]}
{"id": "C22", "title": "Response body delimitation follows RFC 7230 section 3.3.3", "statement": "For 101, successful CONNECT, 1xx, 204, 304 and HEAD responses the body is empty and no body byte is consumed whatever the headers say; otherwise Transfer-Encoding takes precedence over Content-Length, and with neither the body is the rest of the stream.", "quantifier": "every response heading, request method and following bytes", "why_tests_cant": "Full cross product of methods, statuses, headers and data.", "anchors": ["httpolice/framing1.py: _parse_response_body"]}
{"id": "C23", "title": "Parsing stops after a protocol switch", "statement": "After a 101 response or a successful response to CONNECT no further request or response is produced from either stream, and remaining bytes are reported by 1007/1010.", "quantifier": "every pair of streams in which this occurs at any point", "why_tests_cant": "Any history before and any bytes after the switch.", "anchors": ["httpolice/framing1.py: parse_streams, _parse_response_body"]}
{"id": "C24", "title": "Framing notices are attributed to the message they occurred in", "statement": "A notice about line endings or folded headers raised while reading a message is reported on that very message and never on another one.", "quantifier": "every pair of streams", "why_tests_cant": "Requires an invariant over all histories of successes and failures of reads.", "anchors": ["httpolice/stream.py: Stream.complain, Stream.dump_complaints", "httpolice/framing1.py"]}
{"id": "C25", "title": "No parsed body exceeds the size limit", "statement": "Every body produced by framing is at most 2^30 bytes long (before any transfer coding other than chunked is undone) unless it is delimited by the end of the connection; a heading line of an accepted message fits in 16 KiB, and a line that does not is refused.", "quantifier": "every pair of streams", "why_tests_cant": "Gigabyte-size inputs cannot be enumerated.", "anchors": ["httpolice/framing1.py: MAX_BODY_SIZE, _process_content_length, _parse_chunk", "httpolice/stream.py: Stream.readline"]}
{"id": "C26", "title": "Framing never raises", "statement": "Consuming the iterable returned by parse_streams never raises an exception, whatever the bytes. (False for a chunk whose size is a number below -1: only that makes it raise, only ValueError, and such a size in the body of the first request always does.)", "quantifier": "every pair of streams", "why_tests_cant": "Fuzzing samples inputs; the claim is for all of them.", "anchors": ["httpolice/framing1.py: parse_streams"]}
{"id": "C27", "title": "Folded header lines are unfolded", "statement": "A header field continued over several lines yields one entry whose value is the pieces joined with single spaces and trimmed, and 1016 is reported (once) on the message exactly when there is a continuation line.", "quantifier": "every number of continuation lines and contents", "why_tests_cant": "Unbounded number of lines.", "anchors": ["httpolice/framing1.py: parse_header_fields"]}
{"id": "C28", "title": "Silencing hides exactly the given notices, whenever it is done", "statement": "After any sequence of complaints and silence calls, the visible notices are exactly those complained about (in the order of first complaint) whose id was never silenced; silencing before or after the complaint makes no difference.", "quantifier": "every sequence of complain and silence operations, on a message or an exchange with its messages", "why_tests_cant": "All interleavings.", "anchors": ["httpolice/blackboard.py: Blackboard.complain, Blackboard.silence, Blackboard.complaints"]}
{"id": "C29", "title": "Identical complaints are reported once", "statement": "Complaining twice about the same notice with the same context adds it once, different contexts are kept apart, and the order of first occurrence is preserved.", "quantifier": "every sequence of complaints", "why_tests_cant": "All sequences.", "anchors": ["httpolice/blackboard.py: Blackboard.complain"]}
{"id": "C30", "title": "HTTPolice-Silence header scope", "statement": "Notices listed without 'resp' in the request's HTTPolice-Silence header are silenced on the request, those with 'resp' on its responses, those in a response's header on that response only; nothing else becomes silenced.", "quantifier": "every set of headers", "why_tests_cant": "All combinations of directives.", "anchors": ["httpolice/message.py: check_message", "httpolice/request.py: check_request", "httpolice/syntax/internal.py"]}
{"id": "C31", "title": "A derived property is computed at most once", "statement": "A derived property of a message evaluates its function at most once per object, returns the same value on every access, and its complaints are reported at most once.", "quantifier": "every sequence of reads", "why_tests_cant": "All access histories.", "anchors": ["httpolice/blackboard.py: derived_property"]}
{"id": "C32", "title": "Final response order is checked", "statement": "Notice 1304 is reported on a response exactly when an earlier response of the same exchange is final, and 1305 is reported on a response exactly when it is a 101, the request expects 100-continue, and no 100 response precedes it.", "quantifier": "every list of responses", "why_tests_cant": "Any number of responses.", "anchors": ["httpolice/response.py: check_responses", "httpolice/exchange.py: check_exchange"]}
{"id": "C33", "title": "Header lookups see every entry, ignoring name case", "statement": "Looking up a header by name in any letter case gives the same view; its entries are exactly the header entries with that name, in order, followed by eligible trailer entries.", "quantifier": "every list of entries and trailer entries, every name", "why_tests_cant": "All lists and spellings.", "anchors": ["httpolice/header.py: HeadersView.__getitem__, HeadersView.enumerate, HeaderView"]}
{"id": "C34", "title": "Single-valued headers: the last value wins and repetition is reported", "statement": "A single-valued header's value is the parse of its last usable entry, and 1013 is reported exactly when there is more than one usable entry.", "quantifier": "every list of entries", "why_tests_cant": "Any number of repetitions.", "anchors": ["httpolice/header.py: SingleHeaderView"]}
{"id": "C35", "title": "List-valued headers: entries concatenate", "statement": "A list-valued header's value is the concatenation, in order, of the values of its entries, so splitting a list over several header lines does not change it.", "quantifier": "every list of entries and every split", "why_tests_cant": "Any number of entries and elements.", "anchors": ["httpolice/header.py: MultiHeaderView"]}
{"id": "C36", "title": "Forbidden trailer fields are ignored", "statement": "A trailer entry whose header must not be sent in a trailer never influences any header value, and 1026 is reported for it.", "quantifier": "every message with trailers", "why_tests_cant": "All combinations of headers and trailers.", "anchors": ["httpolice/header.py: HeaderView._pre_parse"]}
{"id": "C37", "title": "Comparing an absent or malformed header is always false", "statement": "Comparing (==, !=, <, >, <=, >=) a header whose value is absent or malformed with anything gives False; otherwise the comparison is that of the values.", "quantifier": "every header state and comparand", "why_tests_cant": "All values.", "anchors": ["httpolice/header.py: HeaderView._compare"]}
{"id": "C38", "title": "Header lookup never fails", "statement": "Looking up any header name, known or unknown, in any spelling succeeds: the dedicated view classes and the knowledge table agree.", "quantifier": "every field name", "why_tests_cant": "Infinitely many names against a table.", "anchors": ["httpolice/header.py: HeadersView.__getitem__, HeadersView.special_cases", "httpolice/known/__init__.py: HeaderKnowledge", "httpolice/known/header.csv"]}
{"id": "C39", "title": "Merging connections by time loses and reorders nothing within a connection", "statement": "The exchanges produced for several connections are an interleaving of the connections' exchanges: each appears exactly once and the order within each connection is kept.", "quantifier": "every number of connections, every number of exchanges, every combination of known and unknown times", "why_tests_cant": "All interleavings and time assignments.", "anchors": ["httpolice/inputs/streams.py: _rearrange_by_time"]}
{"id": "C40", "title": "Merging by time sorts when times are known", "statement": "If all start times and exchange times are known and non-decreasing within each connection, the merged exchanges come out in non-decreasing time order.", "quantifier": "every such set of connections", "why_tests_cant": "All time assignments.", "anchors": ["httpolice/inputs/streams.py: _rearrange_by_time, _exchange_time"]}
{"id": "C41", "title": "Stream files are paired with their reverse direction and none is lost", "statement": "Recombining one-directional streams puts every stream into exactly one pair, and two streams are paired exactly when they are the two directions of the same connection.", "quantifier": "every set of streams with distinct (connection, source, destination) keys", "why_tests_cant": "All orders and sets of files.", "anchors": ["httpolice/inputs/streams.py: _recombine_streams"]}
{"id": "C42", "title": "Combined files split exactly", "statement": "A combined file made of a preamble, the inbound marker, inbound data, the outbound marker and outbound data is split back into the same preamble, inbound and outbound bytes.", "quantifier": "all contents (that do not themselves contain the markers at the wrong place)", "why_tests_cant": "All byte strings.", "anchors": ["httpolice/inputs/streams.py: parse_combined"]}
{"id": "C43", "title": "Exit status reflects reported notices", "statement": "With --fail-on S, the exit status is non-zero exactly when some unsilenced notice of severity S or higher was reported (or the input could not be read); without it the exit status does not depend on notices.", "quantifier": "every list of exchanges, silence option and threshold", "why_tests_cant": "All lists of exchanges.", "anchors": ["httpolice/cli.py: run_cli"]}
{"id": "C44", "title": "The text report shows every visible notice and nothing else", "statement": "The text report mentions an exchange exactly when it has a visible notice, and lists each visible notice exactly once with its severity letter and id, in order of message.", "quantifier": "every list of exchanges", "why_tests_cant": "All lists.", "anchors": ["httpolice/reports/text.py: text_report"]}
{"id": "C45", "title": "printable() output is always printable and otherwise faithful", "statement": "printable keeps the length, replaces exactly the forbidden code points by U+FFFD, leaves no forbidden code point, and is idempotent.", "quantifier": "every Unicode string", "why_tests_cant": "All strings.", "anchors": ["httpolice/util/text.py: printable"]}
{"id": "C46", "title": "ellipsize() bounds length and keeps a prefix", "statement": "For limits of at least 3 the result is never longer than the limit; short strings are unchanged; long ones become a prefix followed by three dots with exactly the limit's length.", "quantifier": "every string and limit", "why_tests_cant": "All lengths.", "anchors": ["httpolice/util/text.py: ellipsize"]}
{"id": "C47", "title": "Displayed body is bounded and printable", "statement": "The displayable body has at most a bounded number of characters, contains no forbidden code point, and shows the beginning of the body.", "quantifier": "every body", "why_tests_cant": "All bodies.", "anchors": ["httpolice/message.py: displayable_body"]}
{"id": "C48", "title": "Character-set descriptions denote exactly the set", "statement": "The ranges used to describe expected characters cover exactly the characters of the set.", "quantifier": "every set of bytes", "why_tests_cant": "2^256 sets.", "anchors": ["httpolice/util/text.py: _char_ranges, format_chars"]}
{"id": "C49", "title": "Duplicate detection is exact", "statement": "duplicates(xs) yields exactly the elements that occur more than once, each once.", "quantifier": "every list", "why_tests_cant": "All lists.", "anchors": ["httpolice/util/data.py: duplicates"]}
{"id": "C50", "title": "Multi-valued parameter maps behave as ordered multimaps", "statement": "Lookup by name gives the first value, getall gives all values in order, membership is presence of a pair, duplicates are exactly the names with several values, index is the position of the first.", "quantifier": "every sequence of pairs and name", "why_tests_cant": "All sequences.", "anchors": ["httpolice/structure.py: MultiDict"]}
{"id": "C51", "title": "Case-insensitive strings form an equivalence compatible with hashing", "statement": "Equality of case-insensitive strings is reflexive, symmetric and transitive, equal ones have equal hashes, and prefix/suffix tests ignore case.", "quantifier": "all strings", "why_tests_cant": "Algebraic laws over all strings.", "anchors": ["httpolice/structure.py: CaseInsensitive"]}
{"id": "C52", "title": "CGI headers and pseudo-headers are converted faithfully", "statement": "headers_from_cgi yields one entry per HTTP_* variable (plus content type and length when non-empty) with underscores turned to dashes; pop_pseudo_headers removes exactly the entries whose names start with a colon, keeping the rest in order.", "quantifier": "every environment and list of entries", "why_tests_cant": "All mappings.", "anchors": ["httpolice/helpers.py: headers_from_cgi, pop_pseudo_headers"]}
{"id": "C53", "title": "Content codings are undone in reverse order, stopping at the first failure", "statement": "The decoded body is obtained by undoing the content codings from last to first; at the first coding that cannot be undone the decoded body is unavailable, at most one notice (1036 or 1037) is reported, and no further decoder is run.", "quantifier": "every list of codings, every body, every decoder behaviour", "why_tests_cant": "All lists and decoder outcomes.", "anchors": ["httpolice/message.py: Message.decoded_body"]}
{"id": "C54", "title": "Every reported notice exists", "statement": "Every notice id that any check can report has an entry in the notice catalogue, so complaining never fails with a lookup error.", "quantifier": "every execution of the checks", "why_tests_cant": "All executions.", "anchors": ["httpolice/notice.py: all_notices", "httpolice/blackboard.py: Blackboard.complain"]}
{"id": "C55", "title": "Anonymous ids in the HTML report are unique", "statement": "Distinct objects get distinct anonymised ids, the same object always gets the same id, and ids are assigned densely in order of first use.", "quantifier": "every sequence of requests for ids", "why_tests_cant": "All sequences.", "anchors": ["httpolice/reports/html.py: _anonymize_id"]}
{"id": "C56", "title": "Checking an exchange does not raise, apart from three known faults", "statement": "Whatever the headers, bodies, targets and statuses of the messages of an exchange are, check_exchange returns, unless a library function raises something unexpected, or one of three things is in the messages: a Link header whose parameters cannot be processed, a 451 response with a rel parameter that cannot be read, or a Date and Age that together lead beyond the year 9999. In particular it never fails with TypeError, AttributeError or the like because a check uses a header value of an unexpected kind. The Link header and the Age always do stop it.", "quantifier": "all exchanges, all behaviours of the libraries", "why_tests_cant": "Every combination of header values would have to be tried; each check relies on the kinds of values that the grammar of each header can produce.", "anchors": ["httpolice/exchange.py: check_exchange", "httpolice/response.py: check_response, from_cache, stale", "httpolice/request.py: check_request", "httpolice/message.py: check_message"]}
{"id": "C57", "title": "Early hints are exempt from checks on final headers", "statement": "On a 103 response only the checks that make sense for early hints are applied: no notice about the body as an instance of its type, about framing, caching, connection options or preferences of a complete response is ever reported on it, whatever headers it carries.", "quantifier": "every 103 response", "why_tests_cant": "All header sets.", "anchors": ["httpolice/message.py: check_message", "httpolice/response.py: check_response_itself, check_response_in_context"]}
{"id": "C58", "title": "HTTP dates are understood correctly", "statement": "Each of the three HTTP-date formats is turned into the calendar date and time it spells, impossible dates are reported with 1222/1223 as unavailable, and 1108 is reported exactly when the weekday does not match.", "quantifier": "every date string", "why_tests_cant": "All dates.", "anchors": ["httpolice/syntax/rfc7231.py: HTTP_date, _to_date, _to_datetime, _check_day_of_week"]}
{"id": "C59", "title": "Cleanly parsed traffic was on the wire", "statement": "parse_streams yields a given list of exchanges without any framing error if and only if the two streams are exactly a serialization of that conversation: nothing is invented, dropped, reordered or attributed to the wrong offset.", "quantifier": "every pair of streams and every list of exchanges", "why_tests_cant": "Relates all inputs to all outputs; tests compare a few recorded files.", "anchors": ["httpolice/framing1.py: parse_streams, _parse_request, _parse_responses"]}
{"id": "C60", "title": "The context named in a parse error is right", "statement": "Each symbol that a parse error names as the place where a character was expected is marked as a pivot, can begin at some offset of the readable prefix, and reaches over the error position with any of the characters expected there.", "quantifier": "every productive grammar, rejected input, expected character and named symbol", "why_tests_cant": "Needs all charts; the upward search is cut off by a stack check.", "anchors": ["httpolice/parse.py: _build_parse_error, _find_pivots"]}
{"id": "C61", "title": "Captured files are recognised as requests or responses by their contents", "statement": "Of two captured files, the one that begins with a status line is read as responses and the other as requests, whichever was given first; if neither does, the one that begins with a request line is read as requests; a single file is read as what it looks like, after notice 1278; data that look like neither are not read and are reported with 1279.", "quantifier": "every pair of files with any contents", "why_tests_cant": "The contents are arbitrary bytes and the order of files in a directory is arbitrary.", "anchors": ["httpolice/inputs/streams.py: _sniff_direction, _sniff_outbound, _sniff_inbound, _path_pairs_input"]}
{"id": "C62", "title": "Delimiters inside quoted strings are reported exactly", "statement": "In headers whose quoted strings must not contain a comma (semicolon), a notice is attached to a field exactly when some text inside its parsed value contains that character; in other headers it never is.", "quantifier": "every message, field and parsed value", "why_tests_cant": "Values are nested arbitrarily deep; tests use a few fields.", "anchors": ["httpolice/header.py: HeaderView._check_quoted_delims, HeaderView._pre_parse"]}
{"id": "C63", "title": "Repeated and misplaced parameters of Forwarded are reported exactly", "statement": "In the value of a Forwarded field, a repeated-parameter notice is reported for a name exactly when some one element has that name twice (in any letter case); the wrong-delimiter notice is reported exactly when there are several elements, each with one parameter, and no name occurs twice among all of them.", "quantifier": "every list of elements with any names", "why_tests_cant": "Unbounded numbers of elements and parameters.", "anchors": ["httpolice/header.py: ForwardedView._process_parsed"]}
{"id": "C64", "title": "Every parsed header value has its documented shape", "statement": "For each known header the value that parsing a field yields has the shape its documentation gives: a text, a list of names, a list of parametrized names, a product with a version, a date and so on, with Unavailable only where it is documented.", "quantifier": "every known header and every field value that can be parsed", "why_tests_cant": "Values come out of all derivations of an ambiguous-looking grammar; tests parse a few strings per header.", "anchors": ["httpolice/known/header.py: syntax_for", "httpolice/syntax/*.py", "httpolice/parse.py: parse", "httpolice/header.py: HeaderView._pre_parse"]}
{"id": "C65", "title": "Parsing a header field never raises", "statement": "No text of a header field makes the code that computes its value raise an exception, for any known header. (False for Link: exactly which parameters without a value make it raise is characterised.)", "quantifier": "every known header and every field value", "why_tests_cant": "A crash needs a combination of optional parts that nobody thought of; tests cover the thought-of ones.", "anchors": ["httpolice/syntax/*.py", "httpolice/syntax/rfc8288.py: _process_params", "httpolice/syntax/rfc7838.py: _check_alt_authority"]}
{"id": "C66", "title": "Arguments of directives are judged as documented", "statement": "In Cache-Control, Strict-Transport-Security, Alt-Svc, Prefer, Preference-Applied and Forwarded, each name[=argument] pair is judged by what is known of the name in any letter case: a missing required argument is reported with 1156, a forbidden one with 1157, a malformed one with 1158 (and then the argument is unavailable), otherwise the argument is its parsed value, or as written if nothing is known of its syntax; 1154/1155 are reported exactly when a cache directive is written in the other form than the preferred one. Looking up a directive gives the argument of the first one of that name in any letter case, True if it has none, and None if there is no such directive.", "quantifier": "every table of knowledge, pair, argument and field value", "why_tests_cant": "Arbitrary names, arguments and numbers of directives.", "anchors": ["httpolice/header.py: ArgumentsView, DirectivesView, CacheControlView, PreferView", "httpolice/known/__init__.py: ArgumentKnowledge, CacheDirectiveKnowledge"]}
{"id": "C67", "title": "Every notice is reported exactly when the condition for it holds", "statement": "Checking an exchange reports a notice about a request, a response, a response in the context of its request, or the order of responses only if the documented condition for that notice holds (for instance 1070 only if the request has no User-Agent); and if checking returns, every notice whose condition holds has been reported, on the right message and with the right context. All other notices reported come from reading some header of some message of the exchange, and all notices that reading any header gives are reported. No notice number is used for both.", "quantifier": "every exchange (any request, any number of responses, any headers and bodies), every behaviour of the libraries called, every notice number", "why_tests_cant": "There are about two hundred notices with conditions over headers, bodies, methods, statuses and each other; tests give each of them one or two exchanges and cannot show that no other exchange triggers it or misses it.", "anchors": ["httpolice/exchange.py: check_exchange", "httpolice/request.py: check_request", "httpolice/response.py: check_responses, check_response_itself, check_response_in_context", "httpolice/message.py: check_message"]}
{"id": "C68", "title": "A HAR file becomes one exchange for each entry, as the file says", "statement": "For HAR files with the documented members, har_input yields one exchange per entry, in the order of files and entries, and ends normally. The request has the entry's method, the scheme of its URL, its headers without HTTP/2 pseudo-headers, and as target the authority for CONNECT, the path and query if there is a Host header, and the whole URL otherwise. Its version is the one given, unless a browser wrote the file. A body is empty, unavailable or unknown according to the sizes given, and its text is what postData or content give. A status of 0 means no response. Fiddler's debugging additions to CONNECT are left out.", "quantifier": "every list of files, every entry in them, every creator, any numbers of headers", "why_tests_cant": "Sizes, encodings, creators, methods and statuses combine in hundreds of ways that the recorded sample files do not cover.", "anchors": ["httpolice/inputs/har.py: har_input, _process_entry, _process_request, _process_response, _process_message"]}
{"id": "C69", "title": "A HAR file that cannot be understood gives InputError after the exchanges before it", "statement": "If the members that are present in the entries of HAR files have the documented types, then whatever else is missing or wrong, har_input ends normally or with InputError. (False in general: a member of another type can make it raise AttributeError or ValueError.) It has then yielded exactly the exchanges of the entries before the bad one: what an entry or a file gives does not depend on what comes before or after it.", "quantifier": "every list of files, every JSON value in them", "why_tests_cant": "Any part of a JSON document can be missing or of another type.", "anchors": ["httpolice/inputs/har.py: har_input", "httpolice/inputs/common.py: InputError"]}
{"id": "C70", "title": "Nothing in an exchange from a HAR file is made up", "statement": "Whatever the JSON, every exchange that har_input yields comes from an entry of one of the files such that the method, the reason and each header are those of the entry; a version is only known if the entry gives one that starts with HTTP/ and the creator is not a browser; a body is only known if it is empty and the entry says so (a size of 0, status 304, or Fiddler's CONNECT); it is only unavailable, rather than unknown, if a size above 0 is given; decoded data comes only from Base64 text that the entry gives, and text only from text without an encoding; there is no response if and only if the status is 0.", "quantifier": "every list of files, every JSON value in them, every exchange yielded", "why_tests_cant": "Any JSON document.", "anchors": ["httpolice/inputs/har.py: _process_request, _process_response, _process_message"]}
{"id": "C71", "title": "Looking at a checked exchange adds no notices", "statement": "After check_exchange has returned, whatever is then looked up in a message of the exchange (its displayable body, its decoded body, its body as text or as JSON, its charset, any header by name), every notice that this gives rise to has already been reported on the same object with the same context. So the lists of notices, and therefore the report and the exit status, do not depend on what is looked at, how often and in which order.", "quantifier": "every exchange, every message of it, every lookup, every sequence of repeated complaints", "why_tests_cant": "Properties of messages are computed lazily and complain as a side effect; whether anything is left to complain about depends on all headers and bodies.", "anchors": ["httpolice/message.py: Message.decoded_body, unicode_body, json_data, displayable_body", "httpolice/header.py: HeadersView, HeaderView", "httpolice/blackboard.py: Blackboard.complain", "httpolice/reports/html.py: _render_message"]}
{"id": "C72", "title": "The HTML report shows the values of headers as they were sent", "statement": "The annotated value of a header entry, as annotated_header_entries and annotated_trailer_entries give it, consists of pieces of the text that was sent and of objects such as methods and media types, and each object has exactly the text that stands in its place. So what the HTML report shows for an entry is the text that was sent, with characters that cannot be shown replaced. (False for Warning, where zeros that a warn code begins with are not shown.)", "quantifier": "every header name, known or not, every value, in headers or trailer, whether or not it could be parsed", "why_tests_cant": "The objects are made by several hundred grammar rules with arbitrary actions, some of which pass on objects of other rules; an object with another text than it was made of would show a value that nobody sent.", "anchors": ["httpolice/parse.py: _splice_annotations, parse", "httpolice/header.py: HeaderView._pre_parse", "httpolice/message.py: annotated_header_entries, annotated_trailer_entries", "httpolice/reports/html.py: _render_annotated, _render_known"]}
{"id": "C73", "title": "The HTML report lists each visible notice once, at its message, and is written to the end", "statement": "As far as the HTML report is written, it has one element of the class exchange for each exchange that has messages or visible notices, in order; in it one section for the request and for each response, in order; in each section, in order, exactly one element of the class notice for each visible notice on that message, with the class of its severity and its id; and after the sections one for each visible notice on the exchange. Nothing else in the report has the class notice. If the exchanges were checked (without an exception), bodies have the documented types, the libraries behave and the visible notices on messages are ones that the checks reported, the report is written to the end: every text of every notice, every reference in it, every body and every header can be shown.", "quantifier": "every list of exchanges, every set of visible notices, all texts and contexts of the notices", "why_tests_cant": "There are about 200 notices with references into messages of any content; a reference that cannot be resolved, or a message that cannot be displayed, loses all the rest of the report.", "anchors": ["httpolice/reports/html.py: html_report, _generate_exchange_divs, _render_request, _render_response, _render_message, _render_complaints, _notice_to_html, _piece_to_html", "httpolice/notice.py: Notice, Paragraph, Ref, Cite", "httpolice/notices.xml", "httpolice/reports/common.py: resolve_reference, expand_piece, expand_error"]}
{"id": "C74", "title": "Nothing from messages becomes markup in the HTML report", "statement": "The HTML report consists of elements of 14 kinds with six attributes. The values of ids and references are numbers; classes are of 13 kinds; links lead only to addresses that HTTPolice comes with, all of them http or https without characters that need quoting; titles are severities or come with HTTPolice. Text from messages is only in the texts of elements. These have no control characters, surrogates or noncharacters, whatever the messages contain.", "quantifier": "every list of exchanges, every content of messages, every set of visible notices", "why_tests_cant": "An attacker chooses the messages; one path by which text gets into an attribute or an element is enough.", "anchors": ["httpolice/reports/html.py: _render_known, _render_message, _piece_to_html, _for_object, _referring_to", "httpolice/util/text.py: printable", "httpolice/message.py: displayable_body"]}
{"id": "C75", "title": "The list of all notices is complete and in order", "statement": "list_notices writes, in the order of ids, exactly one element for each notice, with its severity, its id and an anchor that is its id.", "quantifier": "every notice of the catalogue, whatever ids placeholders get", "why_tests_cant": "A text of a notice that cannot be rendered without a context would end the list.", "anchors": ["httpolice/reports/html.py: list_notices, Placeholder", "httpolice/notices.xml"]}
{"id": "C76", "title": "The HTML report shows every part of every message", "statement": "As far as the HTML report is written, each exchange has a section for its request and one for each response, in order, and each section shows that message: in its first line the method, the target and the version (or the version, the status and the reason, the usual one if none was sent); then exactly one line for each header and after the body for each trailer, in order, with its name, a colon and its value as it was sent; and the displayable body, with a remark on how it was made, or with a remark that it is unknown or cannot be inspected, or nothing if it is empty. Each of these elements is marked with the number of the object that it stands for. Only characters that cannot be shown are replaced. (Zeros before warn codes are left out, see above.)", "quantifier": "every list of exchanges, every message, every set of visible notices", "why_tests_cant": "What is shown depends on versions, reasons, annotated headers, trailers and bodies that may each be absent; a missing or repeated header would mislead whoever looks for the cause of a notice.", "anchors": ["httpolice/reports/html.py: _generate_exchange_divs, _render_request, _render_response, _render_message, _render_header_entries, _render_annotated, _render_known", "httpolice/message.py: displayable_body, annotated_header_entries, annotated_trailer_entries"]}
{"id": "C77", "title": "References in the HTML report lead to the parts of the messages that notices are about", "statement": "As far as the HTML report is written, the element for each visible notice on a message has exactly the references that the texts of that notice have, in order, and each reference gives the numbers of what it is about: for a path to the method, the target, the version, the status or the body of the message, of its request or of another response, the number of that part of that message; for a header (by a path, by a detail of the notice, or by its name in the text), the numbers of exactly its usable entries in that message, or of the last one if the header should occur once; for entries, their numbers; for a method or a status in the text, that of the request or the response if it has this method or status, and none otherwise; and none where the text says so. Every reference is one of these or leads to another value. These numbers are those with which the report marks the displayed parts.", "quantifier": "every list of exchanges, every set of visible notices with any contexts", "why_tests_cant": "Mouseover highlights are made of about 400 references in about 200 notices, resolved at run time in exchanges of any content; a wrong one silently blames the wrong header.", "anchors": ["httpolice/reports/html.py: _reference_ids, _for_object, _referring_to, _magic_references, _notice_to_html, _piece_to_html", "httpolice/reports/common.py: resolve_reference", "httpolice/header.py: HeaderView.entries", "httpolice/notices.xml"]}
{"id": "C78", "title": "The HTML report and the text report give each notice the same title", "statement": "For each visible notice on a message, the title in the HTML report, with white space stripped and typographic characters replaced, is what follows the letter of the severity and the id on the line for this notice in the text report; whenever the HTML report can show the notice, the text report can.", "quantifier": "every list of exchanges, every set of visible notices with any contexts", "why_tests_cant": "The two reports render titles by separate code, which dispatches on the types of what titles refer to.", "anchors": ["httpolice/reports/text.py: _write_complaint_line, _piece_to_text", "httpolice/reports/html.py: _notice_to_html, _piece_to_html, _render_known", "httpolice/reports/common.py: expand_piece, resolve_reference"]}
{"id": "C79", "title": "Names in the HTML report link to what defines them", "statement": "As far as the HTML report is written, the method or status of each message, the name of each header, and each object in its value (media types, codings, cache directives and so on) is shown as a link exactly if HTTPolice's tables have a citation for it; then the link leads to the address of that citation, and its title is the title in the table followed by that of the citation in parentheses, or one of them if there is only one. Names are looked up without regard to case exactly where they are case-insensitive. The tables have no two rows for one name.", "quantifier": "every list of exchanges, every message, every annotated value", "why_tests_cant": "The tables have some 800 rows, and which one is found depends on the class of an object and on case.", "anchors": ["httpolice/reports/html.py: _render_known, _render_annotated, _render_header_entries, _render_request, _render_response", "httpolice/known/__init__.py: get, citation, title", "httpolice/known/*.csv", "httpolice/citation.py: RFC, Citation", "httpolice/structure.py: CaseInsensitive"]}
{"id": "C80", "title": "The order of header fields with different names and the case of their names do not matter", "statement": "If an exchange is changed by moving fields past fields with other names (within the header or within the trailer of a message) and by changing the case of letters in field names, then check_exchange returns on both or on neither; if it does, the same ids become silenced, and each message gets the same notices, about the same values and the same fields and headers wherever they have moved. The exceptions are notice 1032, which is about whether Host is the first field, and which of several headers notice 1200 points to.", "quantifier": "every exchange, every rearrangement of its fields, every behaviour of the libraries", "why_tests_cant": "RFC 7230 3.2.2 says that such order is not significant; there are about 200 checks, each of which looks up headers and goes through them in some way.", "anchors": ["httpolice/exchange.py: check_exchange", "httpolice/message.py: check_message", "httpolice/request.py: check_request", "httpolice/response.py: check_response", "httpolice/header.py: HeadersView, HeaderView._enumerate_entries", "httpolice/structure.py: CaseInsensitive"]}
{"id": "C81", "title": "The HTML report explains parse errors correctly", "statement": "When a header value does not conform to its syntax, the explanation in the HTML report has, in order: the offset of the error, which is the number of bytes that can be continued to a conforming value, while no more of the value can be; the byte found there, or the end of data; and the alternatives, no two of them alike. A byte is in one of the described alternatives exactly if some conforming value continues with it, and 'end of data' is an alternative exactly if the value conforms when cut there. Each alternative other than the end of data names, without repetitions, parts of the grammar that can be there with this byte as a part of them, and at least one if the whole is something with a name, as all known headers are.", "quantifier": "every symbol of the grammar, every sequence of bytes that it does not accept, every order in which sets are gone through", "why_tests_cant": "Explanations are put together from the state of the parser, grouped by their text; there are infinitely many wrong values, and a wrong explanation is only seen by a user who follows it.", "anchors": ["httpolice/parse.py: _build_parse_error, _find_pivots, Terminal.chars, ParseError", "httpolice/util/text.py: format_chars, _char_ranges", "httpolice/reports/common.py: expand_error, expand_parse_error", "httpolice/reports/html.py: _exc_to_html, _cite_to_html"]}
{"id": "C82", "title": "Parsed values compare, order and count as true in one definite way", "statement": "Two parsed values are equal exactly if they are texts that are the same, letter by letter, up to case if either is of a case-insensitive kind (media types, field names, codings and so on) and exactly otherwise (methods, versions, products); or equal numbers (truth values are 0 and 1, a quality is the fraction that its digits say, without rounding); or the same moment; or tuples, lists or multi-valued dictionaries that are equal component by component; or unavailable values that wrap equal texts; or one is not a tuple and the other is a value with parameters, or a warning, whose item (code) equals the former; or the very same value of another kind. A value counts as false exactly if it is nothing, an empty text, sequence or dictionary, or zero; an unavailable value is true. Only two numbers or two moments can be ordered, and then they are ordered as numbers are.", "quantifier": "every two parsed values, of any depth", "why_tests_cant": "All checks are written with these comparisons; types with their own equality meet in any combination, also nested.", "anchors": ["httpolice/structure.py: Unavailable, Parametrized, MultiDict, ProtocolString, CaseInsensitive, WarningValue, WarnCode", "httpolice/parse.py: parse"]}
{"id": "C83", "title": "Framing and checks agree on Content-Length and Transfer-Encoding", "statement": "The Content-Length by which the body of a message is delimited is the one that the checks then see: the framing finds none exactly if the value of the header is nothing, finds the number n exactly if that value is n, and otherwise the value is unavailable. The transfer codings that the framing undoes are, element by element, those in the value of Transfer-Encoding that the checks see, with an unreadable element where the value has an unavailable one. Both hold whatever is in the trailer that the framing adds afterwards.", "quantifier": "every list of header fields, every trailer, every behaviour of the parser that conforms to the grammar", "why_tests_cant": "Framing and checks read the headers at different moments, before and after the trailer is added, through a cache that is rebuilt in between; the values are any bytes.", "anchors": ["httpolice/framing1.py: _process_content_length, _parse_request_body, _parse_response_body, _parse_chunked", "httpolice/message.py: Message.rebuild_headers", "httpolice/header.py: HeadersView, HeaderView._enumerate_entries"]}
{"id": "C84", "title": "Traffic given as bytes is checked as the exchanges in it would be if made by hand", "statement": "If two streams of bytes (or one of them) are traffic without framing errors, the checked exchanges are exactly those in the traffic, with the same methods, targets, versions, statuses, reasons, fields, trailers and bodies, in order; and a notice is reported on a message of one of them exactly if a rule requires it there or its fields do (whenever the check returns). Whatever the bytes are, what comes out of them can be checked, up to the known exceptions; and no notice with the same id is reported on an exchange both by the framing and by the checks.", "quantifier": "every two sequences of bytes, every URI scheme, every behaviour of the libraries", "why_tests_cant": "It is about all of the program at once: the framing, the parser and all checks.", "anchors": ["httpolice/framing1.py: parse_streams", "httpolice/exchange.py: check_exchange", "httpolice/cli.py: run_cli", "httpolice/request.py: check_request", "httpolice/response.py: check_response"]}
{"id": "C85", "title": "Media types are read as RFC 7231 says", "statement": "A Content-Type is accepted exactly if it is a type, a slash and a subtype, followed by any number of parameters after semicolons with optional white space, each a name, an equals sign and a token or a quoted string. The value has the type as written and, in order, the parameters with unquoted values. Notice 1282 is reported exactly if the type is, without regard to case, one of those that HTTPolice knows to be mistaken, with the right one; notice 1017 for each needlessly escaped character.", "quantifier": "every sequence of bytes", "why_tests_cant": "Any number of parameters with any values; quoted strings can contain what looks like other parameters.", "anchors": ["httpolice/syntax/rfc7231.py: media_type, Content_Type, parameter", "httpolice/syntax/common.py: check_media_type", "httpolice/syntax/rfc5789.py: Accept_Patch", "httpolice/parse.py: parse"]}
{"id": "C86", "title": "Ranges are read as RFC 7233 says", "statement": "A Range with the unit 'bytes' (in any case) is accepted exactly if it is a list of 'first-last', 'first-' and '-length'; the value has these numbers in order, and notice 1133 is reported once for each range with last before first. A Content-Range in bytes is accepted exactly if it is 'first-last/length', 'first-last/*' or '*/length'; the value has these numbers, and notice 1148 is reported exactly if last is before first or not before length. With another unit, any visible characters (any ASCII characters) follow.", "quantifier": "every sequence of bytes, numbers of any size", "why_tests_cant": "Numbers and lists are of any length.", "anchors": ["httpolice/syntax/rfc7233.py: Range, Content_Range, byte_range_spec, suffix_byte_range_spec, byte_content_range", "httpolice/parse.py: parse"]}
{"id": "C87", "title": "Weights are read as RFC 7231 says", "statement": "A quality value is accepted exactly if it is 0 or 1, perhaps with a point and up to three digits, which are zeros after 1; the value is that number. An Accept-Encoding or Accept-Charset is a list of codings or charsets (or asterisks), each perhaps with a quality value after ';q=' (in any case, with optional white space around the semicolon); the value has them in order, each with its weight or with nothing.", "quantifier": "every sequence of bytes", "why_tests_cant": "Lists of any length, white space in many places.", "anchors": ["httpolice/syntax/rfc7231.py: qvalue, weight, codings, charset, Accept_Encoding, Accept_Charset", "httpolice/parse.py: parse"]}
{"id": "C88", "title": "Protocol names of alternative services are decoded, and the one right encoding is suggested", "statement": "A protocol name in Alt-Svc is any token. Its value is the bytes it stands for after percent-decoding. Notice 1256 is reported exactly if the name is not the one right way to write these bytes (percent-encoded, with uppercase digits, exactly where they are not allowed in a token or are '%'), and it shows that right way, which stands for the same bytes.", "quantifier": "every sequence of bytes", "why_tests_cant": "Whether a notice is due depends on a round trip through decoding and encoding of any bytes.", "anchors": ["httpolice/syntax/rfc7838.py: protocol_id, _check_protocol_id", "httpolice/parse.py: parse"]}
{"id": "C89", "title": "Cache directives are read as RFC 7234 says", "statement": "A Cache-Control is accepted exactly if it is a list of at least one directive, each a token perhaps followed by an equals sign and a token or a quoted string. The value has, in order, the names and the arguments unquoted, each with whether it was quoted, or nothing where there is no argument.", "quantifier": "every sequence of bytes", "why_tests_cant": "Lists of any length with arguments of any content.", "anchors": ["httpolice/syntax/rfc7234.py: Cache_Control, cache_directive", "httpolice/parse.py: parse, mark"]}
{"id": "C90", "title": "Transfer codings are read as RFC 7230 says", "statement": "A Transfer-Encoding is accepted exactly if it is a list of at least one coding: chunked, compress, deflate or gzip alone, or another token followed by any number of parameters, each after a semicolon with optional white space around it, each a name, an equals sign and a token or quoted string. A TE is such a list, perhaps empty, where the codings may have weights and may be 'trailers', and parameters are not named q. The value has the codings in order with their parameters in order; notice 1015 is reported once for each place beside an equals sign where there is white space.", "quantifier": "every sequence of bytes", "why_tests_cant": "Lists of any length with parameters of any number, white space in many places.", "anchors": ["httpolice/syntax/rfc7230.py: Transfer_Encoding, transfer_coding, transfer_parameter, TE, t_codings, t_ranking, BWS", "httpolice/parse.py: parse"]}
{"id": "C91", "title": "Challenges and credentials are read as RFC 7235 says", "statement": "An Authorization is accepted exactly if it is a scheme alone, or a scheme, at least one space, and a token68 or a list of parameters; a WWW-Authenticate exactly if it is a list of at least one of these. The value has the scheme and the token68 or the parameters in order. Notice 1196 is reported exactly for each realm that is not quoted, 1015 for white space beside an equals sign.", "quantifier": "every sequence of bytes", "why_tests_cant": "Lists inside lists, of any length.", "anchors": ["httpolice/syntax/rfc7235.py: challenge, credentials, auth_param, token68, WWW_Authenticate, Authorization", "httpolice/parse.py: parse"]}
{"id": "C92", "title": "Comments and names of programs are read as RFC 7230 and 7231 say", "statement": "A comment is accepted exactly if it is in balanced parentheses, nested to any depth, with backslashes before any characters. Its value is the text inside without these backslashes, and notice 1017 is reported exactly for each character other than parentheses and the backslash that has one. A User-Agent or Server is a product followed by any number of products and comments, each after white space; notice 1014 is reported for each white space that is not one space, with its length.", "quantifier": "every sequence of bytes, comments nested to any depth", "why_tests_cant": "The depth of nesting is not bounded, and parentheses may be quoted.", "anchors": ["httpolice/syntax/rfc7230.py: comment, quoted_pair, RWS", "httpolice/syntax/rfc7231.py: product, User_Agent, Server", "httpolice/parse.py: parse, recursive"]}
{"id": "C93", "title": "What a client accepts is read as RFC 7231 says", "statement": "An Accept is accepted exactly if it is a list, perhaps empty, of media types or ranges with parameters not named q, each perhaps followed by ';q=', a quality value, and further parameters, which may lack values. The value has them in order, first what belongs to the type and then the weight and what comes after. An Accept-Language is a list of at least one language range (up to eight letters, then any number of groups of up to eight letters and digits after hyphens, or an asterisk), each perhaps with a weight; an Accept-Post is a list of media ranges.", "quantifier": "every sequence of bytes", "why_tests_cant": "Where the parameters of the type end and those of Accept begin depends on their names, at any length.", "anchors": ["httpolice/syntax/rfc7231.py: Accept, media_range, accept_params, accept_ext, Accept_Language", "httpolice/syntax/rfc4647.py: language_range", "httpolice/syntax/w3c_ldp.py: Accept_Post", "httpolice/parse.py: parse"]}
{"id": "C94", "title": "Headers whose parts may be missing are read with the parts that are there", "statement": "A Strict-Transport-Security is accepted exactly if it is directives with semicolons between them, where directives may be missing anywhere; a Forwarded is a list of elements of pairs likewise; a Prefer is a list of preferences with parameters likewise. The value has the directives or pairs that are there, in order (for Prefer also where one is missing). A preference or parameter with an empty value is read as one without a value.", "quantifier": "every sequence of bytes", "why_tests_cant": "Any number of parts in any number of places.", "anchors": ["httpolice/syntax/rfc6797.py: Strict_Transport_Security, directive", "httpolice/syntax/rfc7239.py: Forwarded, forwarded_element, forwarded_pair", "httpolice/syntax/rfc7240.py: Prefer, preference, preference_parameter, Preference_Applied", "httpolice/parse.py: parse"]}
{"id": "C95", "title": "Lists of names are read as such", "statement": "A Connection, Trailer, Content-Encoding or Upgrade is accepted exactly if it is a list of at least one token (in Upgrade, perhaps with a version after a slash), an Allow exactly if it is a list of tokens, perhaps empty; the value has them in order. A Vary may also be an asterisk, and an Accept-Ranges 'none'.", "quantifier": "every sequence of bytes", "why_tests_cant": "Lists of any length.", "anchors": ["httpolice/syntax/rfc7230.py: Connection, Trailer, Upgrade", "httpolice/syntax/rfc7231.py: Allow, Content_Encoding, Vary", "httpolice/syntax/rfc7233.py: Accept_Ranges", "httpolice/parse.py: parse"]}
{"id": "C96", "title": "Hosts are read as RFC 3986 says", "statement": "An IPv4 address is accepted exactly if it is four numbers up to 255, without leading zeros, with dots between them; an IPv6 address exactly if it is eight groups of up to four hexadecimal digits with colons between them, of which the last two may be an IPv4 address, or fewer with a double colon in place of those left out; a host exactly if it is one of these (IPv6 in brackets, perhaps with a zone), a future address in brackets, or a name with percent-encodings. An authority may have user information and a port, a Host header a port. The value is the text as it is, and no notice is reported.", "quantifier": "every sequence of bytes", "why_tests_cant": "The code lists nine shapes of IPv6 addresses, each with bounds on the number of groups; a wrong bound shows only on addresses of that shape.", "anchors": ["httpolice/syntax/rfc3986.py: IPv4address, dec_octet, IPv6address, h16, ls32, IP_literal, IPvFuture, reg_name, host, userinfo, authority", "httpolice/syntax/rfc6874.py: IPv6addrz, ZoneID", "httpolice/syntax/rfc7230.py: Host, uri_host"]}
{"id": "C97", "title": "URIs and references are read as RFC 3986 says", "statement": "A URI is accepted exactly if it is a scheme, a colon, what locates the resource (two slashes, an authority and a path that is empty or starts with a slash; or a path that does not start with two slashes), perhaps a query, perhaps a fragment. A Location may also be a relative reference, in which nothing before the first slash may contain a colon; a Content-Location or Referer has no fragment. A request target is a path with a query, an absolute URI, an authority or an asterisk. The value is the text as it is, and no notice is reported.", "quantifier": "every sequence of bytes", "why_tests_cant": "Paths of any number of segments, with percent-encodings anywhere; the code splits paths into five kinds that must together cover exactly these texts.", "anchors": ["httpolice/syntax/rfc3986.py: URI, URI_reference, absolute_URI, relative_ref, hier_part, path_abempty, path_absolute, path_noscheme, path_rootless, segment, pchar, query, fragment", "httpolice/syntax/rfc7230.py: request_target, origin_form, absolute_form, authority_form, asterisk_form, partial_URI", "httpolice/syntax/rfc7231.py: Location, Content_Location, Referer"]}
{"id": "C98", "title": "Language tags are read as RFC 5646 says", "statement": "A language tag is accepted exactly if it is: a language of two or three letters with up to three extended subtags, or of four to eight letters; then perhaps a script, perhaps a region, variants, extensions (a single letter or digit other than x, then subtags) and a private part; or a private part alone; or one of the twenty-six tags registered before, in any case. Content-Language is a list of at least one. No notice is reported, and the value is the tag as it is.", "quantifier": "every sequence of bytes", "why_tests_cant": "Tags may have any number of variants, extensions and subtags, and the code's expression of them has bounds in many places.", "anchors": ["httpolice/syntax/rfc5646.py: Language_Tag, langtag, language, extlang, script, region, variant, extension, singleton, privateuse, grandfathered", "httpolice/syntax/rfc7231.py: Content_Language"]}
{"id": "C99", "title": "Encoded parameters and Content-Disposition are read as RFC 8187 and 6266 say", "statement": "An encoded parameter value is a charset, perhaps a language tag, and percent-encoded bytes, with apostrophes between them; its value has the decoded bytes. Notice 1253 is reported exactly if the charset is not UTF-8; otherwise 1254 exactly if the bytes are not the UTF-8 encoding of any sequence of Unicode scalar values. In a Content-Disposition the parameter filename* (in any case) must have such a value, and every other parameter a token or quoted string.", "quantifier": "every sequence of bytes", "why_tests_cant": "Which bytes are UTF-8 (no overlong forms, no surrogates, nothing above U+10FFFF) is a property of all byte sequences.", "anchors": ["httpolice/syntax/rfc8187.py: ext_value, _check_ext_value, value_chars, attr_char, mime_charsetc", "httpolice/syntax/rfc6266.py: content_disposition, disposition_parm, filename_parm, disp_ext_parm"]}
{"id": "C100", "title": "Via and Warning are read as RFC 7230 and 7234 say", "statement": "A Via is accepted exactly if it is a list of at least one element that has a protocol (with HTTP as its name unless it has a slash), white space, a host with a port or a pseudonym, and perhaps white space and a comment; a Warning exactly if it is a list of at least one warning of three digits, an agent, a quoted text and perhaps a date in double quotes, with single spaces between. The values and the notices are those of the parts.", "quantifier": "every sequence of bytes", "why_tests_cant": "Lists of any length of elements with nested comments, quoted strings, hosts and dates.", "anchors": ["httpolice/syntax/rfc7230.py: Via, received_protocol, received_by, pseudonym", "httpolice/syntax/rfc7234.py: Warning_, warning_value, warn_code, warn_agent, warn_text, warn_date"]}
{"id": "C101", "title": "Conditions, dates and numbers are read as such", "statement": "An ETag is one entity tag; an If-Match or If-None-Match an asterisk or a list of at least one; an If-Range a tag or a date; a Retry-After a date or a number. Date, Last-Modified, Expires, If-Modified-Since and If-Unmodified-Since are dates, and Age, Max-Forwards and Access-Control-Max-Age numbers of any length. Each is accepted exactly then, with that value and the notices of its parts.", "quantifier": "every sequence of bytes", "why_tests_cant": "Lists and numbers of any length.", "anchors": ["httpolice/syntax/rfc7232.py: ETag, If_Match, If_None_Match, If_Modified_Since, If_Unmodified_Since, Last_Modified, entity_tag", "httpolice/syntax/rfc7233.py: If_Range", "httpolice/syntax/rfc7231.py: Retry_After, Date, Max_Forwards", "httpolice/syntax/rfc7234.py: Age, Expires", "httpolice/syntax/whatwg_fetch.py: Access_Control_Max_Age"]}
{"id": "C102", "title": "Origins and fields of few values are read as such", "statement": "An Origin is accepted exactly if it is a scheme, a colon, two slashes and a host, perhaps with a port, or 'null'; an Access-Control-Allow-Origin may also be an asterisk. The other Access-Control headers are lists of names of the right kind. Access-Control-Allow-Credentials and Cross-Origin-Resource-Policy have their values in this case only, X-Content-Type-Options and Expect in any. A Pragma is a list of no-cache, in any case, and of other directives.", "quantifier": "every sequence of bytes", "why_tests_cant": "It must hold of every string that none but these is accepted.", "anchors": ["httpolice/syntax/whatwg_fetch.py", "httpolice/syntax/rfc7234.py: Pragma, pragma_directive, extension_pragma", "httpolice/syntax/rfc7231.py: Expect", "httpolice/syntax/rfc7838.py: Alt_Used", "httpolice/syntax/rfc7540.py: HTTP2_Settings"]}
{"id": "C103", "title": "The header that silences notices is read as documented", "statement": "An HTTPolice-Silence is accepted exactly if it is a list, perhaps empty, of numbers each perhaps followed by white space and 'resp' in any case; its value has the numbers in order, each with whether it is for the response.", "quantifier": "every sequence of bytes", "why_tests_cant": "Lists of any length.", "anchors": ["httpolice/syntax/internal.py: HTTPolice_Silence, notice_id, resp"]}
{"id": "C104", "title": "Forwarded nodes, scopes and relation types are read as such", "statement": "The node of a Forwarded is an address, 'unknown' or an underscore and a name, perhaps with a port of one to five digits or an underscore and a name. A scope is tokens without quotes or backslashes, with one space between them. A rel is relation types, each a registered name in small letters or a URI, with spaces between them; hreflang is a language tag and anchor a reference.", "quantifier": "every sequence of bytes", "why_tests_cant": "Any number of elements of any length.", "anchors": ["httpolice/syntax/rfc7239.py: node, nodename, node_port, port, obfnode, obfport", "httpolice/syntax/rfc6749.py: scope, scope_token", "httpolice/syntax/rfc8288.py: rel, relation_type, reg_rel_type, ext_rel_type, hreflang, anchor"]}
{"id": "C105", "title": "Arguments of directives, preferences and parameters are read as their specifications say", "statement": "For every cache directive, Strict-Transport-Security directive, Alt-Svc parameter, preference and Forwarded parameter that is known to have an argument with a syntax, the argument is accepted exactly if it is what the RFC says: a number of any length for max-age, max-stale, min-fresh, s-maxage, stale-if-error, stale-while-revalidate, ma and wait; a list of field names for no-cache and private; '1' for persist; one of two words for handling and return; a node for by and for, a host and port for host, a scheme for proto. No other argument has a syntax.", "quantifier": "every name in the tables and every sequence of bytes", "why_tests_cant": "Arguments of any length, for all entries of the tables, and that there are no others.", "anchors": ["httpolice/known/cache_directive.csv", "httpolice/known/hsts_directive.csv", "httpolice/known/alt_svc_param.csv", "httpolice/known/preference.csv", "httpolice/known/forwarded_param.csv", "httpolice/header.py: ArgumentsView._process_pair", "httpolice/syntax/rfc7234.py: delta_seconds, no_cache, private", "httpolice/syntax/rfc7240.py: handling, return_, wait"]}
{"id": "C106", "title": "Alt-Svc is read as RFC 7838 says", "statement": "An Alt-Svc is accepted exactly if it is 'clear' in small letters, or a list of at least one alternative of a protocol, '=', a quoted string and parameters. The protocol is decoded as in C88. The content of the quoted string is kept if it is a host (perhaps empty), a colon and digits; else the alternative is kept with an unavailable authority and notice 1257.", "quantifier": "every sequence of bytes", "why_tests_cant": "What is inside the quoted string is parsed again, and can be any string.", "anchors": ["httpolice/syntax/rfc7838.py: Alt_Svc, alt_value, alternative, alt_authority, _check_alt_authority, protocol_id, parameter", "httpolice/parse.py: parse"]}
{"id": "C107", "title": "Link is read as RFC 8288 says", "statement": "A Link is accepted exactly if it is a list, perhaps empty, of references in angle brackets with parameters, each a name and perhaps '=' and a token or quoted string. The second rel, media, title, title* or type is left out with notice 1225. Of the other parameters those named anchor, rel, rev, hreflang, type or title*, in any case, are read as references, relation types, language tags, media types and encoded values, with the notices of these; what cannot be read is kept as unavailable with notice 1158. Notice 1307 comes with a title if the last value kept was a token, 1308 with an hreflang if it was a quoted string, 1226 with each rev, 1309 if there is no rel. The parser fails exactly if a parameter of those named, or a title before any value, lacks a value.", "quantifier": "every sequence of bytes, and any number of parameters in any order", "why_tests_cant": "What is said of a parameter depends on all before it, and its value is parsed again.", "anchors": ["httpolice/syntax/rfc8288.py: Link, link_value, link_param, _process_params, rel, type_, hreflang, anchor", "httpolice/syntax/rfc6838.py: restricted_name, type_name, subtype_name", "httpolice/parse.py: parse"]}
{"id": "C108", "title": "Every known header is read as its specification says", "statement": "Each of the 68 headers whose values are parsed is accepted exactly if it is what one table of specifications says under its name, with the value and the notices that this says; and every header in that table is parsed.", "quantifier": "every header in the table and every sequence of bytes", "why_tests_cant": "One of many headers might be given the syntax of another, and all strings must be tried to see the difference.", "anchors": ["httpolice/known/header.csv", "httpolice/known/__init__.py: syntax_for", "httpolice/header.py: SingleHeaderView, MultiHeaderView", "httpolice/syntax"]}
{"id": "C109", "title": "A header field is reported as malformed exactly if it is not as specified", "statement": "When an exchange has been checked, notice 1000 is reported for a message exactly for those of its fields (in the header, or in the trailer if allowed there) whose name is in the table of specifications, in any case, and whose text is not what the specification under that name allows; each notice refers to its field.", "quantifier": "every exchange, with any number of messages and fields of any length", "why_tests_cant": "It must hold of every text of every header that a notice comes exactly if the text is wrong.", "anchors": ["httpolice/header.py: HeaderView._pre_parse", "httpolice/parse.py: parse", "httpolice/exchange.py: check_exchange", "httpolice/known/header.csv"]}
{"id": "C110", "title": "The value of a header is made of what its fields mean by the specification", "statement": "For every known header whose fields need no further processing, the value that the API gives is that of the last field (for headers that occur once), or of all fields one after another (for lists), where each field is worth what its specification says, or is unavailable if it is not as specified; and the notices about how the fields are written are those of the specification, each at its field, and no others.", "quantifier": "every message, with any number of fields of any length", "why_tests_cant": "It joins the parser, the table of headers and the views, for all messages.", "anchors": ["httpolice/header.py: HeaderView, SingleHeaderView, MultiHeaderView", "httpolice/parse.py: parse", "httpolice/known/header.csv"]}
{"id": "C111", "title": "Every notice about the framing of streams can be shown", "statement": "Whatever bytes are framed, each notice that is put on a message while it is framed, and each notice of a complaint box, is in the catalogue; every reference in its text leads to something (the place, the size, the coding, the name of the stream, an attribute of the parse error, the value of Content-Length, the status of the response), and if the text shows an exception there is one. So no report fails for such a notice.", "quantifier": "all byte strings as inbound and outbound streams", "why_tests_cant": "The catalogue and the code that complains are apart; a notice with a wrong keyword only fails on the input that provokes it.", "anchors": ["httpolice/framing1.py: parse_streams, _process_content_length, _parse_chunked, _decode_transfer_coding, _parse_response_body", "httpolice/stream.py: Stream.dump_complaints", "httpolice/notices.xml", "httpolice/reports/common.py: resolve_reference"]}
{"id": "C112", "title": "An error in the framing says which part of a message it is about", "statement": "Each complaint box about a request or response that cannot be framed (notices 1006, 1009), and each notice 1005 on a chunked message, has an error that names a part of a message, and the offset of the error decides which: in a heading it is the request line or status line if the offset is where the heading starts, the message as a whole if the header should end there, and else a header field; in a chunked body it is the size of a chunk if that is not a number, else a chunk, and after the last chunk a header field or the chunked body as a whole. Whatever happens inside, nothing is left over of the parts that were being read. The report shows such an error as the name of the stream, the offset, and what was expected as part of which element of RFC 7230 with its section.", "quantifier": "all byte strings as inbound and outbound streams, all errors, and any nesting of parts that are being read", "why_tests_cant": "The part comes from a stack that is changed at every level and must be restored when any read fails; a test sees one place of failure.", "anchors": ["httpolice/stream.py: Stream.parsing, Stream.__enter__, Stream.__exit__, Stream.error", "httpolice/framing1.py: _parse_request_heading, _parse_response_heading, parse_header_fields, _parse_chunked, _parse_chunk", "httpolice/reports/common.py: expand_parse_error"]}
{"id": "C113", "title": "Arguments of directives and parameters are worth what their specifications say", "statement": "For Cache-Control, Strict-Transport-Security, Prefer, Preference-Applied, Alt-Svc and Forwarded, the value that the API gives is made of what the fields are worth: a field that is not as specified is unavailable and reported with 1000; in any other, each argument is read as the specification under its name says and reported with what this says, is unavailable and reported with 1158 if it is not as specified, with 1156 if it is missing although required and with 1157 if it is given although none is allowed, and is left as text if nothing is specified. Nothing else is reported about arguments. Which names these are is listed for each of the five tables, whatever the case of the name, as is which form of argument is preferred and which directives are for requests or responses only.", "quantifier": "every message, with any number of fields, directives and arguments of any length", "why_tests_cant": "It joins the parser for headers, the parser for arguments, both tables and the views, for all messages.", "anchors": ["httpolice/header.py: DirectivesView, CacheControlView, StrictTransportSecurityView, AltSvcView, PreferView, PreferenceAppliedView, ForwardedView", "httpolice/parse.py: parse", "httpolice/known/cache_directive.csv", "httpolice/known/hsts_directive.csv", "httpolice/known/preference.csv", "httpolice/known/alt_svc_param.csv", "httpolice/known/forwarded_param.csv"]}
{"id": "C114", "title": "What is known of each header is what the specifications say, whatever the case of its name", "statement": "For any name, in any case, exactly the listed headers are taken as: not allowed in a trailer, not allowed as a connection option, not for requests, not for responses, deprecated, a precondition, a means of content negotiation, metadata of a representation, having quoted strings where commas or semicolons are likely misread, occurring once, being a list, and having arguments.", "quantifier": "all strings as names", "why_tests_cant": "There are 223 headers and as many spellings of each as its letters allow, and all other names must have none of the properties.", "anchors": ["httpolice/known/header.csv", "httpolice/known/__init__.py: HeaderKnowledge", "httpolice/structure.py: FieldName"]}
