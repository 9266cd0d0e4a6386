{"id": "C01", "title": "Unsigned integers parse to their exact decimal value", "statement": "For every JSON number consisting only of digits whose value fits in 64 bits, parsing it into a 64-bit unsigned integer yields exactly that value, and leaves the parser positioned on the first byte after the digits. This holds whichever internal path is taken (element already delimited or not, 8/16-digits-at-a-time or one at a time) and whatever follows the number.", "quantifier": "all digit strings of any length with value < 2^64, all buffers and positions containing them, both bounded and unbounded element parsing, constexpr and runtime execution modes", "why_tests_cant": "There are 2^64 values times unboundedly many leading zeros and alignments; the word-at-a-time tricks fail only at particular digit positions.", "anchors": ["include/daw/json/impl/daw_json_parse_unsigned_int.h: parse_8_digits, parse_16_digits, is_made_of_eight_digits_cx, unsigned_parser_known, unsigned_parser_not_known", "include/daw/json/impl/daw_json_parse_value.h: parse_value_unsigned"]}
{"id": "C02", "title": "Range-checked unsigned parsing never returns a wrong number", "statement": "With the CheckForNarrowing option, parsing a number into an unsigned type either returns exactly the number written or throws; it never returns a different number.", "quantifier": "all digit strings, all unsigned target widths 8/16/32/64, bounded and unbounded element parsing", "why_tests_cant": "Overflow shows up only for numerals just above a power of two; tests probe a handful of values per width.", "anchors": ["include/daw/json/impl/daw_json_parse_unsigned_int.h: narrow_cast, unsigned_parser_known, unsigned_parser_not_known"]}
{"id": "C03", "title": "Range-checked signed parsing never returns a wrong number", "statement": "With the CheckForNarrowing option, parsing a number into a signed type either returns exactly the number written or throws.", "quantifier": "all optionally-negative digit strings, all signed target widths 8/16/32/64", "why_tests_cant": "The failing inputs are the ones between the signed and unsigned maxima of a width, which example tests miss.", "anchors": ["include/daw/json/impl/daw_json_parse_value.h: parse_value_signed", "include/daw/json/impl/daw_json_parse_unsigned_int.h: to_signed, narrow_cast"]}
{"id": "C04", "title": "Signed integers parse to their exact value", "statement": "For every integer in the range of a signed target type, parsing its decimal text yields that integer, without undefined behaviour.", "quantifier": "all signed integers of width 8/16/32/64 including the minimum, all positions and following bytes", "why_tests_cant": "The extreme values of each width exercise signed overflow that tests run with optimisation cannot observe.", "anchors": ["include/daw/json/impl/daw_json_parse_value.h: parse_value_signed", "include/daw/json/impl/daw_json_parse_unsigned_int.h: to_signed"]}
{"id": "C05", "title": "Integers serialise to canonical decimal text", "statement": "to_json of an integer writes its canonical decimal representation: an optional minus sign exactly when it is negative, then digits without superfluous leading zeros whose value is the magnitude. The most negative value of every width is included.", "quantifier": "all signed and unsigned integers of width 8/16/32/64", "why_tests_cant": "2^64 inputs; the two-digits-at-a-time table and the reversal fail on particular digit counts or extremes only.", "anchors": ["include/daw/json/impl/to_daw_json_string.h: digits100, reverse, to_json_string_signed, to_json_string_unsigned"]}
{"id": "C06", "title": "Integers survive a serialise/parse round trip", "statement": "For every integer value of every width, parsing the text produced by to_json returns the same integer, whatever bytes follow as long as they are not digits.", "quantifier": "all integers of every supported width, all following non-digit bytes", "why_tests_cant": "The statement relates two separate algorithms over 2^64 values.", "anchors": ["include/daw/json/impl/to_daw_json_string.h: to_json_string_signed, to_json_string_unsigned", "include/daw/json/impl/daw_json_parse_value.h: parse_value_signed, parse_value_unsigned"]}
{"id": "C07", "title": "Only numbers allowed by the JSON grammar are accepted", "statement": "In checked mode, when a number is parsed or skipped successfully, the consumed text is a number of the JSON grammar (no bare minus, no missing digits after the point or exponent, no superfluous leading zero).", "quantifier": "all byte strings", "why_tests_cant": "Rejection must hold for the infinitely many malformed numerals.", "anchors": ["include/daw/json/impl/daw_json_skip.h: skip_number, skip_digits", "include/daw/json/impl/daw_json_parse_policy_policy_details.h: validate_unsigned_first, validate_signed_first"]}
{"id": "C08", "title": "Real numbers are read as the exact decimal they denote before rounding", "statement": "For every real-number text with at most 19 significant digits, the significand and decimal exponent the parser hands to its final scaling step denote exactly the rational number written.", "quantifier": "all JSON real numbers with at most 19 digits in total, with or without fraction and exponent", "why_tests_cant": "Digit grouping and exponent bookkeeping interact with every split of digits between whole, fraction and exponent.", "anchors": ["include/daw/json/impl/daw_json_parse_real.h: parse_real_known, parse_real_unknown, parse_digits_until_last, parse_digits_while_number"]}
{"id": "C09", "title": "Decimal rendering of a real denotes its shortest significand and exponent", "statement": "Given the decimal significand and exponent computed for a floating point value, the text written by to_json denotes exactly significand times ten to the exponent, in automatic, decimal and scientific formats.", "quantifier": "all significands and exponents, all three output formats", "why_tests_cant": "The placement of the point and zero padding is exercised by a two-parameter infinite family.", "anchors": ["include/daw/json/impl/to_daw_json_string.h: to_chars"]}
{"id": "C10", "title": "Escaped string output parses back to the same string", "statement": "For every valid Unicode string, serialising it with escaping and parsing the result as an escaped string returns the original bytes, both with full 8-bit output and with 7-bit restricted output.", "quantifier": "all strings of Unicode scalar values, of any length", "why_tests_cant": "1,112,064 scalars in arbitrary sequences; escape handling interacts across neighbouring characters.", "anchors": ["include/daw/json/impl/to_daw_json_string.h: copy_to_iterator", "include/daw/json/impl/daw_json_parse_std_string.h: parse_string_known_stdstring, decode_utf16"]}
{"id": "C11", "title": "Escaped string output is always a legal JSON string body", "statement": "The text written between the quotes contains no raw control characters, no unescaped quote and no dangling backslash; with 7-bit output every byte is below 0x7F.", "quantifier": "all strings of Unicode scalar values", "why_tests_cant": "Must hold for each of the code points in every context.", "anchors": ["include/daw/json/impl/to_daw_json_string.h: copy_to_iterator, output_hex, to_nibble_char"]}
{"id": "C12", "title": "Unicode escapes decode to the right UTF-8", "statement": "For every Unicode scalar value, the corresponding \\uXXXX escape or surrogate pair, written in any letter case, decodes to the UTF-8 encoding of that scalar.", "quantifier": "all Unicode scalar values, all choices of letter case of each hex digit", "why_tests_cant": "More than a million code points times the letter-case choices.", "anchors": ["include/daw/json/impl/daw_json_parse_std_string.h: to_nibble, byte_from_nibbles, decode_utf16"]}
{"id": "C13", "title": "Malformed unicode escapes are rejected", "statement": "In checked mode, a \\u escape that is not followed by four hex digits, or a surrogate that is not part of a proper pair, makes parsing throw.", "quantifier": "all byte strings used as escape contents", "why_tests_cant": "The negative space of inputs is unbounded.", "anchors": ["include/daw/json/impl/daw_json_parse_std_string.h: to_nibble, byte_from_nibbles, decode_utf16"]}
{"id": "C14", "title": "The end of a string is found exactly", "statement": "For every well-formed JSON string body, the parser finds exactly its closing quote, never an escaped one, and reports the offset of the first backslash (or that there is none), whatever the string's length, alignment and following text.", "quantifier": "all string bodies, all buffers in which they occur", "why_tests_cant": "The 8- and 4-bytes-at-a-time scanning depends on length and the position of each backslash and quote modulo the word size.", "anchors": ["include/daw/json/impl/daw_json_parse_string_quote.h: skip_to_first8, skip_to_first4, parse_nq_check, parse_nq_uncheck", "include/daw/json/impl/daw_json_skip.h: skip_string_nq"]}
{"id": "C15", "title": "String scanning stays inside the document", "statement": "In checked mode, scanning a string in an arbitrary document never reads a byte outside the document; if no closing quote exists it throws.", "quantifier": "all byte strings and all starting positions after an opening quote", "why_tests_cant": "Out-of-bounds reads depend on the unbounded combination of length, escapes and truncation point.", "anchors": ["include/daw/json/impl/daw_json_parse_string_quote.h: parse_nq_check, skip_to_first8, skip_to_first4"]}
{"id": "C16", "title": "Execution modes agree", "statement": "Selecting the runtime execution mode instead of the compile-time one does not change where a string ends or where its first escape is reported.", "quantifier": "all documents and start positions", "why_tests_cant": "Equivalence of two algorithms over all inputs.", "anchors": ["include/daw/json/impl/daw_not_const_ex_functions.h: mem_skip_until_end_of_string", "include/daw/json/impl/daw_json_parse_string_quote.h: parse_nq_check"]}
{"id": "C17", "title": "Skipping a value finds exactly its extent", "statement": "For every well-formed JSON value, of any nesting depth, with any whitespace, skipping it leaves the parser exactly after the value, and the delimited range handed on is exactly the text of the value.", "quantifier": "all JSON values and all their spellings, all buffers in which they occur", "why_tests_cant": "Nesting depth and content are unbounded; brackets inside strings, escapes and counters interact.", "anchors": ["include/daw/json/impl/daw_json_skip.h: skip_value, skip_number, skip_string, skip_true, skip_false, skip_null", "include/daw/json/impl/daw_json_parse_policy_no_comments.h: skip_bracketed_item_checked"]}
{"id": "C18", "title": "The element count of a skipped array is right", "statement": "When a non-empty well-formed array is skipped, the number of separators recorded for it is one less than the number of its elements, so the reported size is exact.", "quantifier": "all well-formed arrays with any nested contents", "why_tests_cant": "Commas nested in strings, arrays and objects must never be counted, at any depth.", "anchors": ["include/daw/json/impl/daw_json_parse_policy_no_comments.h: skip_bracketed_item_checked", "include/daw/json/impl/daw_json_parse_array_iterator.h: operator-"]}
{"id": "C19", "title": "Mismatched brackets are rejected", "statement": "In checked mode, skipping an object or array whose brackets are not properly matched throws.", "quantifier": "all byte strings", "why_tests_cant": "The set of mismatched texts is unbounded.", "anchors": ["include/daw/json/impl/daw_json_parse_policy_no_comments.h: skip_bracketed_item_checked"]}
{"id": "C20", "title": "Checked and unchecked parsing agree on valid documents", "statement": "On every well-formed value, skipping with checks disabled gives the same extent and the same counts as with checks enabled, and never reads outside the document.", "quantifier": "all well-formed JSON values of any depth followed by at least one more byte", "why_tests_cant": "Equivalence of two algorithms over all valid documents.", "anchors": ["include/daw/json/impl/daw_json_parse_policy_no_comments.h: skip_bracketed_item_unchecked, trim_left_unchecked", "include/daw/json/impl/daw_json_skip.h: skip_value", "include/daw/json/impl/daw_json_parse_string_quote.h: parse_nq_uncheck"]}
{"id": "C21", "title": "Skipping arbitrary input is memory safe and terminates", "statement": "In checked mode, skipping a value in an arbitrary byte buffer always terminates and never reads outside the buffer: it either finds an end inside the buffer or throws.", "quantifier": "all byte buffers, all start positions", "why_tests_cant": "A single unlucky truncation point suffices for a violation; the input space is unbounded.", "anchors": ["include/daw/json/impl/daw_json_skip.h: skip_value", "include/daw/json/impl/daw_json_parse_policy_no_comments.h: skip_bracketed_item_checked, trim_left_checked"]}
{"id": "C22", "title": "C++-style comments behave like whitespace", "statement": "With C++-style comments enabled, skipping whitespace and comments before a value stops exactly at the value, for every sequence of whitespace, line comments and block comments.", "quantifier": "all sequences of whitespace and comments with arbitrary comment contents", "why_tests_cant": "Comment contents are arbitrary text, including near-misses of the terminator such as **/.", "anchors": ["include/daw/json/impl/daw_json_parse_policy_cpp_comments.h: skip_comments_checked, trim_left_checked"]}
{"id": "C23", "title": "Hash comments behave like whitespace", "statement": "With hash comments enabled, skipping whitespace and comments before a value stops exactly at the value, for every sequence of whitespace and hash comments, and never reads outside the document.", "quantifier": "all sequences of whitespace and comments with arbitrary comment contents", "why_tests_cant": "Comment contents and truncation points are unbounded.", "anchors": ["include/daw/json/impl/daw_json_parse_policy_hash_comments.h: skip_comments_checked, trim_left_checked"]}
{"id": "C24", "title": "Members of an object may come in any order", "statement": "Parsing an object into a mapped class gives the same result for every ordering of the object's members, for any whitespace between the tokens.", "quantifier": "all mapped classes with distinct names, all objects containing those members, all permutations", "why_tests_cant": "The number of permutations is factorial and the cached-location logic has state that depends on the order seen.", "anchors": ["include/daw/json/impl/daw_json_parse_class.h: parse_json_class, parse_class_member, class_cleanup_now", "include/daw/json/impl/daw_json_location_info.h: find_class_member, find_name"]}
{"id": "C25", "title": "Members that are not mapped are ignored", "statement": "Adding to an object members whose names are not mapped, anywhere and with any values, does not change the parsed result (when exact mapping is not requested).", "quantifier": "all mapped classes, all objects, all additional names and well-formed values", "why_tests_cant": "The additional members are arbitrary JSON; the names are arbitrary strings and only their hashes are compared.", "anchors": ["include/daw/json/impl/daw_json_location_info.h: find_name, find_class_member", "include/daw/json/impl/daw_murmur3.h: name_hash"]}
{"id": "C26", "title": "Missing members are reported, missing optional members are empty", "statement": "If a required member is absent from an object, parsing throws; if an optional member is absent, it is left empty; in both cases the other members are unaffected.", "quantifier": "all mapped classes with any mix of required and optional members, all objects and orders", "why_tests_cant": "Which members are absent and where the others are located is a combinatorial family.", "anchors": ["include/daw/json/impl/daw_json_parse_class.h: parse_class_member", "include/daw/json/impl/daw_json_location_info.h: find_class_member"]}
{"id": "C27", "title": "Duplicate member names are resolved the same way everywhere", "statement": "When an object repeats a mapped name, which occurrence is used does not depend on the order in which the class declares its members.", "quantifier": "all objects with repeated names, all declaration orders", "why_tests_cant": "The outcome depends on the interaction of cached locations and the order of lookups.", "anchors": ["include/daw/json/impl/daw_json_location_info.h: find_class_member, find_name", "include/daw/json/impl/daw_json_parse_class.h: parse_json_class"]}
{"id": "C28", "title": "Arrays are parsed element by element in order", "statement": "Parsing a well-formed array of n elements into a container yields exactly n elements, in order, each being the parse of the corresponding text, and leaves the parser after the closing bracket.", "quantifier": "all arrays of any length with any whitespace around elements", "why_tests_cant": "Length and whitespace are unbounded.", "anchors": ["include/daw/json/impl/daw_json_parse_array_iterator.h: json_parse_array_iterator", "include/daw/json/impl/daw_json_parse_value.h: parse_value_array"]}
{"id": "C29", "title": "Values survive a to_json/from_json round trip", "statement": "For every mapped type built from integers, booleans, escaped strings, optionals, arrays and classes, and for every value of it, from_json applied to the output of to_json returns the value.", "quantifier": "all mapped types in that universe, all values, default and pretty output", "why_tests_cant": "The type universe is recursive and the value space unbounded.", "anchors": ["include/daw/json/impl/to_daw_json_string.h: member_to_string", "include/daw/json/impl/daw_json_parse_value.h: parse_value", "include/daw/json/daw_from_json.h: from_json", "include/daw/json/daw_to_json.h: to_json"]}
{"id": "C30", "title": "Output formatting does not change the meaning of the output", "statement": "For every value, the output with pretty formatting and any indentation or newline option differs from the minified output only by insignificant whitespace, so both denote the same JSON document.", "quantifier": "all mapped types and values, all formatting options", "why_tests_cant": "Formatting is stateful (indentation level) and the nesting depth is unbounded.", "anchors": ["include/daw/json/impl/daw_json_serialize_policy.h: serialization_policy", "include/daw/json/impl/daw_json_serialize_policy_details.h: generate_indent", "include/daw/json/impl/to_daw_json_string.h: to_json_str"]}
{"id": "C31", "title": "Output is well-formed JSON", "statement": "For every value of a mapped type, the text written by to_json with conformant options is a well-formed JSON document.", "quantifier": "all mapped types and values, including absent optionals in any position and ordered classes with index gaps", "why_tests_cant": "Which separators are written depends on which optionals are empty, an exponential family.", "anchors": ["include/daw/json/impl/to_daw_json_string.h: to_json_str, to_json_ordered_str, dependent_member_to_json_str", "include/daw/json/impl/daw_json_serialize_impl.h: serialize_json_class, serialize_ordered_json_class"]}
{"id": "C32", "title": "Writing to a fixed-size span never overruns it", "statement": "Serialising to a fixed-size span either writes the complete output within the span or throws; it never writes outside of it, whatever is written in whatever pieces.", "quantifier": "all spans, all sequences of writes", "why_tests_cant": "The history of writes is unbounded.", "anchors": ["include/daw/json/concepts/daw_writable_output_basics.h: writable_output_trait<span>"]}
{"id": "C33", "title": "Setting an option sets that option and nothing else", "statement": "After setting options on a policy value, reading an option that was set gives the (last) value set, and reading any other option gives its previous value.", "quantifier": "all option lists, all policy values, all option values in range", "why_tests_cant": "Options share one packed word; interference depends on the combination.", "anchors": ["include/daw/json/impl/daw_json_option_bits.h: set_bits, get_bits_for, option_bits_start_impl", "include/daw/json/impl/daw_json_parse_options_impl.h: set_bits, get_bits_for", "include/daw/json/impl/daw_json_serialize_policy_details.h: set_bits, get_bits_for"]}
{"id": "C34", "title": "Options requested when building a policy are in effect", "statement": "When a policy value is built from a list of requested options, each requested option reads back as requested and the others read back as their defaults.", "quantifier": "all option lists used by the library, all requested subsets and values", "why_tests_cant": "The number of combinations is exponential in the number of options.", "anchors": ["include/daw/json/impl/daw_json_option_bits.h: JsonOptionList::options", "include/daw/json/impl/daw_json_serialize_policy.h: serialize_options", "include/daw/json/impl/daw_json_parse_options_impl.h: parse_options", "include/daw/json/impl/daw_json_type_options.h: string_opt"]}
{"id": "C35", "title": "Member lookup never confuses two names", "statement": "A member found by name in an object is a member whose name equals the requested name, for every pair of names.", "quantifier": "all pairs of names (mapped name, name in the document)", "why_tests_cant": "Names are compared by 32-bit hash; a confusion needs a colliding pair.", "anchors": ["include/daw/json/impl/daw_murmur3.h: name_hash, fnv1a_32", "include/daw/json/impl/daw_json_location_info.h: location_info_t, find_name, do_hashes_collide"]}
{"id": "C36", "title": "Iterating a JSON value visits every member once, in order", "statement": "Iterating over a json_value that is a well-formed object or array visits each member or element exactly once in document order, giving its exact name and value, and then compares equal to end.", "quantifier": "all well-formed objects and arrays with any contents and whitespace", "why_tests_cant": "Unbounded length and nesting.", "anchors": ["include/daw/json/impl/daw_json_value.h: json_value_iterator"]}
{"id": "C37", "title": "Lookup by name and index finds what iteration would find", "statement": "find_member by name returns the first member with that name or an empty value if there is none; find_element by index returns the element at that index or an empty value if the index is too large.", "quantifier": "all well-formed objects and arrays, all names and indices", "why_tests_cant": "Relates two access paths over all documents.", "anchors": ["include/daw/json/impl/daw_json_value.h: find_class_member, find_element, find_member"]}
{"id": "C38", "title": "A stateful JSON value answers independently of earlier queries", "statement": "For any sequence of lookups by name and by index and size queries on a json_value_state, each answer is the one a freshly created state would give for that query.", "quantifier": "all documents, all finite histories of queries", "why_tests_cant": "The cache grows with the history; tests exercise a few histories only.", "anchors": ["include/daw/json/daw_json_value_state.h: basic_stateful_json_value::move_to, operator[], size, index_of, contains, at"]}
{"id": "C39", "title": "Negative indices count from the end", "statement": "For an array of n elements and 1 <= k <= n, the lookup with index -k returns element n-k.", "quantifier": "all arrays and all k in range", "why_tests_cant": "An off-by-one at the extreme index is easily missed by examples.", "anchors": ["include/daw/json/daw_json_value_state.h: operator[], at"]}
{"id": "C40", "title": "JSON Lines documents are split exactly", "statement": "Partitioning a JSON Lines document into n parts produces consecutive, non-overlapping ranges that together cover the document except for white space at the end of a part, each boundary directly following a newline or being the end, and never more than n parts, for every requested n.", "quantifier": "all documents, all partition counts", "why_tests_cant": "Depends on the position of newlines relative to the computed split points, unbounded.", "anchors": ["include/daw/json/daw_json_lines_iterator.h: partition_jsonl_document, json_lines_iterator"]}
{"id": "C41", "title": "Line and column numbers of an error are right", "statement": "The reported line number is the number of newlines before the location, and the reported column is the distance from the preceding newline (or the start of the document), both counted from zero, for every location in the document.", "quantifier": "all documents and locations", "why_tests_cant": "Unbounded documents.", "anchors": ["include/daw/json/daw_json_find_path.h: find_line_number_of, find_column_number_of"]}
{"id": "C42", "title": "The event parser reports a well-nested document and honours handler results", "statement": "For every well-formed document the events delivered are the pre-order traversal with matching start/end events; when a handler asks to skip the current class or array, the remaining members of only that container are suppressed; when it asks to complete, no more events are delivered and no error is raised.", "quantifier": "all documents, all handler decision histories", "why_tests_cant": "The handler decisions form an exponential tree over unbounded documents.", "anchors": ["include/daw/json/daw_json_event_parser.h: json_event_parser"]}
{"id": "C43", "title": "Timestamps survive a serialise/parse round trip", "statement": "For every time point at millisecond precision in the years the format can express, parsing the text produced for it returns the same time point.", "quantifier": "all millisecond time points from year 0 to 9999, in particular with every sub-second part and before 1970", "why_tests_cant": "More than 3*10^14 time points.", "anchors": ["include/daw/json/impl/to_daw_json_string.h: to_json_string_date", "include/daw/json/impl/daw_json_parse_iso8601_utils.h: civil_to_time_point, time_point_to_civil, parse_iso8601_timestamp"]}
{"id": "C44", "title": "Calendar conversion is exact", "statement": "Converting a calendar date and time of day to a time point counts exactly the proleptic Gregorian days since 1970-01-01, and converting a non-negative time point back gives the same date and time of day.", "quantifier": "all Gregorian dates whose day number fits the 32-bit day count the code uses, and all times of day", "why_tests_cant": "Leap-year rules and era arithmetic over an unbounded range of years.", "anchors": ["include/daw/json/impl/daw_json_parse_iso8601_utils.h: civil_to_time_point, time_point_to_civil"]}
{"id": "C45", "title": "Timestamps with a UTC offset denote the right instant", "statement": "A timestamp with offset +hh:mm or -hh:mm denotes the instant obtained by subtracting the offset from the local time.", "quantifier": "all dates, times and offsets", "why_tests_cant": "The product of times and offsets is too large to enumerate and wrap-around occurs only for some.", "anchors": ["include/daw/json/impl/daw_json_parse_iso8601_utils.h: parse_iso8601_timestamp"]}
{"id": "C46", "title": "Impossible calendar dates are rejected", "statement": "A timestamp whose day does not exist in its month, or whose time of day does not exist, is rejected.", "quantifier": "all date/time field combinations", "why_tests_cant": "Depends on the leap-year rule of unboundedly many years.", "anchors": ["include/daw/json/impl/daw_json_parse_iso8601_utils.h: parse_iso_8601_date, parse_iso_8601_time"]}
{"id": "C47", "title": "The day of the week written is the right one", "statement": "The abbreviated day-of-week written for a date is the one of the proleptic Gregorian calendar, for every date.", "quantifier": "all dates with year >= 0", "why_tests_cant": "Unbounded range of dates.", "anchors": ["include/daw/json/impl/daw_json_parse_iso8601_utils.h: short_day_of_week"]}
{"id": "C48", "title": "Trailing garbage is rejected on request", "statement": "With MustVerifyEndOfDataIsValid, a document that has anything but whitespace after the value is rejected and one that has only whitespace is accepted with the same result as without trailing whitespace.", "quantifier": "all values and all trailing byte strings", "why_tests_cant": "Trailing text is arbitrary.", "anchors": ["include/daw/json/daw_from_json.h: from_json"]}
{"id": "C49", "title": "Whitespace between tokens is insignificant", "statement": "Inserting any number of JSON whitespace characters before a value or around a separator does not change what is parsed, and skipping whitespace never reads outside the document.", "quantifier": "all amounts and kinds of whitespace, all buffers", "why_tests_cant": "Unbounded insertions.", "anchors": ["include/daw/json/impl/daw_json_parse_policy_no_comments.h: trim_left_checked, trim_left_unchecked", "include/daw/json/impl/daw_json_parse_policy.h: move_next_member_or_end"]}
{"id": "C50", "title": "Serialising a string reads only that string", "statement": "Serialising a string with escaping reads only the bytes of the string, for every content, valid or not.", "quantifier": "all byte strings", "why_tests_cant": "Invalid or truncated UTF-8 at the very end is one of unboundedly many inputs.", "anchors": ["include/daw/json/impl/to_daw_json_string.h: copy_to_iterator"]}
{"id": "C51", "title": "Parsing never accepts a member name at the wrong place", "statement": "Names are delimited exactly: for every well-formed member name without escapes, the name handed to lookup is exactly the text between its quotes, and the parser is then positioned at the start of the member's value.", "quantifier": "all member names, all whitespace around the colon", "why_tests_cant": "Unbounded names and whitespace.", "anchors": ["include/daw/json/impl/daw_json_parse_name.h: parse_name, parse_nq, trim_end_of_name"]}
{"id": "C52", "title": "JSON paths rendered as text denote the path", "statement": "Rendering a JSON path stack to text and looking that text up with find_member reaches the value the path denotes, for names that need no escaping.", "quantifier": "all documents and paths", "why_tests_cant": "Unbounded depth and names.", "anchors": ["include/daw/json/daw_json_find_path.h: to_json_path_string", "include/daw/json/impl/daw_json_parse_name.h: pop_json_path, find_range2, find_range"]}
{"id": "C53", "title": "Name hashing is a function of the name only", "statement": "The long-name and short-name hashing configurations give hashes that are equal for equal names; for names of at most four bytes, distinct names without leading NUL have distinct hashes.", "quantifier": "all names", "why_tests_cant": "All pairs of names.", "anchors": ["include/daw/json/impl/daw_murmur3.h: name_hash, fnv1a_32_N, fnv1a_32"]}
{"id": "C54", "title": "Decoding an escaped string is memory safe", "statement": "In checked mode, parsing an escaped string from any document whatsoever reads only inside the document and writes only inside the result buffer allocated for it, and terminates.", "quantifier": "all documents, all positions", "why_tests_cant": "Malformed and truncated escapes in arbitrary contexts are unboundedly many; the output buffer is filled with raw pointer writes.", "anchors": ["include/daw/json/impl/daw_json_parse_std_string.h: parse_string_known_stdstring, decode_utf16", "include/daw/json/impl/daw_json_parse_value.h: parse_value_string_escaped"]}
{"id": "C55", "title": "Every kind of output receives the same bytes", "statement": "Whatever sequence of writes a serialisation performs, a growing string and a C stream receive exactly the concatenation of the bytes written, in order, and no write is reported as failed although it succeeded.", "quantifier": "all sequences of writes, all byte values", "why_tests_cant": "The history of writes is unbounded and the stream case depends on the byte value.", "anchors": ["include/daw/json/concepts/daw_writable_output_basics.h", "include/daw/json/concepts/daw_writable_output_cstdio.h"]}
{"id": "C56", "title": "Elements a tuple does not map are ignored", "statement": "Parsing an array with more elements than a tuple maps gives the same result as parsing the array without them and leaves the parser after the array, whatever the additional elements are (when exact mapping is not requested).", "quantifier": "all tuples, all additional well-formed elements", "why_tests_cant": "The additional elements are arbitrary JSON.", "anchors": ["include/daw/json/impl/daw_json_parse_value.h: parse_tuple_value, parse_value_tuple", "include/daw/json/impl/daw_json_parse_policy.h: skip_bracketed_item_checked"]}
{"id": "C57", "title": "Whitespace before the document's value is insignificant", "statement": "Putting any JSON whitespace in front of a document does not change what from_json returns, whatever the type parsed.", "quantifier": "all types, all values, all amounts of whitespace", "why_tests_cant": "Every type has its own entry; whitespace is unbounded.", "anchors": ["include/daw/json/daw_from_json.h: from_json", "include/daw/json/impl/daw_json_parse_value.h: parse_value"]}
{"id": "C58", "title": "Typed parsing is memory safe on arbitrary bytes", "statement": "With checked input, from_json reads only inside the document and terminates, for every type and whatever the bytes of the document are.", "quantifier": "all types, all documents", "why_tests_cant": "All byte strings; an over-read by one is invisible without instrumentation.", "anchors": ["include/daw/json/impl/daw_json_parse_value.h", "include/daw/json/impl/daw_json_parse_class.h", "include/daw/json/impl/daw_json_parse_array_iterator.h"]}
{"id": "C59", "title": "A NullVisible member is always written", "statement": "A class member declared with JsonNullable::NullVisible is written in every output, as null when it has no value; members that are required or have a value are always written.", "quantifier": "all classes, all values, all output options", "why_tests_cant": "Which members are absent is an exponential family of cases per class.", "anchors": ["include/daw/json/impl/to_daw_json_string.h: to_json_str", "include/daw/json/impl/daw_json_enums.h: JsonNullable"]}
{"id": "C60", "title": "Seven bit output contains no byte above 0x7F", "statement": "With RestrictedStringOutput::OnlyAllow7bitsStrings every byte written by to_json is below 0x80, in string values and in member names.", "quantifier": "all mapped types and values", "why_tests_cant": "All Unicode strings and names.", "anchors": ["include/daw/json/impl/to_daw_json_string.h: to_json_str, copy_to_iterator", "include/daw/json/daw_json_serialize_options.h: RestrictedStringOutput"]}
{"id": "C61", "title": "A trailing comma follows a member or element", "statement": "With OutputTrailingComma::Yes a comma is written before a closing bracket exactly when the array or object is not empty.", "quantifier": "all mapped types and values", "why_tests_cant": "Depends on which optional members are absent.", "anchors": ["include/daw/json/impl/daw_json_serialize_impl.h: serialize_json_class", "include/daw/json/impl/to_daw_json_string.h: to_json_string_array, to_json_string_kv, to_json_string_tuple"]}
{"id": "C62", "title": "Walking any bytes as JSON values stays inside the document", "statement": "For any byte string, constructing a json_value and repeatedly iterating, asking for types, looking up members by name or index, and querying stateful values either gives a result or throws; it never reads outside the document and always terminates.", "quantifier": "all byte strings, all values reached by iteration, all lookups and query histories", "why_tests_cant": "Arbitrary malformed input and unbounded walks.", "anchors": ["include/daw/json/impl/daw_json_value.h: basic_json_value_iterator, find_class_member, find_element, type", "include/daw/json/daw_json_value_state.h: basic_stateful_json_value"]}
{"id": "C63", "title": "from_json with a member path reads the value the path leads to", "statement": "For every document, every path of simple names and indices that leads to a value in it, and every mapped type that the value fits, from_json with that path gives the value that the text there denotes, with and without verification of the end of the data.", "quantifier": "all documents, paths and mapped types", "why_tests_cant": "Unbounded documents, depths and types; what stands before and after the value varies freely.", "anchors": ["include/daw/json/daw_from_json.h: from_json(json_data, member_path)", "include/daw/json/impl/daw_json_value.h: find_member"]}
{"id": "C64", "title": "What is accepted as a real number is a JSON number", "statement": "Every text that parse_value accepts for a real-number member without a known range is a number of the JSON grammar followed by the end of the item.", "quantifier": "all byte strings, all positions", "why_tests_cant": "The malformed texts are an infinite set; tests try a handful.", "anchors": ["include/daw/json/impl/daw_json_parse_real.h: parse_real_unknown", "include/daw/json/impl/daw_json_parse_value.h: parse_value_real", "include/daw/json/impl/daw_json_parse_policy_policy_details.h: validate_signed_first"]}
{"id": "C65", "title": "Reading a real number stays inside the document", "statement": "For any bytes and any position, reading a real number, at once or after skipping it, either gives a result or throws; it reads nothing outside the range and has no undefined arithmetic.", "quantifier": "all byte strings, positions and both ways of reading", "why_tests_cant": "Reads one past the end are invisible in tests over larger buffers.", "anchors": ["include/daw/json/impl/daw_json_parse_real.h: parse_real_known, parse_real_unknown, parse_digits_while_number", "include/daw/json/impl/daw_json_skip.h: skip_number, skip_digits"]}
{"id": "C66", "title": "A real has one value whether it is read at once or after skipping", "statement": "For every JSON number, parse_real_unknown at its first byte and parse_real_known on the range skip_number found hand the same sign, significand and exponent to the scaling step; so the value of a member does not depend on the order of members.", "quantifier": "all JSON numbers in all documents", "why_tests_cant": "The two functions distribute digits differently between whole part and fraction.", "anchors": ["include/daw/json/impl/daw_json_parse_real.h: parse_real_known, parse_real_unknown", "include/daw/json/impl/daw_json_skip.h: skip_number"]}
{"id": "C67", "title": "The relative error of a real before rounding is below its precision", "statement": "For every JSON number that is not zero, the number handed to the scaling step differs from the number written by at most one part in 10^16 for double and 10^8 for float.", "quantifier": "all JSON numbers", "why_tests_cant": "Depends on the number of leading zeros, whole digits and fraction digits together.", "anchors": ["include/daw/json/impl/daw_json_parse_real.h: parse_real_unknown"]}
{"id": "C68", "title": "With IEEE754Precise the fast path is taken only when it is exact", "statement": "With IEEE754Precise::yes, whenever strtod is not used the significand and exponent denote exactly the number written, the significand is at most 2^53 and the exponent at most 22 in absolute value.", "quantifier": "all JSON numbers, both ways of reading", "why_tests_cant": "The flag is computed in several places from digit counts; a missed case shows only in the last bit.", "anchors": ["include/daw/json/impl/daw_json_parse_real.h: should_use_strtod, parse_real_known, parse_real_unknown"]}
{"id": "C69", "title": "A finite real survives to_json and from_json", "statement": "For every finite double or float, the sign, significand and exponent that from_json hands to the scaling step for the text to_json wrote denote the decimal number that was written.", "quantifier": "all decimal significands and exponents of double and float, all three output formats, any surrounding document", "why_tests_cant": "Only some of 2^64 values have 17 significant digits and a leading zero.", "anchors": ["include/daw/json/impl/to_daw_json_string.h: to_chars", "include/daw/json/impl/daw_json_parse_real.h: parse_real_unknown"]}
{"id": "C70", "title": "NaN and infinities survive to_json and from_json", "statement": "For every member that allows them, the text written for NaN, Infinity and -Infinity is read back as the same value, whether the member is read where it stands or after it was skipped.", "quantifier": "all options, all documents around the text", "why_tests_cant": "The way a member is read depends on the order of members.", "anchors": ["include/daw/json/impl/to_daw_json_string.h: to_json_string_real", "include/daw/json/impl/daw_json_parse_value.h: parse_value_real"]}
{"id": "C71", "title": "Special reals are recognised by their exact text", "statement": "parse_value_real yields NaN or an infinity only for the texts NaN, Inf, Infinity and their negations, consumes only that text, and stays inside the document.", "quantifier": "all documents, all options", "why_tests_cant": "Concerns texts nobody writes on purpose.", "anchors": ["include/daw/json/impl/daw_json_parse_value.h: parse_value_real"]}
{"id": "C72", "title": "The sign of a finite real is visible in its text", "statement": "to_json writes a minus sign for a finite real if and only if its sign bit is set.", "quantifier": "all finite values, all formats", "why_tests_cant": "Minus zero compares equal to zero.", "anchors": ["include/daw/json/impl/to_daw_json_string.h: to_chars"]}
{"id": "C73", "title": "A value of another kind than the mapped type is rejected", "statement": "from_json reports an error whenever the JSON value at the position of a mapped type is of a kind that type is not for (a string for an array, a number with a fraction for an integer, a number for a string, and so on), whatever the order of the members.", "quantifier": "all mapped types, all values, all positions and member orders", "why_tests_cant": "Kinds, types, nesting positions and member orders multiply; the parse with known bounds only happens for members that come early.", "anchors": ["include/daw/json/impl/daw_json_parse_value.h: parse_value", "include/daw/json/impl/daw_json_parse_class.h: locate_class_member", "include/daw/json/impl/daw_json_parse_std_string.h: parse_string_known_stdstring"]}
{"id": "C74", "title": "With IEEE754Precise the double read is the nearest one", "statement": "parse_real with IEEE754Precise::yes returns, for every JSON number text, the double nearest to the number the text denotes (ties to even), and an infinity only if the number overflows.", "quantifier": "all number texts of any length and exponent, known and unknown bounds, any document around them", "why_tests_cant": "The texts whose rounding is hard lie arbitrarily close to the midpoint of two doubles and have any number of digits; tests sample a few.", "anchors": ["include/daw/json/impl/daw_json_parse_real.h: parse_real_known, parse_real_unknown", "include/daw/json/impl/daw_fp_fallback.h: parse_with_strtod"]}
{"id": "C75", "title": "In the default mode a double read is off by at most one part in 10^15", "statement": "parse_real without IEEE754Precise returns a double whose relative distance to the number in the text is below 10^-15, in every execution mode.", "quantifier": "all number texts that denote a value in the normal range, all execution modes", "why_tests_cant": "The error is the sum of the roundings of a table lookup, up to five multiplications and a division; its maximum is not at any tested value.", "anchors": ["include/daw/json/impl/daw_json_parse_real.h: parse_real_unknown", "include/daw/json/impl/daw_json_parse_real_power10.h: power10, dpow10_tbl"]}
{"id": "C76", "title": "A number whose digits are all zero is read as zero", "statement": "A real whose digits are all zero is read as zero with the sign of the text, whatever its exponent.", "quantifier": "all texts with zero digits, all exponents", "why_tests_cant": "Exponents are unbounded; zero times an overflowed power of ten is NaN.", "anchors": ["include/daw/json/impl/daw_json_parse_real_power10.h: power10"]}
{"id": "C77", "title": "A double written by to_json is read back as the same double", "statement": "For every finite double, from_json of the text to_json writes for it returns the same double.", "quantifier": "all finite doubles, all floating point output formats, all documents around the text", "why_tests_cant": "2^64 doubles times formats.", "anchors": ["include/daw/json/impl/to_daw_json_string.h: to_chars", "include/daw/json/impl/daw_json_parse_real.h: parse_real_unknown"]}
{"id": "C78", "title": "Arrays of key and value objects are read and written as pairs", "statement": "from_json of a json_key_value_array gives, for every array of objects that have the key and the value member in either order, the sequence of pairs, and reads back what to_json writes, whatever the whitespace.", "quantifier": "all arrays of any length, all key and value types, all member orders and layouts", "why_tests_cant": "Lengths, types, member orders and layouts are unbounded; the value member is parsed by another path when it comes first.", "anchors": ["include/daw/json/impl/daw_json_parse_value.h: parse_value_keyvalue_array", "include/daw/json/impl/daw_json_parse_kv_array_iterator.h: json_parse_kv_array_iterator", "include/daw/json/impl/to_daw_json_string.h: to_json_string_keyvalue_array"]}
{"id": "C79", "title": "A custom type's converter is given the text of the value", "statement": "The converter of json_custom gets, for String what is between the quotes, for Literal the text of the number, bool or null, for Any the text of any value with strings quoted; what its counterpart writes is valid JSON and is given back.", "quantifier": "all values, all positions and member orders", "why_tests_cant": "All texts of all values; members that were skipped first take another path.", "anchors": ["include/daw/json/impl/daw_json_parse_value.h: parse_value_custom", "include/daw/json/impl/daw_json_skip.h: skip_literal", "include/daw/json/impl/daw_json_type_options.h: JsonCustomTypes", "include/daw/json/impl/to_daw_json_string.h: to_json_string_custom"]}
{"id": "C80", "title": "A variant is read as the alternative of the value's kind", "statement": "json_variant selects the alternative whose JSON kind is that of the value, rejects values no alternative is for, and reads back every alternative to_json writes.", "quantifier": "all lists of alternatives, all values, all positions and member orders", "why_tests_cant": "Lists of alternatives and values are unbounded; the kind of a member that was skipped first is found by looking at the byte before it.", "anchors": ["include/daw/json/impl/daw_json_parse_value.h: parse_value_variant, parse_variant_value", "include/daw/json/daw_json_link_types.h: base_map", "include/daw/json/impl/to_daw_json_string.h: to_variant_string"]}
{"id": "C81", "title": "The embedded tag of a variant selects the alternative wherever it stands", "statement": "json_intrusive_variant reads the alternative its tag member selects, whatever the position of the tag among the members, and reports a missing tag.", "quantifier": "all classes of alternatives, all member orders, all switching functions", "why_tests_cant": "Member orders and positions of the tag multiply with nesting; the object is read twice.", "anchors": ["include/daw/json/impl/daw_json_parse_value.h: parse_value_variant_intrusive, parse_visit", "include/daw/json/daw_json_link_types.h: json_variant_intrusive"]}
{"id": "C82", "title": "A variant's tag in another member selects the alternative whatever the order of the members", "statement": "json_tagged_variant as a member of a class reads the alternative that the tag member of the class selects, whether the tag comes before or behind the variant and whether the variant was skipped first, reports a missing tag, and never reads outside the document.", "quantifier": "all classes, all alternatives and switching functions, all member orders and layouts", "why_tests_cant": "Member orders and value kinds multiply; where the class starts is remembered in fields that skipping some kinds of value overwrites.", "anchors": ["include/daw/json/impl/daw_json_parse_value.h: find_index, parse_value_variant_tagged, parse_visit", "include/daw/json/impl/daw_json_skip.h: skip_number, skip_value", "include/daw/json/daw_json_link_types.h: json_tagged_variant"]}
{"id": "C83", "title": "A sized array is read with the size that another member states", "statement": "json_sized_array as a member of a class gives the constructor the elements and the value of the size member, in every order of the members, rejects a size that is not the number of elements, and never reads outside the document.", "quantifier": "all classes, all element and size types, all member orders and layouts, all sizes", "why_tests_cant": "Sizes, orders and lengths are unbounded; the size is searched by another routine than members are.", "anchors": ["include/daw/json/impl/daw_json_parse_value.h: parse_value_sz_array", "include/daw/json/impl/daw_json_parse_name.h: find_range", "include/daw/json/daw_json_link_types.h: json_sized_array"]}
{"id": "C84", "title": "A raw member is the text of its value", "statement": "json_raw gives exactly the bytes of the value in the document, in every order of the members, so that writing it again gives the same JSON value.", "quantifier": "all values, all member orders and layouts", "why_tests_cant": "All texts of all values; members that were skipped first take another path.", "anchors": ["include/daw/json/impl/daw_json_parse_value.h: parse_value_unknown", "include/daw/json/impl/daw_json_skip.h: skip_value", "include/daw/json/impl/to_daw_json_string.h: to_json_string_unknown"]}
{"id": "C85", "title": "A std::string is read to the same value as a view of its text", "statement": "from_json of a std::string, which scans up to the terminating zero instead of an end pointer, gives for every document the value that the document means at the type and that from_json of a string_view gives; what to_json wrote is read back from its std::string.", "quantifier": "all types of the model, all documents of all layouts, all member orders", "why_tests_cant": "Two copies of every scanning loop exist; that they agree on every document of every shape is a statement about unboundedly many pairs of runs.", "anchors": ["include/daw/json/daw_from_json.h: from_json", "include/daw/json/impl/daw_json_traits.h: is_zero_terminated_string", "include/daw/json/impl/daw_json_parse_policy_no_comments.h", "include/daw/json/impl/daw_json_parse_string_quote.h: parse_nq_check", "include/daw/json/impl/daw_json_skip.h"]}
{"id": "C86", "title": "Reading a std::string never passes its terminating zero", "statement": "Whatever bytes a std::string holds, from_json gives a value or an error and dereferences nothing behind the terminating zero.", "quantifier": "all types, all byte strings", "why_tests_cant": "All malformed and truncated texts; a read one byte behind the string usually goes unnoticed.", "anchors": ["include/daw/json/impl/daw_json_parse_policy_no_comments.h: move_to_next_of", "include/daw/json/impl/daw_json_parse_string_quote.h: parse_nq_check", "include/daw/json/impl/daw_json_skip.h: skip_true, skip_false, skip_null"]}
{"id": "C87", "title": "A std::string is refused whenever a view of its text is", "statement": "from_json accepts a std::string only if it accepts a string_view of the same text, and with the same value.", "quantifier": "all types, all byte strings", "why_tests_cant": "Malformed texts are unboundedly many, and the two modes validate at different places.", "anchors": ["include/daw/json/impl/daw_json_skip.h: skip_true, skip_false, skip_null, skip_number", "include/daw/json/impl/daw_json_parse_unsigned_int.h: unsigned_parser", "include/daw/json/impl/daw_json_parse_policy.h: empty"]}
{"id": "C88", "title": "Classes with dependent members are written as one JSON object", "statement": "For every value of a class with tagged variants, sized arrays and raw members to_json writes a JSON object in which every name is once, the tags and sizes that other members depend on come first, each once, and every member that has a value is there.", "quantifier": "all classes and values, any number of dependent members sharing tags, all layouts and string options", "why_tests_cant": "The two passes over the members and the names already written interact for every combination of mapped, shared and unmapped tags; tests cover a few.", "anchors": ["include/daw/json/impl/daw_json_serialize_impl.h: serialize_json_class", "include/daw/json/impl/to_daw_json_string.h: dependent_member_to_json_str", "include/daw/json/impl/to_daw_json_string.h: to_json_str"]}
{"id": "C89", "title": "Classes with dependent members are read back as written", "statement": "from_json of what to_json wrote for a class with tagged variants and sized arrays gives the same value again.", "quantifier": "all classes and values, mapped and unmapped tags, all layouts and configurations", "why_tests_cant": "All values and mappings; the reader depends on the order in which the writer puts tags, and on which optional members are empty.", "anchors": ["include/daw/json/impl/to_daw_json_string.h: dependent_member_to_json_str", "include/daw/json/impl/daw_json_parse_value.h: find_index", "include/daw/json/impl/daw_json_parse_value.h: parse_value_sz_array", "include/daw/json/impl/daw_json_parse_class.h: parse_class_member"]}
{"id": "C90", "title": "Iterating over an array visits exactly its elements", "statement": "A loop over json_array_range turns once for every element of the array, and dereferencing the iterator, never, once or repeatedly, gives the value of the element it is at.", "quantifier": "all element types, arrays of any length and layout, any choice of how often each element is dereferenced", "why_tests_cant": "The position kept by operator* and the skipping of operator++ have to agree for every value of every type and every pattern of use; tests dereference each element once.", "anchors": ["include/daw/json/daw_json_iterator.h: json_array_iterator", "include/daw/json/impl/daw_json_skip.h: skip_known_value"]}
{"id": "C91", "title": "Iterating over any bytes stays inside them and ends", "statement": "Whatever bytes a json_array_range or json_lines_range is constructed over, a loop over it dereferences nothing outside of them and comes to an end, with the elements or with an error.", "quantifier": "all element types, all byte strings, any choice of how often each element is dereferenced, any number of turns", "why_tests_cant": "A loop that does not advance and a read one byte behind the data occur only for particular malformed texts, which are unboundedly many.", "anchors": ["include/daw/json/daw_json_iterator.h: json_array_iterator", "include/daw/json/daw_json_lines_iterator.h: json_lines_iterator", "include/daw/json/impl/daw_json_skip.h: skip_known_value"]}
{"id": "C92", "title": "Iterating over JSON Lines gives the value of every line", "statement": "A loop over json_lines_range turns once for every line that holds a value and gives this value; whitespace, empty lines and a missing final line feed do not matter.", "quantifier": "all element types, any number of lines, all layouts", "why_tests_cant": "The end of a value is recognised by the type of the element; all combinations of types and what follows on the next line cannot be tried.", "anchors": ["include/daw/json/daw_json_lines_iterator.h: json_lines_iterator", "include/daw/json/daw_json_lines_iterator.h: json_lines_range", "include/daw/json/impl/daw_json_skip.h: skip_known_value"]}
{"id": "C93", "title": "A loop over json_array_range_once gives the elements of the array", "statement": "A range based for over json_array_range_once visits every element of the array once and then ends.", "quantifier": "all element types and arrays", "why_tests_cant": "That no loop at all can end is a statement about all documents.", "anchors": ["include/daw/json/daw_json_iterator.h: json_array_iterator_once", "include/daw/json/daw_json_iterator.h: json_array_range_once"]}
{"id": "C94", "title": "Iterating over malformed text ends in an error", "statement": "A loop over text that is not an array, or not JSON Lines, ends in an error after the elements before the mistake.", "quantifier": "all element types, all byte strings", "why_tests_cant": "Malformed texts are unboundedly many.", "anchors": ["include/daw/json/daw_json_iterator.h: json_array_iterator", "include/daw/json/daw_json_lines_iterator.h: json_lines_iterator"]}
{"id": "C95", "title": "A range with a path visits the array at that path", "statement": "A json_array_range constructed with a path is a range over the array the path leads to; a path that leads nowhere, or to something else, gives an error.", "quantifier": "all documents, paths, element types and uses of the iterator", "why_tests_cant": "Documents and paths into them are unboundedly many and nested.", "anchors": ["include/daw/json/daw_json_iterator.h: get_range", "include/daw/json/impl/daw_json_parse_name.h: find_range"]}
{"id": "C96", "title": "Comparison of iterators is consistent", "statement": "Equality of array and line iterators is an equivalence and != its negation; iterators at their end are equal to each other and to a default constructed one, others are equal exactly when they are at the same element.", "quantifier": "all documents and pairs of iterators over them, in every state", "why_tests_cant": "Tests compare an iterator with the end of its range; all pairs of states cannot be tried.", "anchors": ["include/daw/json/daw_json_iterator.h: json_array_iterator", "include/daw/json/daw_json_iterator.h: json_array_iterator_once", "include/daw/json/daw_json_lines_iterator.h: json_lines_iterator"]}
{"id": "C97", "title": "to_json_schema writes well-formed JSON", "statement": "The schema of every mapped type, written with any layout, identifier and title, is a well-formed JSON object.", "quantifier": "all mapped types of unbounded nesting, layouts, identifiers and titles", "why_tests_cant": "Mapped types are an inductive family; the one test prints the schema of one type and looks at nothing.", "anchors": ["include/daw/json/daw_json_schema.h: to_json_schema", "include/daw/json/daw_json_schema.h: json_class_processor"]}
{"id": "C98", "title": "The schema follows the draft it names", "statement": "The text written by to_json_schema is a schema of JSON Schema draft 2020-12, which its $schema member names: every keyword has a value of the form the draft asks for.", "quantifier": "all mapped types, layouts, identifiers and titles", "why_tests_cant": "Mapped types are an inductive family; no test compares a schema with the draft.", "anchors": ["include/daw/json/daw_json_schema.h: to_json_schema"]}
{"id": "C99", "title": "What is written is valid against the schema", "statement": "Every text that to_json writes for a value of a mapped type is valid against the schema of that type.", "quantifier": "all mapped types, their values, and layouts of the text and of the schema", "why_tests_cant": "Values and types are unboundedly many; no test validates anything against a schema.", "anchors": ["include/daw/json/daw_json_schema.h: to_json_schema", "include/daw/json/impl/to_daw_json_string.h: to_json_string"]}
{"id": "C100", "title": "What is valid against the schema can be read", "statement": "Every document that is valid against the schema of a mapped type can be read by from_json at that type.", "quantifier": "all mapped types and all documents", "why_tests_cant": "The documents valid against a schema are infinitely many.", "anchors": ["include/daw/json/daw_json_schema.h: to_json_schema", "include/daw/json/daw_from_json.h: from_json"]}
{"id": "C101", "title": "Reading without checks gives the same value", "statement": "Every proper document of a mapped type is read with CheckedParseMode::no to the value that is read with checks.", "quantifier": "all mapped types, all proper documents, std::string and string_view input", "why_tests_cant": "The unchecked functions have no way to notice a wrong turn; whether they take one depends on what follows each value and on which optional members are left out, in unboundedly many documents.", "anchors": ["include/daw/json/impl/daw_json_parse_value.h: parse_value_null", "include/daw/json/impl/daw_json_location_info.h: find_class_member", "include/daw/json/impl/daw_json_parse_policy_no_comments.h: move_next_member_unchecked", "docs/cookbook/parser_policies.md: CheckedParseMode"]}
{"id": "C102", "title": "Reading without checks stays inside a proper document", "statement": "While a proper document is read with CheckedParseMode::no, no byte outside of it is accessed, or outside of it and its terminating zero when it is a std::string.", "quantifier": "all mapped types and all proper documents", "why_tests_cant": "Reading one byte past a view goes unnoticed in tests whose documents are literals, which a zero follows.", "anchors": ["include/daw/json/impl/daw_json_parse_policy_no_comments.h: trim_left_unchecked, move_next_member_unchecked", "include/daw/json/impl/daw_json_parse_value.h"]}
{"id": "C103", "title": "Doubles and dates inside other types are read right", "statement": "A document of a type with doubles and dates as members, elements, map values or optional values is read to the doubles nearest to the numbers written and to the instants the dates name, wherever they stand and in whatever order.", "quantifier": "all types built from the mapped types, doubles and dates, all documents of them, with and without IEEE754Precise", "why_tests_cant": "Whether a number was skipped before it is read selects another code path; the combinations of member orders, nesting and digits are unbounded.", "anchors": ["include/daw/json/impl/daw_json_parse_value.h: parse_value_real, parse_value_date", "include/daw/json/impl/daw_json_parse_real.h", "include/daw/json/daw_json_link_types_iso8601.h"]}
{"id": "C104", "title": "Values with doubles and dates are written and read back", "statement": "A value with doubles and dates inside is written as a JSON text that is read back as the same value.", "quantifier": "all types built from the mapped types, doubles and dates, all values, all output options without trailing commas", "why_tests_cant": "There are 2^64 doubles and as many instants, at any position in any type.", "anchors": ["include/daw/json/impl/to_daw_json_string.h: to_json_string_real, to_json_string_date", "include/daw/json/impl/daw_json_parse_value.h: parse_value_real, parse_value_date"]}
{"id": "C105", "title": "Documents with comments are read as if the comments were whitespace", "statement": "With the C++ or the hash comment policy, a document that has comments where whitespace may stand is read to the same value as the document with spaces in their place; strings that look like comments are left alone.", "quantifier": "all types, all documents of them, all comments at all places between tokens, both policies", "why_tests_cant": "Comments can hold any bytes, brackets and quotes included, and stand between any two tokens of any document, in members that are read and in ones that are skipped.", "anchors": ["include/daw/json/impl/daw_json_parse_policy_cpp_comments.h", "include/daw/json/impl/daw_json_parse_policy_hash_comments.h", "include/daw/json/impl/daw_json_parse_value.h", "docs/cookbook/parser_policies.md"]}
{"id": "C106", "title": "Parsing with comments stays inside memory", "statement": "Parsing with a comment policy reads nothing outside of the memory given, whatever the bytes, and gives a value or an error.", "quantifier": "all types, all byte sequences, both comment policies", "why_tests_cant": "The over-reads need documents cut off at particular places of particular comments; a test that does not run under a memory checker sees nothing.", "anchors": ["include/daw/json/impl/daw_json_parse_policy_cpp_comments.h: trim_left_unchecked, skip_comments", "include/daw/json/impl/daw_json_parse_policy_hash_comments.h", "include/daw/json/impl/daw_json_parse_value.h: parse_value_array"]}
{"id": "C107", "title": "The execution mode makes no difference", "statement": "Reading a document gives the same result in each of the three execution modes: compile_time, runtime and simd.", "quantifier": "all mapped types of the model, all documents, all three modes", "why_tests_cant": "The modes scan strings, skip brackets and look for the next member with different code. They differ only for particular bytes at particular offsets, and a test fixes both; the test suite runs most documents in one mode.", "anchors": ["include/daw/json/impl/daw_json_parse_string_quote.h: parse_nq_check", "include/daw/json/impl/daw_not_const_ex_functions.h: mem_skip_until_end_of_string", "include/daw/json/impl/daw_json_parse_policy_no_comments.h: move_to_next_of, skip_bracketed_item_checked", "include/daw/json/impl/daw_json_parse_policy_policy_details.h"]}
{"id": "C108", "title": "Minified documents read the same with MinifiedDocument", "statement": "A document without whitespace outside of strings is read to the same value with MinifiedDocument as without, a comma or bracket behind it is refused, and what is written without whitespace is read back with the option.", "quantifier": "all mapped types of the model, all values, all documents without whitespace outside of strings", "why_tests_cant": "The option removes the trimming from every place at which the parser may stop. That no place relied on the trimming for more than whitespace depends on the combination of types, the order of members and what is skipped between them.", "anchors": ["include/daw/json/impl/daw_json_parse_policy_no_comments.h: trim_left_checked, trim_left_unchecked", "include/daw/json/daw_json_parse_options.h: MinifiedDocument", "docs/cookbook/parser_policies.md: MinifiedDocument"]}
{"id": "C109", "title": "from_json_array and from_json_alloc agree with from_json", "statement": "from_json_array gives for every document, with or without a path, what from_json gives for an array of the element type; from_json_alloc gives what from_json gives.", "quantifier": "all element types of the model, all bytes, all paths, all configurations of the model", "why_tests_cant": "The functions repeat the start of from_json with small differences. These show only on documents that tests do not contain, such as whitespace only or a counted terminating zero; the agreement elsewhere is a statement about all bytes.", "anchors": ["include/daw/json/daw_from_json.h: from_json_array, from_json_alloc, from_json"]}
{"id": "C110", "title": "Reading a json_value", "statement": "from_json of a json_value that was reached by iteration or lookup, with or without a path, gives the value that its text means and never reads outside the document.", "quantifier": "all types and documents of the model, every json_value that iteration reaches, all paths", "why_tests_cant": "A json_value is a position in a document of any shape, with its own bounds. The claim is about every position reachable in every document.", "anchors": ["include/daw/json/daw_from_json.h: from_json( basic_json_value )", "include/daw/json/impl/daw_json_value.h: basic_json_value"]}
{"id": "C111", "title": "Only documents of the type are accepted", "statement": "A document that from_json reads to a value is a JSON text that means this value at the type; anything else is refused.", "quantifier": "all bytes, all nested types of integers, booleans, strings, optionals, arrays, maps and exact tuples", "why_tests_cant": "Tests try a list of malformed documents. The claim is about everything that is accepted: whatever the bytes, success must leave no other explanation than a text of the type, at every nesting.", "anchors": ["include/daw/json/daw_from_json.h: from_json", "include/daw/json/impl/daw_json_parse_value.h: parse_value", "include/daw/json/impl/daw_json_parse_array_iterator.h: operator++", "include/daw/json/impl/daw_json_parse_kv_class_iterator.h: operator++", "include/daw/json/impl/daw_json_parse_policy.h: move_next_member_or_end"]}
{"id": "C112", "title": "A JSON document is read to what it means, or refused", "statement": "If from_json reads a JSON document successfully, the result is what the document's value means at the type: arrays element by element, objects member by member, numbers exactly, strings decoded, null as an absent optional value, every class member from the member of its name wherever it is; a document of another kind or with more elements than a tuple has is refused.", "quantifier": "all JSON values in all their texts, all nested types of integers, booleans, strings, optionals, arrays, maps, exact tuples and classes", "why_tests_cant": "Tests compare documents with expected values one by one. The claim covers every combination of JSON value and type, including the ones that do not fit each other, where an accidental success with a wrong value is the failure nobody writes a test for.", "anchors": ["include/daw/json/daw_from_json.h: from_json", "include/daw/json/impl/daw_json_parse_value.h: parse_value", "include/daw/json/impl/daw_json_parse_value.h: parse_value_tuple", "include/daw/json/impl/daw_json_parse_policy.h: move_next_member_or_end"]}
{"id": "C113", "title": "An error report describes the place of the error", "statement": "to_formatted_string reads nothing but the document, gives the line and the column of the error's location counted from one, and an excerpt that ends with the byte at the location.", "quantifier": "all documents, all locations in them and at their ends, all reasons", "why_tests_cant": "Tests print reports and at best look at one. The reads outside of the document depend on the location and go unnoticed in a test, since the neighbouring byte exists and is simply shown.", "anchors": ["include/daw/json/daw_json_exception.h: to_formatted_string"]}
{"id": "C114", "title": "Every error has a text that names its reason", "statement": "json_exception::reason gives a text for every error the library throws; different reasons have different texts; a missing member's text has its name, a missing token's the token.", "quantifier": "all reasons, all member names, all places", "why_tests_cant": "Tests look at the reasons, hardly ever at the texts, and not at all of them; reading the member of a union that was not written does not fail visibly.", "anchors": ["include/daw/json/daw_json_exception.h: reason", "include/daw/json/daw_json_exception.h: reason_message", "include/daw/json/impl/daw_json_assert.h: daw_json_error", "include/daw/json/daw_json_value.h: good"]}
{"id": "C115", "title": "count_digits stops at the first byte that is no digit", "statement": "count_digits passes exactly the digits at the start of a range, eight and four at a time where it can.", "quantifier": "all ranges of bytes", "why_tests_cant": "The result depends on the position of the first other byte within blocks of eight and four and on the length of the range; the library's own tests found that something is wrong and the code that uses it was switched off instead.", "anchors": ["include/daw/json/impl/daw_count_digits.h: count_digits", "include/daw/json/impl/daw_json_skip.h: skip_number"]}
{"id": "C116", "title": "The path of a location in a document", "statement": "find_json_path_stack_to and find_json_path_to give the path of the value a location is in, from the outermost value down; the path leads back to the value; whatever the document, they end and read nothing outside of it.", "quantifier": "all documents, all locations in them", "why_tests_cant": "The tests print the path of an error without looking at it. The answer depends on the place of the location within a value, on what comes before and behind it, and on how far the rest of the document is well-formed.", "anchors": ["include/daw/json/daw_json_find_path.h: find_json_path_stack_to", "include/daw/json/daw_json_find_path.h: find_json_path_to", "include/daw/json/daw_json_event_parser.h: json_event_parser"]}
{"id": "C117", "title": "A class mapped to an array takes the elements at its places", "statement": "A class mapped by json_tuple_member_list or json_ordered_member_list takes for every member the array element at its place, the one it names or the one behind the member before it; missing elements are null for nullable members and refused otherwise; places that do not ascend are refused, and so are elements behind the last member of an exact class.", "quantifier": "all mappings, nested in any types; all documents", "why_tests_cant": "The tests read a few fixed arrays. What happens depends on the combination of places, gaps, length of the array, nullable members and nesting, and on text that is not quite an array.", "anchors": ["include/daw/json/impl/daw_json_parse_class.h: parse_ordered_class_member", "include/daw/json/impl/daw_json_parse_class.h: parse_json_tuple_class", "include/daw/json/impl/daw_json_parse_value.h: maybe_skip_members", "include/daw/json/daw_json_link_types.h: json_tuple_member_list"]}
{"id": "C118", "title": "A class written as an array is read back as the value", "statement": "What is written for a class mapped to an array is a JSON text that means the value, and from_json reads the value back from it.", "quantifier": "all mappings, all values, all layouts", "why_tests_cant": "Round trips are tested for one mapping without gaps; the commas depend on the number of members and the size of each gap.", "anchors": ["include/daw/json/impl/daw_json_serialize_impl.h: serialize_ordered_json_class", "include/daw/json/impl/daw_json_parse_class.h: parse_ordered_class_member", "include/daw/json/impl/daw_json_parse_class.h: parse_json_tuple_class", "include/daw/json/impl/daw_json_parse_value.h: maybe_skip_members"]}
{"id": "C119", "title": "Reading a class from an array stays inside the document", "statement": "Whatever the bytes, reading a class that is mapped to an array reads nothing outside of the document and ends with a value or an error.", "quantifier": "all bytes, all mappings", "why_tests_cant": "An over-read by one byte shows only when the document ends at the end of a page or under a sanitizer, and only for texts that are cut off in the right place.", "anchors": ["include/daw/json/impl/daw_json_parse_class.h: parse_ordered_class_member", "include/daw/json/impl/daw_json_parse_class.h: parse_json_tuple_class", "include/daw/json/impl/daw_json_parse_value.h: maybe_skip_members"]}
{"id": "C120", "title": "A std::array takes the elements of the array", "statement": "A std::array of n elements is read from an array of at most n elements; the elements that are not there are default constructed. An array with more elements is refused, and what is written for a std::array is read back.", "quantifier": "all sizes, all arrays, all layouts", "why_tests_cant": "Whether an array with too many elements is refused depends on what follows it and on the order in which the members of the class around it are mapped; tests use arrays of the right size.", "anchors": ["include/daw/json/impl/daw_json_default_constuctor.h: construct_array", "include/daw/json/impl/daw_json_parse_value.h: parse_value_array", "include/daw/json/impl/daw_json_parse_array_iterator.h: json_parse_array_iterator"]}
{"id": "C121", "title": "Reading a std::array stays inside the document", "statement": "Whatever the bytes, reading a std::array reads nothing outside of the document and ends with a value or an error.", "quantifier": "all bytes, all sizes", "why_tests_cant": "An over-read by one byte shows only when the document ends at the end of a page or under a sanitizer.", "anchors": ["include/daw/json/impl/daw_json_default_constuctor.h: construct_array", "include/daw/json/impl/daw_json_parse_value.h: parse_value_array"]}
{"id": "C122", "title": "json_apply calls the function with the values of the document", "statement": "json_apply reads one value for a function with one parameter, and an array with one element for each parameter otherwise, calls the function with them once and gives its result; a document with another number of elements is refused, and nothing outside of the document is read.", "quantifier": "all documents, all functions, all parameter lists", "why_tests_cant": "Tests call two or three functions with documents made for them; what happens to further elements depends on their kind.", "anchors": ["include/daw/json/daw_json_apply.h: json_apply_impl", "include/daw/json/daw_json_apply.h: json_apply", "include/daw/json/impl/daw_json_parse_value.h: parse_tuple_value"]}
{"id": "C123", "title": "Expecting long names changes nothing but the speed", "statement": "With ExpectLongNames every name, gap and search for the next member gives what it gives without it.", "quantifier": "all bytes, all comment policies, checked and unchecked", "why_tests_cant": "The option is used in few tests, never together with comments or with names that do not end; the functions called instead are those of the C library.", "anchors": ["include/daw/json/impl/daw_json_string_util.h: memchr_unchecked", "include/daw/json/impl/daw_json_string_util.h: memchr_checked", "include/daw/json/impl/daw_json_string_util.h: mempbrk", "include/daw/json/impl/daw_json_parse_name.h: parse_nq", "include/daw/json/impl/daw_json_parse_policy_cpp_comments.h: skip_comments_checked"]}
{"id": "C124", "title": "Booleans in quotes are read as the option LiteralAsString says", "statement": "With Never a boolean is its literal, with Always its literal in quotes, with Maybe either; reading accepts exactly these texts wherever the member is in its class, and reads back what was written.", "quantifier": "all documents, all positions, all three options, checked and unchecked input", "why_tests_cant": "Tests read members in the order of the mapping and well-formed texts; half-quoted literals, strings that only begin like a literal and members that are out of order are never combined with the option.", "anchors": ["include/daw/json/impl/daw_json_parse_value.h: parse_value_bool", "include/daw/json/impl/daw_json_parse_value.h: skip_quote_when_literal_as_string", "include/daw/json/impl/to_daw_json_string.h: to_json_string_bool", "include/daw/json/impl/daw_json_skip.h: skip_string"]}
{"id": "C125", "title": "Tuples whose members name a place take the elements at these places", "statement": "A tuple whose members name their place takes for every member the element at that place, or the one behind the member before it, and null for an element that is not there; further elements are passed over or, by an exact tuple, refused. No byte outside of the document is read.", "quantifier": "all documents, all lists of members and places, all member types of the model", "why_tests_cant": "The only uses in the tests are the tags of variants in the schema test and classes; lists of places, gaps of any content and short arrays combine without bound.", "anchors": ["include/daw/json/impl/daw_json_parse_value.h: parse_tuple_value", "include/daw/json/impl/daw_json_parse_value.h: maybe_skip_members", "include/daw/json/daw_json_link_types.h: json_tuple_member"]}
{"id": "C126", "title": "Variants in an array are chosen by the element that is their tag", "statement": "A member of a class read from an array, or of a tuple, that is a variant tagged by the element at a place takes the alternative the tag chooses, wherever the tag is in the array; a tag that chooses no alternative is refused. Looking for the tag reads no byte outside of the document.", "quantifier": "all documents, all lists of members, tags, places and alternatives of the model", "why_tests_cant": "The schema test has one such variant with its tag right before it; tags behind the variant, far away, missing or without an alternative are not tried, and arrays around them are unbounded.", "anchors": ["include/daw/json/impl/daw_json_parse_value.h: find_index", "include/daw/json/impl/daw_json_parse_value.h: parse_value_variant_tagged", "include/daw/json/impl/daw_json_parse_value.h: parse_tuple_value", "include/daw/json/daw_json_link_types.h: json_tagged_variant"]}
{"id": "C127", "title": "A map has the first member of every name", "statement": "Reading an object into a map gives every name of the object once, with the value of the first member of that name, and nothing else; whatever else finds a member by its name finds the same value; writing a map in whatever order it iterates and reading that back gives the map.", "quantifier": "all documents, all types of values, all maps and all orders of their elements", "why_tests_cant": "Tests read maps with a few different names; names that are repeated, at any distance and in any number, are not tried, and the order of an unordered map is that of one library.", "anchors": ["include/daw/json/impl/daw_json_default_constuctor.h: default_constructor<std::unordered_map>", "include/daw/json/impl/daw_json_parse_value.h: parse_value_keyvalue", "include/daw/json/daw_from_json.h: from_json", "include/daw/json/impl/to_daw_json_string.h: to_json_string_kv"]}
