{
 "claims": [
  {
   "property": "C01",
   "status": "proved",
   "theorems": [
    "C01_unsigned_exact",
    "C01_unsigned_exact_width"
   ],
   "note": ""
  },
  {
   "property": "C02",
   "status": "partial",
   "theorems": [
    "C02_unsigned_range_check_partial",
    "C02_unsigned_range_check_refuted",
    "C02_unsigned_range_check_known_refuted"
   ],
   "note": "refuted: numerals from 2^64 on wrap silently; proved below 2^64"
  },
  {
   "property": "C03",
   "status": "partial",
   "theorems": [
    "C03_signed_range_check_partial",
    "C03_signed_range_check_refuted"
   ],
   "note": "refuted: int8 200 gives -56; proved outside the gap between signed and unsigned maximum"
  },
  {
   "property": "C04",
   "status": "partial",
   "theorems": [
    "C04_signed_exact_partial",
    "C04_signed_exact_refuted"
   ],
   "note": "refuted for INT32_MIN only (undefined behaviour); proved for every other value of every width"
  },
  {
   "property": "C05",
   "status": "proved",
   "theorems": [
    "C05_unsigned_canonical",
    "C05_signed_canonical",
    "C05_quoted"
   ],
   "note": ""
  },
  {
   "property": "C06",
   "status": "partial",
   "theorems": [
    "C06_unsigned_round_trip",
    "C06_signed_round_trip_partial",
    "C06_signed_round_trip_refuted",
    "C06_quoted_round_trip_refuted"
   ],
   "note": "refuted for INT32_MIN only (and for quoted numbers at the end of the data)"
  },
  {
   "property": "C14",
   "status": "proved",
   "theorems": [
    "C14_string_end",
    "C14_string_end_exclude_special",
    "C14_skip_string"
   ],
   "note": "default execution mode, checked and unchecked"
  },
  {
   "property": "C15",
   "status": "proved",
   "theorems": [
    "C15_string_scan_safe",
    "C15_unterminated_throws",
    "C15_success_is_string"
   ],
   "note": ""
  },
  {
   "property": "C16",
   "status": "partial",
   "theorems": [
    "C16_runtime_same_end_partial",
    "C16_no_escape_partial",
    "C16_simd_end_partial",
    "C16_first_escape_refuted",
    "C16_simd_end_refuted",
    "C16_simd_escape_refuted"
   ],
   "note": "refuted: runtime mode negates the escape offset, simd mode loses an escape across the last block and reports escapes relative to the block; the end position is proved equal for runtime against compile-time mode, and for simd unless an escape lies across the end of the last full block"
  },
  {
   "property": "C07",
   "status": "partial",
   "theorems": [
    "C07_skip_number_partial",
    "C07_unsigned_partial",
    "C07_signed_partial",
    "C07_skip_number_refuted",
    "C07_parse_refuted",
    "C07_minus_refuted"
   ],
   "note": "refuted: '-', '1.' and '007' are accepted; what is accepted when skipping is characterised"
  },
  {
   "property": "C17",
   "status": "partial",
   "theorems": [
    "C17_skip_value_partial",
    "C17_null_document_refuted"
   ],
   "note": "refuted for a document that ends right after null; proved for every other position, all comment policies, checked and unchecked, constexpr and runtime modes, values shorter than 2^32 bytes"
  },
  {
   "property": "C18",
   "status": "proved",
   "theorems": [
    "C18_array_count"
   ],
   "note": ""
  },
  {
   "property": "C19",
   "status": "partial",
   "theorems": [
    "C19_balanced_partial",
    "C19_mismatch_refuted"
   ],
   "note": "refuted: [}{] is accepted; proved that own-kind brackets nest and other-kind brackets are equally many"
  },
  {
   "property": "C20",
   "status": "proved",
   "theorems": [
    "C20_checked_unchecked_agree"
   ],
   "note": ""
  },
  {
   "property": "C21",
   "status": "partial",
   "theorems": [
    "C21_skip_value_safe",
    "C21_comments_refuted"
   ],
   "note": "proved for input without comment support, all execution modes; refuted for the two comment policies"
  },
  {
   "property": "C22",
   "status": "partial",
   "theorems": [
    "C22_cpp_comments_partial",
    "C22_double_star_refuted",
    "C22_unchecked_refuted",
    "C22_overread_refuted"
   ],
   "note": "refuted: /***/ swallows the rest of the document, a final slash is over-read, unchecked mode misses comments after whitespace"
  },
  {
   "property": "C23",
   "status": "partial",
   "theorems": [
    "C23_hash_comments_partial",
    "C23_overread_refuted",
    "C23_unchecked_refuted"
   ],
   "note": "refuted: an unterminated comment at the end of the data reads past it"
  },
  {
   "property": "C49",
   "status": "proved",
   "theorems": [
    "C49_trim_exact",
    "C49_trim_end",
    "C49_trim_safe",
    "C49_separator"
   ],
   "note": "whitespace inside values is covered by C17"
  },
  {
   "property": "C33",
   "status": "proved",
   "theorems": [
    "C33_set_bits",
    "C33_set_one",
    "C33_get_fits",
    "C33_set_bits_in_refuted"
   ],
   "note": "all option lists of fewer than 32 bits; the uncalled in-place variant set_bits_in is refuted"
  },
  {
   "property": "C34",
   "status": "partial",
   "theorems": [
    "C34_zero_default_partial",
    "C34_parse_number_bool_custom_partial",
    "C34_enumerators_partial",
    "C34_output_flags",
    "C34_output_flags_enumerators",
    "C34_string_opt_refuted",
    "C34_string_raw_opt_refuted",
    "C34_serialize_options_refuted",
    "C34_twice_refuted"
   ],
   "note": "refuted for string_opt, string_raw_opt and serialize_options, which or the request onto non-zero defaults; proved for output_flags and for the lists whose defaults are zero"
  },
  {
   "property": "C35",
   "status": "partial",
   "theorems": [
    "C35_full_check",
    "C35_short_names_partial",
    "C35_mapped_name_found",
    "C35_collision_refuted"
   ],
   "note": "refuted by default: liquid is taken for costarring; proved with the full name check and for names of at most four bytes"
  },
  {
   "property": "C53",
   "status": "proved",
   "theorems": [
    "C53_long_short_agree",
    "C53_short_names_distinct"
   ],
   "note": ""
  },
  {
   "property": "C43",
   "status": "partial",
   "theorems": [
    "C43_round_trip_partial",
    "C43_small_fraction_refuted",
    "C43_before_1970_refuted"
   ],
   "note": "holds for time points from 1970 on whose millisecond part is 0 or at least 100; refuted for 1..99 ms (fraction written without leading zeros) and before 1970"
  },
  {
   "property": "C44",
   "status": "proved",
   "theorems": [
    "C44_days_of_date",
    "C44_calendar_bijection",
    "C44_to_time_point",
    "C44_from_time_point",
    "C44_round_trip",
    "C44_huge_year_refuted"
   ],
   "note": "day number counted by successor in the calendar; years whose day number leaves 32 bits wrap (refuted lemma)"
  },
  {
   "property": "C45",
   "status": "partial",
   "theorems": [
    "C45_offset_refuted",
    "C45_wrap_refuted",
    "C45_offset_never_accepted"
   ],
   "note": "refuted whichever way the external pop_front_until treats the delimiter; if it drops it, every timestamp with an offset is refused"
  },
  {
   "property": "C46",
   "status": "partial",
   "theorems": [
    "C46_fields_partial",
    "C46_no_such_day_refuted",
    "C46_no_such_time_refuted",
    "C46_malformed_field_refuted"
   ],
   "note": "month 1-12, day 1-31, hour <=24, minute <=59, second <=60 enforced; refuted for 31 February, 24:59 and malformed digits"
  },
  {
   "property": "C47",
   "status": "partial",
   "theorems": [
    "C47_day_of_week_partial",
    "C47_date_partial",
    "C47_before_1970_refuted"
   ],
   "note": "right from 1970 on and for midnight on every date; refuted for other times before 1970"
  },
  {
   "property": "C10",
   "status": "partial",
   "theorems": [
    "C10_round_trip",
    "C10_round_trip_document",
    "C10_runtime_refuted"
   ],
   "note": "proved in the default execution mode for every Unicode string, full and 7-bit output, checked and unchecked; refuted in runtime execution mode, where escapes are not decoded"
  },
  {
   "property": "C11",
   "status": "proved",
   "theorems": [
    "C11_output_legal",
    "C11_raw_refuted"
   ],
   "note": "escaped strings; the separate raw string type does not escape (refuted lemma)"
  },
  {
   "property": "C12",
   "status": "partial",
   "theorems": [
    "C12_decode",
    "C12_decode_disallow_high",
    "C12_decode_located",
    "C12_scalar",
    "C12_runtime_refuted",
    "C12_disallow_high_empty_refuted"
   ],
   "note": "proved in the default execution mode for every text; refuted in runtime mode (escape left undecoded)"
  },
  {
   "property": "C13",
   "status": "partial",
   "theorems": [
    "C13_cut_short_partial",
    "C13_not_hex_refuted",
    "C13_low_surrogate_refuted",
    "C13_no_second_escape_refuted"
   ],
   "note": "refuted: hex digits are validated for unchecked input only; only escapes cut short are refused"
  },
  {
   "property": "C50",
   "status": "partial",
   "theorems": [
    "C50_reads_inside_partial",
    "C50_truncated_refuted",
    "C50_c_string_never_ends_refuted"
   ],
   "note": "refuted: a truncated sequence at the end is over-read and a C string with a stray byte is written for ever; proved for correct UTF-8 and strings with no late lead byte"
  },
  {
   "property": "C54",
   "status": "proved",
   "theorems": [
    "C54_decode_safe",
    "C54_parse_string_safe"
   ],
   "note": ""
  },
  {
   "property": "C32",
   "status": "proved",
   "theorems": [
    "C32_span_no_overrun",
    "C32_outside_untouched"
   ],
   "note": "each single write smaller than 2^64 bytes"
  },
  {
   "property": "C40",
   "status": "proved",
   "theorems": [
    "C40_partition"
   ],
   "note": "partitioning; iteration over a part is not covered here"
  },
  {
   "property": "C41",
   "status": "partial",
   "theorems": [
    "C41_line_partial",
    "C41_column_partial",
    "C41_start_refuted"
   ],
   "note": "right everywhere but at the first byte of the document, where both functions throw"
  },
  {
   "property": "C55",
   "status": "partial",
   "theorems": [
    "C55_string_output",
    "C55_file_output_partial",
    "C55_file_output_refuted"
   ],
   "note": "refuted for C streams: put of a byte from 0x80 on succeeds and is reported as OutputError"
  },
  {
   "property": "C24",
   "status": "partial",
   "theorems": [
    "C24_any_order_partial",
    "C25_agree_partial"
   ],
   "note": "member types: integers, booleans, strings, nullables, arrays, maps, classes, tuples; constant evaluation scanner; document names plain and without hash collision; objects whose members fit their types"
  },
  {
   "property": "C25",
   "status": "partial",
   "theorems": [
    "C25_unmapped_ignored_partial",
    "C25_agree_partial",
    "C25_escaped_name_refuted",
    "C25_backslash_name_refuted",
    "C25_exact_rejected_partial",
    "C25_exact_document_partial"
   ],
   "note": "refuted for names with an escaped quote or a final backslash; holds for plain names that share no hash with a mapped name; with exact mappings such a member is rejected, proved for objects that the mapping without the flag reads"
  },
  {
   "property": "C26",
   "status": "partial",
   "theorems": [
    "C26_missing_required_partial",
    "C26_missing_document_partial",
    "C29_parse_partial",
    "C26_empty_value_refuted"
   ],
   "note": "same member types as C24; absent optional members are part of typed, used in C29_parse_partial"
  },
  {
   "property": "C27",
   "status": "partial",
   "theorems": [
    "C27_refuted",
    "C27_null_refuted",
    "C27_exact_refuted"
   ],
   "note": "refuted: which occurrence counts depends on the declaration order"
  },
  {
   "property": "C28",
   "status": "partial",
   "theorems": [
    "C28_elements_in_order_partial",
    "C28_missing_comma_refuted",
    "C28_separator_partial"
   ],
   "note": "element types of the model; malformed separators are accepted; anything but a comma or the closing bracket after an element is rejected"
  },
  {
   "property": "C48",
   "status": "partial",
   "theorems": [
    "C48_garbage_rejected_partial",
    "C48_whitespace_accepted_partial",
    "C48_control_refuted"
   ],
   "note": "refuted for trailing bytes 1 to 31, which count as whitespace"
  },
  {
   "property": "C51",
   "status": "proved",
   "theorems": [
    "C51_name_exact",
    "C51_used",
    "C51_escaped_name_exact"
   ],
   "note": "checked and unchecked, all comment policies"
  },
  {
   "property": "C56",
   "status": "partial",
   "theorems": [
    "C56_extra_ignored_partial",
    "C56_array_refuted"
   ],
   "note": "refuted when the first additional element is an array"
  },
  {
   "property": "C57",
   "status": "partial",
   "theorems": [
    "C57_leading_partial",
    "C57_scalar_refuted"
   ],
   "note": "refuted for everything but arrays, classes and tuples"
  },
  {
   "property": "C58",
   "status": "partial",
   "theorems": [
    "C58_terminated_partial",
    "C58_unterminated_partial",
    "C58_array_refuted",
    "C58_class_refuted",
    "C58_other_kind_refuted",
    "C58_exact_tuple_refuted",
    "C58_variant_refuted"
   ],
   "note": "proved for arbitrary bytes and types without int32 and with strings only as first member, in variants or outside of classes, for documents with a zero byte after them, or without arrays, exact tuples, variants and custom types that take anything; refuted: open arrays; open exact tuples; a skipped number given for a string; a missing value of a variant; open classes outside of constant evaluation"
  },
  {
   "property": "C29",
   "status": "partial",
   "theorems": [
    "C29_round_trip_partial",
    "C29_parse_partial",
    "C29_lowest_refuted",
    "C29_nested_optional_refuted"
   ],
   "note": "round trip proved for all types of integers, booleans, escaped strings, optionals, arrays, maps, classes and tuples, all layouts, documents below 4 GiB; refuted for the lowest 32 bit integer and nested optionals; names must need no escapes"
  },
  {
   "property": "C30",
   "status": "partial",
   "theorems": [
    "C30_layout_only_partial"
   ],
   "note": "same types as C29; both outputs are texts of one value and the minified one is its text without whitespace"
  },
  {
   "property": "C31",
   "status": "partial",
   "theorems": [
    "C31_well_formed_partial",
    "C31_ordered_partial",
    "C31_name_refuted",
    "C31_ordered_refuted"
   ],
   "note": "proved for the types of C29 and for classes written as arrays without gaps inside; refuted for names with quotes and for ordered classes with gaps"
  },
  {
   "property": "C59",
   "status": "partial",
   "theorems": [
    "C59_written_partial",
    "C59_refuted"
   ],
   "note": "refuted: a NullVisible member without value is not written; members that have a value or are required are written"
  },
  {
   "property": "C60",
   "status": "partial",
   "theorems": [
    "C60_seven_bits_partial",
    "C60_refuted"
   ],
   "note": "refuted: member names are written unchanged; with 7 bit names all output is 7 bit"
  },
  {
   "property": "C61",
   "status": "partial",
   "theorems": [
    "C61_refuted"
   ],
   "note": "refuted: a class whose members are all absent is written as {,}"
  },
  {
   "property": "C36",
   "status": "partial",
   "theorems": [
    "C36_iterate_partial",
    "C36_type_partial",
    "C36_text_partial",
    "C36_as_partial",
    "C36_root_partial",
    "C36_name_refuted",
    "C36_positions_partial",
    "C36_raw_partial"
   ],
   "note": "proved for names the parser delimits (without escapes at the default setting, any with escaped names allowed), values followed by something when null; refuted for a name with an escaped quote"
  },
  {
   "property": "C37",
   "status": "partial",
   "theorems": [
    "C37_by_name_partial",
    "C37_by_index_partial",
    "C37_past_end_partial",
    "C37_index_refuted",
    "C37_escape_refuted"
   ],
   "note": "proved for names without backslash and all indices except one past the end of an object; refuted: that index throws, and names with a backslash are never found"
  },
  {
   "property": "C38",
   "status": "partial",
   "theorems": [
    "C38_class_partial",
    "C38_position_partial",
    "C38_size_partial",
    "C38_by_index_partial",
    "C38_by_name_partial",
    "C38_array_refuted",
    "C38_contains_refuted",
    "C38_least_index_refuted"
   ],
   "note": "proved for every history over a class of any bytes, and for queries by position over any value; refuted for names asked of an array, for the evaluation order of contains, and undefined for the least index"
  },
  {
   "property": "C39",
   "status": "partial",
   "theorems": [
    "C39_negative_partial",
    "C39_first_refuted"
   ],
   "note": "proved for k < n; refuted for k = n, which is refused"
  },
  {
   "property": "C62",
   "status": "partial",
   "theorems": [
    "C62_iterate_partial",
    "C62_type_partial",
    "C62_by_name_partial",
    "C62_by_index_partial",
    "C62_path_partial",
    "C62_history_partial",
    "C62_refuted"
   ],
   "note": "proved for every reached value that has a byte left; refuted: find_element on an empty value dereferences null or reads past the end"
  },
  {
   "property": "C52",
   "status": "partial",
   "theorems": [
    "C52_lookup_partial",
    "C52_render_partial",
    "C52_rendered_partial",
    "C52_find_range_partial",
    "C52_rendered_refuted",
    "C52_find_range_refuted",
    "C52_missing_partial"
   ],
   "note": "refuted: a rendered path that starts with a name begins with a dot, for which find_member looks up the empty name and finds nothing. Proved: find_member follows the text of every path of simple names and canonical indices; rendered paths are found when they start with an index or without the leading dot; find_range follows paths without leading or consecutive indices. A path that leads nowhere finds a value of no type."
  },
  {
   "property": "C63",
   "status": "partial",
   "theorems": [
    "C63_partial",
    "C63_verify_refuted",
    "C63_missing_partial"
   ],
   "note": "proved for paths of simple names, without verification of the end; refuted with verification: the rest of the document is taken for trailing data; a path that leads nowhere is an error, or empty for a nullable type, for every setting of the verification"
  },
  {
   "property": "C42",
   "status": "partial",
   "theorems": [
    "C42_calls_partial",
    "C42_traversal_partial",
    "C42_no_more_partial",
    "C42_complete_partial",
    "C42_safe_partial",
    "C42_skip_refuted",
    "C42_skip_start_refuted",
    "C42_skip_root_refuted",
    "C42_complete_refuted"
   ],
   "note": "proved for every handler: the calls are the pre-order walk up to the first request to stop, and nothing follows it; refuted: a request to skip or to complete inside a container throws, a request to skip the outermost value is undefined"
  },
  {
   "property": "C08",
   "status": "partial",
   "theorems": [
    "C08_exact_partial",
    "C08_truncated_partial",
    "C08_known_partial",
    "C08_digits_refuted",
    "C08_zero_refuted",
    "C08_float_zero_refuted",
    "C08_exponent_refuted"
   ],
   "note": "refuted: reading at once keeps 17 digits before the exponent with a fraction (leading zeros count), 18 without, so 0.00000000000000001 is read as zero; exponents are taken modulo 2^64. Proved exact below these limits, truncated in general"
  },
  {
   "property": "C64",
   "status": "partial",
   "theorems": [
    "C64_form_partial",
    "C64_refuted"
   ],
   "note": "refuted: 1. -.5 - -01 are accepted; proved: nothing looser is"
  },
  {
   "property": "C65",
   "status": "partial",
   "theorems": [
    "C65_unknown_partial",
    "C65_known_partial",
    "C65_past_end_refuted",
    "C65_overflow_refuted"
   ],
   "note": "refuted: a whole number that ends with the range is read past its end; exponent near -2^63 overflows. Proved on any bytes when something that is no digit follows in the range"
  },
  {
   "property": "C66",
   "status": "partial",
   "theorems": [
    "C66_partial",
    "C66_refuted"
   ],
   "note": "proved below 18 digits for double, refuted at 18"
  },
  {
   "property": "C67",
   "status": "partial",
   "theorems": [
    "C67_partial",
    "C67_refuted"
   ],
   "note": "proved when the whole part is not 0, refuted for leading zeros"
  },
  {
   "property": "C68",
   "status": "partial",
   "theorems": [
    "C68_unknown_partial",
    "C68_known_partial",
    "C68_float_refuted"
   ],
   "note": "proved for double, refuted for float"
  },
  {
   "property": "C09",
   "status": "proved",
   "theorems": [
    "C09_denotes",
    "C09_member"
   ],
   "note": "for significands and exponents of double and float as computed by the dragonbox algorithm, which is not modelled"
  },
  {
   "property": "C69",
   "status": "partial",
   "theorems": [
    "C69_partial",
    "C69_default_partial",
    "C69_refuted"
   ],
   "note": "proved when fewer than 18 (10) digits are written; refuted: 0.30000000000000004 is read back as 0.3"
  },
  {
   "property": "C70",
   "status": "partial",
   "theorems": [
    "C70_unknown_partial",
    "C70_known_nan_partial",
    "C70_refuted"
   ],
   "note": "proved where the value stands and for skipped NaN; refuted: a skipped Infinity is rejected"
  },
  {
   "property": "C71",
   "status": "partial",
   "theorems": [
    "C71_prefix_refuted",
    "C71_swallow_refuted",
    "C71_position_refuted",
    "C71_past_end_refuted"
   ],
   "note": "refuted: NaNtucket is NaN, the text up to the next quote is swallowed, one quote is read past its end"
  },
  {
   "property": "C72",
   "status": "partial",
   "theorems": [
    "C72_partial",
    "C72_refuted"
   ],
   "note": "proved for all but zero; refuted: minus zero is written as 0"
  },
  {
   "property": "C73",
   "status": "partial",
   "theorems": [
    "C73_other_kind_partial",
    "C73_error_partial",
    "C73_known_partial",
    "C73_number_refuted",
    "C73_string_refuted",
    "C73_embedded_refuted"
   ],
   "note": "proved for the document, elements and members found in their place, and for every type but integers and strings for members that were skipped first; refuted for members that were skipped first: 1.5 is read as the integer 2645"
  },
  {
   "property": "C74",
   "status": "partial",
   "theorems": [
    "C74_unknown_partial",
    "C74_known_partial",
    "ref_from_chars_exact",
    "C74_underflow_refuted",
    "C74_single_refuted"
   ],
   "note": "proved for double given that std::from_chars is exact (a reader that is exact is given); refuted: 1e-400 is read as infinity when from_chars reports underflow as out of range, and a float 1e-19 is not the nearest float"
  },
  {
   "property": "C75",
   "status": "partial",
   "theorems": [
    "C75_unknown_partial",
    "C75_known_partial",
    "C75_runtime_refuted"
   ],
   "note": "proved in the normal range with a nonzero whole part or fewer than 18 digits; refuted in the runtime execution mode: the exponent is cut to 32 bits, 1e4294967296 is read as 1"
  },
  {
   "property": "C76",
   "status": "partial",
   "theorems": [
    "C76_zero_partial",
    "C76_text_partial",
    "C76_refuted"
   ],
   "note": "proved for exponents up to 308; refuted: 0e309 is NaN"
  },
  {
   "property": "C77",
   "status": "partial",
   "theorems": [
    "C77_unknown_partial",
    "C77_known_partial",
    "C77_default_refuted"
   ],
   "note": "proved with IEEE754Precise given an exact from_chars and digits that round to the double; refuted for the default mode: 0.30000000000000004 comes back as 0.3"
  },
  {
   "property": "C78",
   "status": "partial",
   "theorems": [
    "C78_pairs_partial",
    "C78_round_trip_partial",
    "C78_empty_partial",
    "C78_space_refuted"
   ],
   "note": "proved for arrays that are not empty and for [] itself; refuted: [ ] with whitespace is refused"
  },
  {
   "property": "C79",
   "status": "partial",
   "theorems": [
    "C79_literal_partial",
    "C79_string_partial",
    "C79_literal_round_trip_partial",
    "C79_string_round_trip_partial",
    "C79_string_refuted",
    "C79_escape_refuted",
    "C79_null_refuted",
    "C79_any_refuted",
    "C79_order_refuted"
   ],
   "note": "proved for numbers, true and false, and for strings that are not empty and do not start with a bracket; refuted: these strings, null, any value (strings lose the closing quote, arrays and classes are refused), quotes in the output, numbers given for a string that was skipped first"
  },
  {
   "property": "C80",
   "status": "partial",
   "theorems": [
    "C80_kind_partial",
    "C80_no_alternative_partial",
    "C80_round_trip_partial",
    "C80_null_refuted",
    "C80_literal_refuted"
   ],
   "note": "proved for every value and every alternative whose kind tells it; refuted: the null of a nullable alternative and custom literals cannot be read back"
  },
  {
   "property": "C81",
   "status": "partial",
   "theorems": [
    "C81_tag_anywhere_partial",
    "C81_no_tag_partial",
    "C81_exact_refuted"
   ],
   "note": "proved without exact mappings; refuted: with UseExactMappingsByDefault every member but the tag is refused"
  },
  {
   "property": "C82",
   "status": "partial",
   "theorems": [
    "C82_class_partial",
    "C82_tag_anywhere_partial",
    "C82_no_tag_partial",
    "C82_order_refuted",
    "C82_null_pointer_refuted"
   ],
   "note": "proved for variants that come in turn, or whose value is an object, an array, true or false; refuted: a number or a string that was skipped first is refused, 1e5 dereferences null"
  },
  {
   "property": "C83",
   "status": "partial",
   "theorems": [
    "C83_size_anywhere_partial",
    "C83_order_refuted",
    "C83_null_pointer_refuted",
    "C83_size_refuted",
    "C83_path_refuted"
   ],
   "note": "proved for arrays that come in turn: elements and size reach the constructor; refuted: the size is not compared and may be negative, is not found behind an array that was skipped first, and its name is taken as a path; a number in place of the array dereferences null"
  },
  {
   "property": "C84",
   "status": "partial",
   "theorems": [
    "C84_text_partial",
    "C84_skipped_partial",
    "C84_quotes_refuted",
    "C84_null_refuted"
   ],
   "note": "proved for members that come in turn and are not null; refuted: strings that were skipped first lose their quotes, null has no text"
  },
  {
   "property": "C85",
   "status": "partial",
   "theorems": [
    "C85_same_value_partial",
    "C85_round_trip_partial"
   ],
   "note": "proved for the types of the model without reals, dates, tagged variants and sized arrays, default execution mode, below 2^31-1 bytes and without zero bytes in the text"
  },
  {
   "property": "C86",
   "status": "partial",
   "theorems": [
    "C86_inside_partial",
    "C86_cut_off_partial",
    "C86_escape_refuted",
    "C86_literal_refuted",
    "C86_open_class_refuted"
   ],
   "note": "proved for all bytes and types without strings and names; refuted: a backslash before the zero, a skipped literal cut short, a class that is not closed"
  },
  {
   "property": "C87",
   "status": "partial",
   "theorems": [
    "C87_same_partial",
    "C87_zero_refuted",
    "C87_skipped_refuted",
    "C87_skipped_null_refuted",
    "C87_read_refuted",
    "C87_number_refuted"
   ],
   "note": "proved for texts without a zero byte and types without strings and names; refuted: literals are skipped by their first letter, skipped reals read as integers differ, text behind an embedded zero is ignored"
  },
  {
   "property": "C88",
   "status": "partial",
   "theorems": [
    "C88_well_formed_partial",
    "C88_raw_refuted"
   ],
   "note": "proved for all values whose raw members hold JSON without whitespace and whose tags agree; refuted: a raw string that was skipped when read is written without its quotes"
  },
  {
   "property": "C89",
   "status": "partial",
   "theorems": [
    "C89_round_trip_partial",
    "C89_optional_refuted",
    "C89_exact_refuted"
   ],
   "note": "proved when no optional member mapped before a sized array, or before a tagged number or string, is empty; refuted: with an empty one such variants are refused, and exact mappings refuse the tag that is written"
  },
  {
   "property": "C90",
   "status": "partial",
   "theorems": [
    "C90_elements_partial",
    "C90_distance_partial",
    "C90_bool_refuted",
    "C90_nullable_refuted"
   ],
   "note": "proved when every element is looked at or its type can be passed over; refuted for booleans and nullable values that are not looked at"
  },
  {
   "property": "C91",
   "status": "partial",
   "theorems": [
    "C91_inside_partial",
    "C91_ends_partial",
    "C91_endless_refuted",
    "C91_endless_nullable_refuted",
    "C91_path_refuted",
    "C91_nested_refuted"
   ],
   "note": "memory safety proved for the types without arrays and variants, the end when every element is looked at; refuted: loops that never end, the constructor with a path, arrays of arrays"
  },
  {
   "property": "C92",
   "status": "partial",
   "theorems": [
    "C92_lines_partial",
    "C92_signed_refuted",
    "C92_bool_refuted"
   ],
   "note": "proved for all types without signed numbers and booleans at their end; refuted for those"
  },
  {
   "property": "C93",
   "status": "partial",
   "theorems": [
    "C93_never_refuted",
    "C93_refuted"
   ],
   "note": "refuted: no loop over json_array_range_once ends without an error"
  },
  {
   "property": "C94",
   "status": "partial",
   "theorems": [
    "C94_start_partial",
    "C94_truncated_refuted",
    "C94_comma_refuted",
    "C94_lines_refuted"
   ],
   "note": "proved for text that does not start with a bracket; refuted for truncated arrays, missing commas and several values on a line"
  },
  {
   "property": "C95",
   "status": "partial",
   "theorems": [
    "C95_path_partial",
    "C95_not_array_partial",
    "C95_missing_partial",
    "C95_index_refuted"
   ],
   "note": "proved for paths of plain names and indices behind a name; refuted for a leading index and for two indices in a row"
  },
  {
   "property": "C96",
   "status": "partial",
   "theorems": [
    "C96_not_equal_partial",
    "C96_equal_partial",
    "C96_equivalence_partial",
    "C96_end_partial",
    "C96_good_partial",
    "C96_once_refuted",
    "C96_refuted"
   ],
   "note": "proved for json_array_iterator and json_lines_iterator; refuted for json_array_iterator_once, which is not equal to itself at its end"
  },
  {
   "property": "C97",
   "status": "partial",
   "theorems": [
    "C97_well_formed_partial",
    "C97_empty_class_refuted",
    "C97_title_refuted",
    "C97_seven_bit_refuted"
   ],
   "note": "proved for names, identifiers and titles without escapes; refuted for a class without members, titles with quotes and, with 7 bit output, optional members with high bytes in their names"
  },
  {
   "property": "C98",
   "status": "partial",
   "theorems": [
    "C98_conforms_partial",
    "C98_tuple_refuted"
   ],
   "note": "proved for types without tuples; refuted for tuples"
  },
  {
   "property": "C99",
   "status": "partial",
   "theorems": [
    "C99_valid_partial",
    "C99_null_refuted",
    "C99_tag_refuted"
   ],
   "note": "proved for texts without null and variants whose alternatives the schema tells apart; refuted for null elements and for variants with an embedded tag"
  },
  {
   "property": "C100",
   "status": "partial",
   "theorems": [
    "C100_read_partial",
    "C100_range_refuted",
    "C100_fraction_refuted",
    "C100_exact_refuted",
    "C100_tuple_refuted",
    "C100_tag_refuted"
   ],
   "note": "proved for small integers, strings and names that can be decoded, and classes, arrays, maps and variants of different kinds; refuted for out of range integers, 1.0, exact mappings, short tuples and embedded tags"
  },
  {
   "property": "C101",
   "status": "partial",
   "theorems": [
    "C101_same_value_partial",
    "C101_round_trip_partial",
    "C101_null_refuted",
    "C101_null_end_refuted",
    "C101_missing_refuted"
   ],
   "note": "proved for documents that leave nothing out and have no null at an optional value; refuted for null, which eats the byte behind it, and for optional members that are left out"
  },
  {
   "property": "C102",
   "status": "partial",
   "theorems": [
    "C102_inside_partial",
    "C102_missing_refuted",
    "C102_view_refuted"
   ],
   "note": "proved under the same conditions when a zero byte follows the document; refuted for optional members that are left out and for views that nothing follows"
  },
  {
   "property": "C103",
   "status": "partial",
   "theorems": [
    "C103_read_partial",
    "C103_root_refuted",
    "C103_order_refuted"
   ],
   "note": "proved with IEEE754Precise, given an exact from_chars, and without it for numbers of up to 15 digits and small exponents, for dates in UTC; refuted for a whole number that is the whole document and, without IEEE754Precise, for the order of members"
  },
  {
   "property": "C104",
   "status": "partial",
   "theorems": [
    "C104_well_formed_partial",
    "C104_round_trip_partial",
    "C104_default_refuted",
    "C104_values_refuted"
   ],
   "note": "proved with IEEE754Precise for finite doubles other than the negative zero and the dates of C43, given that Dragonbox and from_chars are exact; refuted without IEEE754Precise, for the negative zero, NaN, fractions below 100 ms and dates before 1970"
  },
  {
   "property": "C105",
   "status": "partial",
   "theorems": [
    "C105_comments_partial",
    "C105_no_difference_partial",
    "C105_without_partial",
    "C105_garbage_partial",
    "C105_number_refuted",
    "C105_hash_number_refuted",
    "C105_null_refuted",
    "C105_bracket_refuted",
    "C105_skipped_refuted",
    "C105_slash_refuted",
    "C105_open_refuted"
   ],
   "note": "proved for line comments and for blocks without stars and slashes in them and two bytes of whitespace behind, other than directly behind a number, null or a bracket with whitespace; refuted at those places, and for comments that are not closed"
  },
  {
   "property": "C106",
   "status": "partial",
   "theorems": [
    "C106_inside_partial",
    "C106_refuted",
    "C106_terminated_refuted"
   ],
   "note": "proved for the documents of C105; refuted for documents that are cut off, for arrays even when a zero byte follows"
  },
  {
   "property": "C107",
   "status": "partial",
   "theorems": [
    "C107_reads_partial",
    "C107_no_difference_partial",
    "C107_without_strings_partial",
    "C107_round_trip_partial",
    "C107_escape_refuted",
    "C107_simd_refuted",
    "C107_end_refuted",
    "C107_control_refuted",
    "C107_number_refuted"
   ],
   "note": "proved for documents without backslashes that mean a value at the type, for all such documents that one mode reads when the type has no strings, and for what is written; refuted for strings with escapes, documents that are cut off, ExcludeSpecialEscapes, and skipped numbers mapped to strings"
  },
  {
   "property": "C108",
   "status": "partial",
   "theorems": [
    "C108_reads_partial",
    "C108_no_difference_partial",
    "C108_garbage_partial",
    "C108_round_trip_partial"
   ],
   "note": "proved for every document of a value at the type below 2^32 - 1 bytes in the mode for constant evaluation, no reals, dates, tagged variants or sized arrays"
  },
  {
   "property": "C109",
   "status": "partial",
   "theorems": [
    "C109_same_partial",
    "C109_path_same",
    "C109_alloc_partial",
    "C109_reads_partial",
    "C109_blank_refuted",
    "C109_all_blank_refuted",
    "C109_zero_refuted"
   ],
   "note": "proved with a path for all bytes, without one for documents that have a byte that is no whitespace and do not end with a zero; refuted for those"
  },
  {
   "property": "C110",
   "status": "partial",
   "theorems": [
    "C110_reads_partial",
    "C110_path_partial",
    "C110_missing_partial",
    "C110_safe_partial"
   ],
   "note": "proved for the values C36 and C52 reach, types as in C29; safety for every value reached in any bytes, types as in C58"
  },
  {
   "property": "C111",
   "status": "partial",
   "theorems": [
    "C111_accepted_partial",
    "C111_start_partial",
    "C111_unsigned_partial",
    "C111_brackets_partial",
    "C111_zeros_refuted",
    "C111_trailing_refuted",
    "C111_nothing_refuted",
    "C111_missing_refuted"
   ],
   "note": "proved for the grammar of SpecLax, which contains JSON and lists what else is accepted, for integers, booleans, strings, optionals, arrays, maps and exact tuples in the mode for constant evaluation; refuted for JSON itself: leading zeros, trailing and missing commas, nothing in place of an optional value"
  },
  {
   "property": "C112",
   "status": "partial",
   "theorems": [
    "C112_means_partial",
    "C112_kind_partial",
    "C112_count_partial",
    "C112_class_partial",
    "C112_member_partial",
    "C112_fit_refuted"
   ],
   "note": "proved for integers, booleans, strings, optionals, arrays, maps, exact tuples, and classes of these without repeated names in the mode for constant evaluation, numbers that fit their type; refuted for numbers that do not fit"
  },
  {
   "property": "C113",
   "status": "partial",
   "theorems": [
    "C113_reads_partial",
    "C113_report_partial",
    "C113_shown_partial",
    "C113_reason_partial",
    "C113_start_refuted",
    "C113_end_refuted",
    "C113_column_refuted",
    "C113_first_line_refuted"
   ],
   "note": "proved: which locations are read safely, the report behind a newline from byte 50 on; refuted: the first fifty bytes, the end, the column"
  },
  {
   "property": "C114",
   "status": "partial",
   "theorems": [
    "C114_text_partial",
    "C114_distinct_partial",
    "C114_member_partial",
    "C114_place_partial",
    "C114_token_refuted"
   ],
   "note": "proved for all reasons but the missing token; refuted for it"
  },
  {
   "property": "C115",
   "status": "partial",
   "theorems": [
    "C115_count_partial",
    "C115_four_refuted"
   ],
   "note": "proved unless the first other byte is in a block of four; refuted for these"
  },
  {
   "property": "C116",
   "status": "partial",
   "theorems": [
    "C116_path_partial",
    "C116_back_partial",
    "C116_safe_partial",
    "C116_quote_refuted",
    "C116_null_refuted",
    "C116_empty_refuted",
    "C116_broken_refuted"
   ],
   "note": "proved for locations in numbers, booleans and strings of well-formed documents, and safety for any document; refuted for closing quotes, null, empty containers and documents with errors"
  },
  {
   "property": "C117",
   "status": "partial",
   "theorems": [
    "C117_read_partial",
    "C117_missing_partial",
    "C117_disorder_partial",
    "C117_extra_partial",
    "C117_disorder_refuted",
    "C117_lax_refuted",
    "C117_none_refuted"
   ],
   "note": "proved for well-formed documents and mappings with at least one member in the mode for constant evaluation, places out of order only if the array reaches that far; refuted: order in short arrays, commas and the closing bracket, classes without members"
  },
  {
   "property": "C118",
   "status": "partial",
   "theorems": [
    "C118_well_formed_partial",
    "C118_round_trip_partial",
    "C118_gap_refuted"
   ],
   "note": "proved if every member but the last is placed before the number of members minus one, without trailing commas; refuted for wider gaps"
  },
  {
   "property": "C119",
   "status": "partial",
   "theorems": [
    "C119_terminated_partial",
    "C119_unterminated_partial",
    "C119_positions_refuted",
    "C119_exact_refuted"
   ],
   "note": "proved with a zero byte behind the document, and without it for members without places that are not exact; refuted for places and exact classes without it"
  },
  {
   "property": "C120",
   "status": "partial",
   "theorems": [
    "C120_read_partial",
    "C120_more_partial",
    "C120_round_trip_partial",
    "C120_neighbour_refuted",
    "C120_order_refuted",
    "C120_text_refuted"
   ],
   "note": "proved for arrays with at most as many elements in well-formed documents in the mode for constant evaluation, and for longer ones at the top of the document; refuted for longer ones inside of tuples and classes, and if the end is not verified"
  },
  {
   "property": "C121",
   "status": "partial",
   "theorems": [
    "C121_terminated_partial",
    "C121_open_refuted"
   ],
   "note": "proved with a zero byte behind the document; refuted without it"
  },
  {
   "property": "C122",
   "status": "partial",
   "theorems": [
    "C122_call_partial",
    "C122_extra_partial",
    "C122_arity",
    "C122_safe_partial",
    "C122_path_partial",
    "C122_extra_refuted"
   ],
   "note": "proved for well-formed documents in the mode for constant evaluation, with a path if the end is not verified, and for any document that the number of arguments is that of the parameters; refuted: whether further elements are refused depends on their kind"
  },
  {
   "property": "C123",
   "status": "partial",
   "theorems": [
    "C123_name_partial",
    "C123_comments_partial",
    "C123_search_partial",
    "C123_from_json_partial",
    "C123_accepted_partial",
    "C123_document_refuted",
    "C123_null_refuted",
    "C123_comment_refuted",
    "C123_no_quote",
    "C123_zero_refuted"
   ],
   "note": "proved for whole documents without comments in the mode for constant evaluation (same outcome, or a null pointer where the document would be refused), for names with a quote behind them, gaps without comments, and searches that find something before a zero byte; refuted: names that do not end, comments, zero bytes"
  },
  {
   "property": "C124",
   "status": "partial",
   "theorems": [
    "C124_read_partial",
    "C124_only_partial",
    "C124_unchecked_read_partial",
    "C124_known_partial",
    "C124_round_trip_partial",
    "C124_safe_partial",
    "C124_half_refuted",
    "C124_end_refuted",
    "C124_order_refuted",
    "C124_unchecked_refuted"
   ],
   "note": "proved for booleans that are not read out of order, checked (with Maybe if something follows) and unchecked, and that out of order the first byte decides; refuted: Maybe takes one quote, refuses a literal at the end of the data; out of order only the first byte counts, and with unchecked input a false in quotes is true"
  },
  {
   "property": "C125",
   "status": "partial",
   "theorems": [
    "C125_read_partial",
    "C125_extra_partial",
    "C125_terminated_partial",
    "C125_unterminated_partial",
    "C125_array_refuted",
    "C125_missing_refuted",
    "C125_disorder_refuted",
    "C125_lax_refuted",
    "C125_open_refuted",
    "C125_end_refuted"
   ],
   "note": "proved for well-formed documents with at least one member when no array follows the last member, and that no byte outside is read when a zero byte follows the document or no member has a place; refuted: an array behind the last member, missing elements are not called that, places that descend, missing commas and brackets, the byte behind an open array"
  },
  {
   "property": "C126",
   "status": "partial",
   "theorems": [
    "C126_read_partial",
    "C126_range_partial",
    "C126_inside_partial",
    "C126_open_refuted",
    "C126_missing_refuted",
    "C126_lax_refuted"
   ],
   "note": "proved for well-formed documents, for tuples when no array follows the last member, and that looking for the tag and reading the variant stay inside of a document with a zero byte behind it; refuted: arrays that are not closed, tags that are missing are not called that, missing commas"
  },
  {
   "property": "C127",
   "status": "partial",
   "theorems": [
    "C127_keys",
    "C127_read_partial",
    "C127_path_partial",
    "C127_absent_partial",
    "C127_round_trip_partial",
    "C127_class_refuted",
    "C127_escape_refuted"
   ],
   "note": "proved that the keys are distinct and each has the value of its first member, for well-formed documents, that from_json with a path finds the same keys with the same values when no name has an escape, and that a map written in any order is read back; refuted: classes may take the last member, names with escapes are other names for a path"
  }
 ]
}