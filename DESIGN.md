# Design of the formal model of daw_json_link

Source: `/repo` (header library, read as text only). Prover: Coq 8.16.1 with its standard library; the proofs about rounding use Flocq.

## 1. Modelling conventions

* A byte is a number `N` below 256. A document is a `list N`; a pointer is an index (`nat`) in it.
* Dereferencing an index outside the document gives the distinct outcome `UB`. Throwing gives `Err reason`.
  Success gives `Ok`. No function has a silent default value for a failing read.
* A loop is a fuelled fixpoint with the distinct outcome `Fuel`; theorems exclude it.
* Fixed width arithmetic is explicit: `mod 2^32`, `mod 2^64`; signed overflow is `UB`.
* Every definition cites file and lines of the code it models; simplifications are noted there.
* Specifications (`Spec*.v`) do not use model functions. Theorems relate both.
* `Properties*.v` files hold the final theorems, a `Print Assumptions` for each, and non-vacuity examples.
* A parse state `ps` has the fields of BasicParsePolicy: `first`, `last`, `class_first`, `class_last`, `counter`, and whether
  it is the null state.

## 2. Trusted base

* Coq's kernel (and `vm_compute` for examples and finite sweeps).
* What `Print Assumptions` lists for each theorem: nothing, except four axioms of the standard library (classical real numbers) for the
  theorems about rounding, see section 5.
* The correspondence between the Gallina model and the C++ text, which is by inspection.
* External libraries that are not in `/repo` (daw header_libraries, utf8cpp, Dragonbox core): their functions are modelled
  from their documented behaviour; each use is marked in a comment.
* Floating point arithmetic is IEEE-754 binary64/binary32 with round to nearest even and no excess precision (FLT_EVAL_METHOD 0).
  `std::from_chars` is a parameter of the model; theorems that need it exact say so. Dragonbox: the decimal digits it computes are a parameter;
  theorems that need them to identify the double say so (`dragonbox`, which FloatDec shows can be met).
* The range constructors of `std::map` and `std::unordered_map` keep the first of several equal keys, as the common standard libraries do (C127).
* `char` is signed, `int` is 32 bits, `size_t` is 64 bits, the machine is little-endian.

### Modelled

| File of the model | Code |
|---|---|
| PolicyModel, SkipModel | `daw_json_parse_policy.h`, `daw_json_parse_policy_no_comments.h`, `…_cpp_comments.h`, `…_hash_comments.h`: trimming, comments, bracket skipping; `daw_json_skip.h`: skip_string, skip_true/false/null, skip_number, skip_value |
| StrScanModel | `daw_json_parse_string_quote.h`: parse_nq in the three execution modes, checked and unchecked; `daw_not_const_ex_functions.h`: mem_skip_until_end_of_string, mem_move_to_next_of |
| IntModel | `daw_json_parse_unsigned_int.h`, the integer cases of `daw_json_parse_value.h` |
| RealModel | `daw_json_parse_real.h` up to the scaling by a power of ten, parse_value_real |
| FloatModel | the rest of `daw_json_parse_real.h`: scaling, IEEE754Precise; `daw_json_parse_real_power10.h`; `daw_fp_fallback.h` |
| RealSerModel | `to_daw_json_string.h` to_json_string_real, to_chars; `dragonbox.h` decimal_length, to_chars_impl |
| RealOptModel | parse_value_real with LiteralAsString and JsonNumberErrors |
| IntSerModel | integer output of `to_daw_json_string.h` |
| StrDecodeModel | `daw_json_parse_string_need_slow.h`, `daw_json_parse_std_string.h`: unicode escapes, UTF-16 to UTF-8 |
| StrEncodeModel | copy_to_iterator of `to_daw_json_string.h` |
| DateModel | `daw_json_parse_iso8601_utils.h`, date output |
| OptionsModel | `daw_json_option_bits.h`, parse and output option lists |
| HashModel, ValueModel, NameModel | `daw_murmur3.h` (name_hash), `daw_json_parse_name.h`, `daw_json_location_info.h`, `daw_json_parse_class.h`, and the cases of `daw_json_parse_value.h` for integers, booleans, strings, nullables, arrays, key/value maps, arrays of keys and values, classes, tuples, custom types, variants and variants with an embedded tag; `daw_from_json.h` |
| TagModel | find_index, parse_value_variant_tagged, parse_value_sz_array, parse_value_unknown of `daw_json_parse_value.h`, as members of a class |
| TagSerModel | dependent_member_to_json_str, to_json_str of `to_daw_json_string.h`, serialize_json_class of `daw_json_serialize_impl.h` for classes with tagged variants, sized arrays and raw members |
| IterModel | json_array_iterator, json_array_iterator_once and their ranges of `daw_json_iterator.h`, json_lines_iterator and its range of `daw_json_lines_iterator.h`, skip_known_value of `daw_json_skip.h`; the loops that programs write over them |
| SchemaModel | `daw_json_schema.h` for the types of ValueModel |
| ZModel | the zero-terminated variants of the parsing functions above (`from_json` of a std::string): `daw_json_parse_policy_no_comments.h`, `daw_json_parse_string_quote.h` parse_nq_check, `daw_json_skip.h`, `daw_json_parse_unsigned_int.h`, `daw_json_parse_std_string.h`, for the types of ValueModel |
| UModel | the variants of the same functions for CheckedParseMode::no, for views and std::string |
| CModel | the parsing functions of ValueModel with the C++ and the hash comment policy, and with MinifiedDocument |
| XModel | doubles (`json_number<…, double>`) and dates (`json_date`) inside nullables, arrays, maps, classes and tuples, reading and writing |
| SerModel | serialisation of the same types in `to_daw_json_string.h`, `daw_json_serialize_policy.h` |
| JValueModel, StateModel, PathModel | `daw_json_value.h`, `daw_json_value_state.h`, `daw_json_find_path.h` (rendering), find_range of `daw_json_parse_name.h`, from_json with a path |
| ArrModel | from_json_array, from_json_alloc and from_json of a json_value in `daw_from_json.h` |
| EventModel | `daw_json_event_parser.h` |
| FindModel | find_json_path_stack_to and find_json_path_to of `daw_json_find_path.h` |
| ApplyModel | `json_apply`, `json_apply_impl` (`daw_json_apply.h`) with and without a path |
| PosModel | tuples whose members name their place: `parse_tuple_value` of `daw_json_parse_value.h` with `json_tuple_member` |
| TagPosModel | variants whose tag is another element of the array: `find_index`, `parse_value_variant_tagged` of `daw_json_parse_value.h` with a `json_tuple_member` tag |
| DupModel | `default_constructor` of `std::unordered_map` (`daw_json_default_constuctor.h`), which is given the pairs of an object |
| BoolModel | booleans with LiteralAsString: parse_value_bool, to_json_string_bool |
| LongModel | the searches with ExpectLongNames (`memchr_checked`, `memchr_unchecked`, `mempbrk` of `daw_json_string_util.h`) in comments, names and between members |
| LongValueModel | the functions of ValueModel that reach these searches, from `parse_name` up to `from_json` |
| OrdModel | classes that are read from and written as arrays: `json_tuple_member_list`, `json_ordered_member_list` (`daw_json_parse_class.h`, `maybe_skip_members` of `daw_json_parse_value.h`), inside nullables, arrays, maps, classes and tuples; std::array (`construct_array` of `daw_json_default_constuctor.h`) |
| ReportModel | `daw_json_exception.h` (json_exception, to_formatted_string), daw_json_error of `daw_json_assert.h`, `daw_count_digits.h` |
| MiscModel | writable output for spans and C streams, line and column numbers, `daw_json_lines_iterator.h` partitioning |

### Not modelled

Template and type-level machinery (trait detection, deduction, constructors), allocators, exceptions versus abort,
reals in zero-terminated text, expect_long other than in names, comments and between members, the SSE4.2 and NEON paths other than mem_skip_until_end_of_string,
output of nullable members that depend on others, the Dragonbox computation,
iostream and file output, schemas of reals, dates, raw members and members that depend on others, what an iterator holds after one of its calls threw.

## 3. Properties

Per property: what is modelled, how it is proved, what is missing. Theorem names are those of `MANIFEST.json`. A name ending in `_partial` proves part of the property, `_refuted` a counterexample found by computing the model.

### C01 Unsigned integers parse to their exact decimal value

* Modelled: unsigned_parser in its three versions, including the word-at-a-time digit conversion (IntModel).
* Proof: bit-slicing lemmas for the 64-bit words, then induction over the digits.
* Status: proved. Theorems: `C01_unsigned_exact`, `C01_unsigned_exact_width`.

### C02 Range-checked unsigned parsing never returns a wrong number

* Modelled: C01 and narrow_cast.
* Proof: induction as C01 for values below 2^64.
* Missing: the refuted numerals from 2^64 on.
* Status: partial. Theorems: `C02_unsigned_range_check_partial`, `C02_unsigned_range_check_refuted`, `C02_unsigned_range_check_known_refuted`.
* Note: refuted: numerals from 2^64 on wrap silently; proved below 2^64.

### C03 Range-checked signed parsing never returns a wrong number

* Modelled: parse_value_signed and narrow_cast.
* Proof: case analysis on sign and width.
* Missing: the refuted values between the signed and the unsigned maximum.
* Status: partial. Theorems: `C03_signed_range_check_partial`, `C03_signed_range_check_refuted`.
* Note: refuted: int8 200 gives -56; proved outside the gap between signed and unsigned maximum.

### C04 Signed integers parse to their exact value

* Modelled: parse_value_signed, to_signed.
* Proof: case analysis per width over C01.
* Missing: INT32_MIN, refuted.
* Status: partial. Theorems: `C04_signed_exact_partial`, `C04_signed_exact_refuted`.
* Note: refuted for INT32_MIN only (undefined behaviour); proved for every other value of every width.

### C05 Integers serialise to canonical decimal text

* Modelled: to_daw_json_string for integers: the two-digit table, the buffer and its reversal swap by swap (IntSerModel).
* Proof: induction on the value by division by 100.
* Status: proved. Theorems: `C05_unsigned_canonical`, `C05_signed_canonical`, `C05_quoted`.

### C06 Integers survive a serialise/parse round trip

* Modelled: C01, C04 and C05 composed.
* Proof: composition.
* Missing: INT32_MIN and quoted numbers at the end of the data, refuted.
* Status: partial. Theorems: `C06_unsigned_round_trip`, `C06_signed_round_trip_partial`, `C06_signed_round_trip_refuted`, `C06_quoted_round_trip_refuted`.
* Note: refuted for INT32_MIN only (and for quoted numbers at the end of the data).

### C07 Only numbers allowed by the JSON grammar are accepted

* Modelled: skip_number and the value parsers.
* Proof: the shape of what skip_number and the integer parsers accept is characterised by induction on the digits read.
* Missing: the JSON grammar itself, refuted.
* Status: partial. Theorems: `C07_skip_number_partial`, `C07_unsigned_partial`, `C07_signed_partial`, `C07_skip_number_refuted`, `C07_parse_refuted`, `C07_minus_refuted`.
* Note: refuted: '-', '1.' and '007' are accepted; what is accepted when skipping is characterised.

### C08 Real numbers are read as the exact decimal they denote before rounding

* Modelled: parse_real up to the scaling step (RealModel).
* Proof: digit loops by induction; the kept digits are a prefix of all digits; rational arithmetic.
* Missing: longer numbers, refuted.
* Status: partial. Theorems: `C08_exact_partial`, `C08_truncated_partial`, `C08_known_partial`, `C08_digits_refuted`, `C08_zero_refuted`, `C08_float_zero_refuted`, `C08_exponent_refuted`.
* Note: refuted: reading at once keeps 17 digits before the exponent with a fraction (leading zeros count), 18 without, so 0.00000000000000001 is read as zero; exponents are taken modulo 2^64. Proved exact below these limits, truncated in general.

### C09 Decimal rendering of a real denotes its shortest significand and exponent

* Modelled: to_chars after the dragonbox computation, the dragonbox digit writer, to_json_string_real (RealSerModel).
* Proof: invariant: the digits written so far are the last digits of the significand; arithmetic of the decimal split.
* Missing: the dragonbox computation itself.
* Status: proved. Theorems: `C09_denotes`, `C09_member`.
* Note: for significands and exponents of double and float as computed by the dragonbox algorithm, which is not modelled.

### C10 Escaped string output parses back to the same string

* Modelled: copy_to_iterator and parse_string_known_stdstring (StrEncodeModel, StrDecodeModel).
* Proof: induction over the scalars of the string; nibbles by finite sweep.
* Missing: runtime mode, refuted.
* Status: partial. Theorems: `C10_round_trip`, `C10_round_trip_document`, `C10_runtime_refuted`.
* Note: proved in the default execution mode for every Unicode string, full and 7-bit output, checked and unchecked; refuted in runtime execution mode, where escapes are not decoded.

### C11 Escaped string output is always a legal JSON string body

* Modelled: copy_to_iterator.
* Proof: induction over scalars against the RFC 8259 grammar of string bodies.
* Status: proved. Theorems: `C11_output_legal`, `C11_raw_refuted`.
* Note: escaped strings; the separate raw string type does not escape (refuted lemma).

### C12 Unicode escapes decode to the right UTF-8

* Modelled: decode_utf16 and its callers.
* Proof: arithmetic on code points against the definition of UTF-8.
* Missing: runtime mode, refuted.
* Status: partial. Theorems: `C12_decode`, `C12_decode_disallow_high`, `C12_decode_located`, `C12_scalar`, `C12_runtime_refuted`, `C12_disallow_high_empty_refuted`.
* Note: proved in the default execution mode for every text; refuted in runtime mode (escape left undecoded).

### C13 Malformed unicode escapes are rejected

* Modelled: decode_utf16.
* Proof: every escape cut short by the end of the string throws.
* Missing: escapes with other bytes, refuted.
* Status: partial. Theorems: `C13_cut_short_partial`, `C13_not_hex_refuted`, `C13_low_surrogate_refuted`, `C13_no_second_escape_refuted`.
* Note: refuted: hex digits are validated for unchecked input only; only escapes cut short are refused.

### C14 The end of a string is found exactly

* Modelled: parse_nq in compile-time mode.
* Proof: invariant of the word and byte loops against the grammar of string bodies.
* Status: proved. Theorems: `C14_string_end`, `C14_string_end_exclude_special`, `C14_skip_string`.
* Note: default execution mode, checked and unchecked.

### C15 String scanning stays inside the document

* Modelled: parse_nq in all three modes on arbitrary bytes.
* Proof: bounds invariant of each loop.
* Status: proved. Theorems: `C15_string_scan_safe`, `C15_unterminated_throws`, `C15_success_is_string`.

### C16 Execution modes agree

* Modelled: runtime and simd scanners beside the compile-time one.
* Proof: the runtime end position by the invariant of C14; for simd the bit arithmetic of find_escaped_branchless is proved to be the escape state, by induction over the carries of its addition.
* Missing: an escape across the end of the last full block, refuted.
* Status: partial. Theorems: `C16_runtime_same_end_partial`, `C16_no_escape_partial`, `C16_simd_end_partial`, `C16_first_escape_refuted`, `C16_simd_end_refuted`, `C16_simd_escape_refuted`.
* Note: refuted: runtime mode negates the escape offset, simd mode loses an escape across the last block and reports escapes relative to the block; the end position is proved equal for runtime against compile-time mode, and for simd unless an escape lies across the end of the last full block.

### C17 Skipping a value finds exactly its extent

* Modelled: skip_value and everything it calls.
* Proof: mutual induction over the JSON syntax tree with a bracket-nesting invariant.
* Missing: null at the very end of the data, refuted.
* Status: partial. Theorems: `C17_skip_value_partial`, `C17_null_document_refuted`.
* Note: refuted for a document that ends right after null; proved for every other position, all comment policies, checked and unchecked, constexpr and runtime modes, values shorter than 2^32 bytes.

### C18 The element count of a skipped array is right

* Modelled: the counter of skip_bracketed_item_checked.
* Proof: same induction as C17 with the counter.
* Status: proved. Theorems: `C18_array_count`.

### C19 Mismatched brackets are rejected

* Modelled: skip_bracketed_item_checked.
* Proof: counting invariant: own brackets nest, the other kind is equally many.
* Missing: nesting across kinds, refuted.
* Status: partial. Theorems: `C19_balanced_partial`, `C19_mismatch_refuted`.
* Note: refuted: [}{] is accepted; proved that own-kind brackets nest and other-kind brackets are equally many.

### C20 Checked and unchecked parsing agree on valid documents

* Modelled: checked and unchecked versions of C17.
* Proof: both meet the same specification.
* Status: proved. Theorems: `C20_checked_unchecked_agree`.

### C21 Skipping arbitrary input is memory safe and terminates

* Modelled: skip_value on arbitrary bytes.
* Proof: bounds and fuel invariants of every loop.
* Missing: the comment policies, refuted.
* Status: partial. Theorems: `C21_skip_value_safe`, `C21_comments_refuted`.
* Note: proved for input without comment support, all execution modes; refuted for the two comment policies.

### C22 C++-style comments behave like whitespace

* Modelled: cpp comment policy.
* Proof: induction over a comment grammar without doubled stars.
* Missing: refuted texts.
* Status: partial. Theorems: `C22_cpp_comments_partial`, `C22_double_star_refuted`, `C22_unchecked_refuted`, `C22_overread_refuted`.
* Note: refuted: /***/ swallows the rest of the document, a final slash is over-read, unchecked mode misses comments after whitespace.

### C23 Hash comments behave like whitespace

* Modelled: hash comment policy.
* Proof: induction over comments ended by a newline.
* Missing: refuted texts.
* Status: partial. Theorems: `C23_hash_comments_partial`, `C23_overread_refuted`, `C23_unchecked_refuted`.
* Note: refuted: an unterminated comment at the end of the data reads past it.

### C24 Members of an object may come in any order

* Modelled: class parsing with its location cache (ValueModel, NameProofs, ClassProofs).
* Proof: cache invariant against the member list; induction over types.
* Missing: types outside `ty`; names with escapes; colliding hashes.
* Status: partial. Theorems: `C24_any_order_partial`, `C25_agree_partial`.
* Note: member types: integers, booleans, strings, nullables, arrays, maps, classes, tuples; constant evaluation scanner; document names plain and without hash collision; objects whose members fit their types.

### C25 Members that are not mapped are ignored

* Modelled: as C24.
* Proof: as C24, with the relation `agree` between documents; for exact mappings the cleanup of the class meets the member that was not asked for.
* Missing: names refuted.
* Status: partial. Theorems: `C25_unmapped_ignored_partial`, `C25_agree_partial`, `C25_escaped_name_refuted`, `C25_backslash_name_refuted`, `C25_exact_rejected_partial`, `C25_exact_document_partial`.
* Note: refuted for names with an escaped quote or a final backslash; holds for plain names that share no hash with a mapped name; with exact mappings such a member is rejected, proved for objects that the mapping without the flag reads.

### C26 Missing members are reported, missing optional members are empty

* Modelled: as C24.
* Proof: as C24; the missing member is the first that cannot be got.
* Missing: an empty value counts as missing, refuted.
* Status: partial. Theorems: `C26_missing_required_partial`, `C26_missing_document_partial`, `C29_parse_partial`, `C26_empty_value_refuted`.
* Note: same member types as C24; absent optional members are part of typed, used in C29_parse_partial.

### C27 Duplicate member names are resolved the same way everywhere

* Modelled: as C24.
* Proof: computed counterexamples.
* Missing: everything: which occurrence counts depends on the declaration order.
* Status: partial. Theorems: `C27_refuted`, `C27_null_refuted`, `C27_exact_refuted`.
* Note: refuted: which occurrence counts depends on the declaration order.

### C28 Arrays are parsed element by element in order

* Modelled: the array case of parse_value.
* Proof: induction over elements, also up to the element that another byte follows.
* Missing: separators, refuted.
* Status: partial. Theorems: `C28_elements_in_order_partial`, `C28_missing_comma_refuted`, `C28_separator_partial`.
* Note: element types of the model; malformed separators are accepted; anything but a comma or the closing bracket after an element is rejected.

### C29 Values survive a to_json/from_json round trip

* Modelled: to_json and from_json over the types `ty`.
* Proof: mutual induction over typed values: output is a text of the value, and texts parse to it.
* Missing: types outside `ty`.
* Status: partial. Theorems: `C29_round_trip_partial`, `C29_parse_partial`, `C29_lowest_refuted`, `C29_nested_optional_refuted`.
* Note: round trip proved for all types of integers, booleans, escaped strings, optionals, arrays, maps, classes and tuples, all layouts, documents below 4 GiB; refuted for the lowest 32 bit integer and nested optionals; names must need no escapes.

### C30 Output formatting does not change the meaning of the output

* Modelled: as C29 with every layout option.
* Proof: output is a text of the value in every layout; the minified one has no gaps.
* Missing: types outside `ty`.
* Status: partial. Theorems: `C30_layout_only_partial`.
* Note: same types as C29; both outputs are texts of one value and the minified one is its text without whitespace.

### C31 Output is well-formed JSON

* Modelled: as C29; ordered classes.
* Proof: same induction against the JSON grammar.
* Missing: refuted names and gaps.
* Status: partial. Theorems: `C31_well_formed_partial`, `C31_ordered_partial`, `C31_name_refuted`, `C31_ordered_refuted`.
* Note: proved for the types of C29 and for classes written as arrays without gaps inside; refuted for names with quotes and for ordered classes with gaps.

### C32 Writing to a fixed-size span never overruns it

* Modelled: span output of daw_writable_output.
* Proof: invariant over write histories.
* Status: proved. Theorems: `C32_span_no_overrun`, `C32_outside_untouched`.
* Note: each single write smaller than 2^64 bytes.

### C33 Setting an option sets that option and nothing else

* Modelled: option bit arithmetic.
* Proof: bit-level lemmas over all layouts.
* Status: proved. Theorems: `C33_set_bits`, `C33_set_one`, `C33_get_fits`, `C33_set_bits_in_refuted`.
* Note: all option lists of fewer than 32 bits; the uncalled in-place variant set_bits_in is refuted.

### C34 Options requested when building a policy are in effect

* Modelled: parse_flags, serialisation flags, number/string/bool/custom option words.
* Proof: bit-level lemmas for zero defaults.
* Missing: lists with other defaults, refuted.
* Status: partial. Theorems: `C34_zero_default_partial`, `C34_parse_number_bool_custom_partial`, `C34_enumerators_partial`, `C34_output_flags`, `C34_output_flags_enumerators`, `C34_string_opt_refuted`, `C34_string_raw_opt_refuted`, `C34_serialize_options_refuted`, `C34_twice_refuted`.
* Note: refuted for string_opt, string_raw_opt and serialize_options, which or the request onto non-zero defaults; proved for output_flags and for the lists whose defaults are zero.

### C35 Member lookup never confuses two names

* Modelled: name comparison with and without the full check.
* Proof: injectivity of the hash on short names.
* Missing: long names, refuted.
* Status: partial. Theorems: `C35_full_check`, `C35_short_names_partial`, `C35_mapped_name_found`, `C35_collision_refuted`.
* Note: refuted by default: liquid is taken for costarring; proved with the full name check and for names of at most four bytes.

### C36 Iterating a JSON value visits every member once, in order

* Modelled: json_value and its iterators (JValueModel).
* Proof: invariant of the iterator against the members left; induction; positions grow strictly, so iterators are equal at the same member only.
* Missing: names with an escaped quote, refuted.
* Status: partial. Theorems: `C36_iterate_partial`, `C36_type_partial`, `C36_text_partial`, `C36_as_partial`, `C36_root_partial`, `C36_name_refuted`, `C36_positions_partial`, `C36_raw_partial`.
* Note: proved for names the parser delimits (without escapes at the default setting, any with escaped names allowed), values followed by something when null; refuted for a name with an escaped quote.

### C37 Lookup by name and index finds what iteration would find

* Modelled: find_class_member, find_element.
* Proof: find_if over the iterator invariant of C36.
* Missing: refuted index and names.
* Status: partial. Theorems: `C37_by_name_partial`, `C37_by_index_partial`, `C37_past_end_partial`, `C37_index_refuted`, `C37_escape_refuted`.
* Note: proved for names without backslash and all indices except one past the end of an object; refuted: that index throws, and names with a backslash are never found.

### C38 A stateful JSON value answers independently of earlier queries

* Modelled: stateful value (StateModel).
* Proof: cache invariant over arbitrary histories and bytes.
* Missing: refuted cases.
* Status: partial. Theorems: `C38_class_partial`, `C38_position_partial`, `C38_size_partial`, `C38_by_index_partial`, `C38_by_name_partial`, `C38_array_refuted`, `C38_contains_refuted`, `C38_least_index_refuted`.
* Note: proved for every history over a class of any bytes, and for queries by position over any value; refuted for names asked of an array, for the evaluation order of contains, and undefined for the least index.

### C39 Negative indices count from the end

* Modelled: negative indices.
* Proof: as C38.
* Missing: k = n, refuted.
* Status: partial. Theorems: `C39_negative_partial`, `C39_first_refuted`.
* Note: proved for k < n; refuted for k = n, which is refused.

### C40 JSON Lines documents are split exactly

* Modelled: partition_jsonl_document.
* Proof: invariant over split points.
* Status: proved. Theorems: `C40_partition`.
* Note: partitioning; iteration over a part is not covered here.

### C41 Line and column numbers of an error are right

* Modelled: line and column numbers.
* Proof: induction.
* Missing: the first byte, refuted.
* Status: partial. Theorems: `C41_line_partial`, `C41_column_partial`, `C41_start_refuted`.
* Note: right everywhere but at the first byte of the document, where both functions throw.

### C42 The event parser reports a well-nested document and honours handler results

* Modelled: json_event_parser with an arbitrary handler (EventModel).
* Proof: strong induction over the value, induction over the members, with an invariant that ties depths, stack and calls; weights of stack entries for termination on arbitrary bytes.
* Missing: skipping and completing inside a container, refuted; detection of handler members (template code).
* Status: partial. Theorems: `C42_calls_partial`, `C42_traversal_partial`, `C42_no_more_partial`, `C42_complete_partial`, `C42_safe_partial`, `C42_skip_refuted`, `C42_skip_start_refuted`, `C42_skip_root_refuted`, `C42_complete_refuted`.
* Note: proved for every handler: the calls are the pre-order walk up to the first request to stop, and nothing follows it; refuted: a request to skip or to complete inside a container throws, a request to skip the outermost value is undefined.

### C43 Timestamps survive a serialise/parse round trip

* Modelled: date output and parsing.
* Proof: composition over C44.
* Missing: refuted instants.
* Status: partial. Theorems: `C43_round_trip_partial`, `C43_small_fraction_refuted`, `C43_before_1970_refuted`.
* Note: holds for time points from 1970 on whose millisecond part is 0 or at least 100; refuted for 1..99 ms (fraction written without leading zeros) and before 1970.

### C44 Calendar conversion is exact

* Modelled: civil calendar conversion.
* Proof: sweep over the 400 year era by `vm_compute`, lifted by periodicity.
* Status: proved. Theorems: `C44_days_of_date`, `C44_calendar_bijection`, `C44_to_time_point`, `C44_from_time_point`, `C44_round_trip`, `C44_huge_year_refuted`.
* Note: day number counted by successor in the calendar; years whose day number leaves 32 bits wrap (refuted lemma).

### C45 Timestamps with a UTC offset denote the right instant

* Modelled: offset parsing.
* Proof: computed counterexamples, and refusal in general for one reading of the external function.
* Missing: everything.
* Status: partial. Theorems: `C45_offset_refuted`, `C45_wrap_refuted`, `C45_offset_never_accepted`.
* Note: refuted whichever way the external pop_front_until treats the delimiter; if it drops it, every timestamp with an offset is refused.

### C46 Impossible calendar dates are rejected

* Modelled: field validation of dates.
* Proof: case analysis on the fields.
* Missing: dates that do not exist, refuted.
* Status: partial. Theorems: `C46_fields_partial`, `C46_no_such_day_refuted`, `C46_no_such_time_refuted`, `C46_malformed_field_refuted`.
* Note: month 1-12, day 1-31, hour <=24, minute <=59, second <=60 enforced; refuted for 31 February, 24:59 and malformed digits.

### C47 The day of the week written is the right one

* Modelled: the day of week.
* Proof: arithmetic over C44.
* Missing: before 1970, refuted.
* Status: partial. Theorems: `C47_day_of_week_partial`, `C47_date_partial`, `C47_before_1970_refuted`.
* Note: right from 1970 on and for midnight on every date; refuted for other times before 1970.

### C48 Trailing garbage is rejected on request

* Modelled: from_json end verification.
* Proof: the last step of from_json over C29.
* Missing: control bytes, refuted.
* Status: partial. Theorems: `C48_garbage_rejected_partial`, `C48_whitespace_accepted_partial`, `C48_control_refuted`.
* Note: refuted for trailing bytes 1 to 31, which count as whitespace.

### C49 Whitespace between tokens is insignificant

* Modelled: trim_left.
* Proof: induction over whitespace.
* Status: proved. Theorems: `C49_trim_exact`, `C49_trim_end`, `C49_trim_safe`, `C49_separator`.
* Note: whitespace inside values is covered by C17.

### C50 Serialising a string reads only that string

* Modelled: copy_to_iterator on arbitrary bytes.
* Proof: bounds invariant.
* Missing: truncated UTF-8, refuted.
* Status: partial. Theorems: `C50_reads_inside_partial`, `C50_truncated_refuted`, `C50_c_string_never_ends_refuted`.
* Note: refuted: a truncated sequence at the end is over-read and a C string with a stray byte is written for ever; proved for correct UTF-8 and strings with no late lead byte.

### C51 Parsing never accepts a member name at the wrong place

* Modelled: parse_name in every policy (NameModel).
* Proof: the scan of C14 then the colon.
* Status: proved. Theorems: `C51_name_exact`, `C51_used`, `C51_escaped_name_exact`.
* Note: checked and unchecked, all comment policies.

### C52 JSON paths rendered as text denote the path

* Modelled: find_member, to_json_path_string, find_range (PathModel).
* Proof: induction along the path over C37; digits by induction.
* Missing: refuted paths; names that need escapes.
* Status: partial. Theorems: `C52_lookup_partial`, `C52_render_partial`, `C52_rendered_partial`, `C52_find_range_partial`, `C52_rendered_refuted`, `C52_find_range_refuted`, `C52_missing_partial`.
* Note: refuted: a rendered path that starts with a name begins with a dot, for which find_member looks up the empty name and finds nothing. Proved: find_member follows the text of every path of simple names and canonical indices; rendered paths are found when they start with an index or without the leading dot; find_range follows paths without leading or consecutive indices. A path that leads nowhere finds a value of no type.

### C53 Name hashing is a function of the name only

* Modelled: name_hash.
* Proof: induction.
* Status: proved. Theorems: `C53_long_short_agree`, `C53_short_names_distinct`.

### C54 Decoding an escaped string is memory safe

* Modelled: string decoding on arbitrary bytes.
* Proof: bounds and capacity invariants.
* Status: proved. Theorems: `C54_decode_safe`, `C54_parse_string_safe`.

### C55 Every kind of output receives the same bytes

* Modelled: writable output kinds.
* Proof: each write appends its bytes.
* Missing: C streams, refuted.
* Status: partial. Theorems: `C55_string_output`, `C55_file_output_partial`, `C55_file_output_refuted`.
* Note: refuted for C streams: put of a byte from 0x80 on succeeds and is reported as OutputError.

### C56 Elements a tuple does not map are ignored

* Modelled: tuples.
* Proof: induction over elements.
* Missing: an array as first additional element, refuted.
* Status: partial. Theorems: `C56_extra_ignored_partial`, `C56_array_refuted`.
* Note: refuted when the first additional element is an array.

### C57 Whitespace before the document's value is insignificant

* Modelled: from_json.
* Proof: trim of C49.
* Missing: scalars, refuted.
* Status: partial. Theorems: `C57_leading_partial`, `C57_scalar_refuted`.
* Note: refuted for everything but arrays, classes and tuples.

### C58 Typed parsing is memory safe on arbitrary bytes

* Modelled: typed parsing on arbitrary bytes.
* Proof: an invariant of the parse state (positions never pass the terminating zero, stored locations lie in the document), preserved by every parser, by induction over types and loops.
* Missing: strings as members other than the first, 32 bit signed integers, and, without a terminating zero, arrays, exact tuples, variants and custom types that take anything: refuted.
* Status: partial. Theorems: `C58_terminated_partial`, `C58_unterminated_partial`, `C58_array_refuted`, `C58_class_refuted`, `C58_other_kind_refuted`, `C58_exact_tuple_refuted`, `C58_variant_refuted`.
* Note: proved for arbitrary bytes and types without int32 and with strings only as first member, in variants or outside of classes, for documents with a zero byte after them, or without arrays, exact tuples, variants and custom types that take anything; refuted: open arrays; open exact tuples; a skipped number given for a string; a missing value of a variant; open classes outside of constant evaluation.

### C59 A NullVisible member is always written

* Modelled: class members in output.
* Proof: case analysis.
* Missing: refuted.
* Status: partial. Theorems: `C59_written_partial`, `C59_refuted`.
* Note: refuted: a NullVisible member without value is not written; members that have a value or are required are written.

### C60 Seven bit output contains no byte above 0x7F

* Modelled: output of all types.
* Proof: induction as C29.
* Missing: names, refuted.
* Status: partial. Theorems: `C60_seven_bits_partial`, `C60_refuted`.
* Note: refuted: member names are written unchanged; with 7 bit names all output is 7 bit.

### C61 A trailing comma follows a member or element

* Modelled: trailing commas.
* Proof: computed counterexample.
* Missing: the positive part.
* Status: partial. Theorems: `C61_refuted`.
* Note: refuted: a class whose members are all absent is written as {,}.

### C62 Walking any bytes as JSON values stays inside the document

* Modelled: the json_value family on arbitrary bytes.
* Proof: bounds and progress invariants of the iterator, lookups, histories and paths.
* Missing: values with no byte left, refuted.
* Status: partial. Theorems: `C62_iterate_partial`, `C62_type_partial`, `C62_by_name_partial`, `C62_by_index_partial`, `C62_path_partial`, `C62_history_partial`, `C62_refuted`.
* Note: proved for every reached value that has a byte left; refuted: find_element on an empty value dereferences null or reads past the end.

### C63 from_json with a member path reads the value the path leads to

* Modelled: from_json with a member path (PathModel).
* Proof: composition of C52 and C29; paths that lead nowhere by induction along the path.
* Missing: verification of the end, refuted.
* Status: partial. Theorems: `C63_partial`, `C63_verify_refuted`, `C63_missing_partial`.
* Note: proved for paths of simple names, without verification of the end; refuted with verification: the rest of the document is taken for trailing data; a path that leads nowhere is an error, or empty for a nullable type, for every setting of the verification.

### C64 What is accepted as a real number is a JSON number

* Modelled: parse_value_real.
* Proof: case analysis of every step on arbitrary bytes.
* Missing: four malformed forms, refuted.
* Status: partial. Theorems: `C64_form_partial`, `C64_refuted`.
* Note: refuted: 1. -.5 - -01 are accepted; proved: nothing looser is.

### C65 Reading a real number stays inside the document

* Modelled: parse_real_known, parse_real_unknown.
* Proof: bounds of every loop on arbitrary bytes.
* Missing: whole numbers at the end of the range and huge exponents, refuted.
* Status: partial. Theorems: `C65_unknown_partial`, `C65_known_partial`, `C65_past_end_refuted`, `C65_overflow_refuted`.
* Note: refuted: a whole number that ends with the range is read past its end; exponent near -2^63 overflows. Proved on any bytes when something that is no digit follows in the range.

### C66 A real has one value whether it is read at once or after skipping

* Modelled: both ways of reading.
* Proof: both keep all digits.
* Missing: 18 digits and more, refuted.
* Status: partial. Theorems: `C66_partial`, `C66_refuted`.
* Note: proved below 18 digits for double, refuted at 18.

### C67 The relative error of a real before rounding is below its precision

* Modelled: parse_real_unknown.
* Proof: truncation of C08 and a lower bound of the significand.
* Missing: whole part zero, refuted.
* Status: partial. Theorems: `C67_partial`, `C67_refuted`.
* Note: proved when the whole part is not 0, refuted for leading zeros.

### C68 With IEEE754Precise the fast path is taken only when it is exact

* Modelled: the strtod flag.
* Proof: no flag implies that no digit was dropped.
* Missing: float, refuted.
* Status: partial. Theorems: `C68_unknown_partial`, `C68_known_partial`, `C68_float_refuted`.
* Note: proved for double, refuted for float.

### C69 A finite real survives to_json and from_json

* Modelled: to_chars then parse_real_unknown.
* Proof: C09 composed with C08.
* Missing: 18 digits and more, refuted.
* Status: partial. Theorems: `C69_partial`, `C69_default_partial`, `C69_refuted`.
* Note: proved when fewer than 18 (10) digits are written; refuted: 0.30000000000000004 is read back as 0.3.

### C70 NaN and infinities survive to_json and from_json

* Modelled: to_json_string_real then parse_value_real with all options (RealOptModel).
* Proof: case analysis of the three texts.
* Missing: skipped infinities, refuted.
* Status: partial. Theorems: `C70_unknown_partial`, `C70_known_nan_partial`, `C70_refuted`.
* Note: proved where the value stands and for skipped NaN; refuted: a skipped Infinity is rejected.

### C71 Special reals are recognised by their exact text

* Modelled: parse_value_real with all options.
* Proof: computed counterexamples.
* Missing: the positive part.
* Status: partial. Theorems: `C71_prefix_refuted`, `C71_swallow_refuted`, `C71_position_refuted`, `C71_past_end_refuted`.
* Note: refuted: NaNtucket is NaN, the text up to the next quote is swallowed, one quote is read past its end.

### C72 The sign of a finite real is visible in its text

* Modelled: to_chars.
* Proof: first character of C09.
* Missing: zero, refuted.
* Status: partial. Theorems: `C72_partial`, `C72_refuted`.
* Note: proved for all but zero; refuted: minus zero is written as 0.

### C73 A value of another kind than the mapped type is rejected

* Modelled: typed parsing of every modelled type.
* Proof: the first byte of a text decides for all but numbers given for integers; for these the text accepted (C07) is compared with the number.
* Missing: integers and strings that were skipped first, refuted; the other types are covered by C73_known_partial.
* Status: partial. Theorems: `C73_other_kind_partial`, `C73_error_partial`, `C73_known_partial`, `C73_number_refuted`, `C73_string_refuted`, `C73_embedded_refuted`.
* Note: proved for the document, elements and members found in their place, and for every type but integers and strings for members that were skipped first; refuted for members that were skipped first: 1.5 is read as the integer 2645.

### C74 With IEEE754Precise the double read is the nearest one

* Modelled: parse_real_known/unknown with IEEE754Precise, the fast path (whole number and power of ten exact), parse_with_strtod with from_chars as a parameter.
* Proof: fast path: both operands are exact doubles, so one correctly rounded multiplication or division gives the nearest double (equivalence of SpecFloat with Flocq); other texts are handed to from_chars, which is assumed exact. FloatRef.v gives a reader for which the assumption is proved.
* Missing: from_chars that reports out_of_range on underflow, and float, both refuted.
* Status: partial. Theorems: `C74_unknown_partial`, `C74_known_partial`, `ref_from_chars_exact`, `C74_underflow_refuted`, `C74_single_refuted`.
* Note: proved for double given that std::from_chars is exact (a reader that is exact is given); refuted: 1e-400 is read as infinity when from_chars reports underflow as out of range, and a float 1e-19 is not the nearest float.

### C75 In the default mode a double read is off by at most one part in 10^15

* Modelled: the default path: power10 with its table and the loops for large exponents.
* Proof: the table entries are within half an ulp of the powers of ten (computed once per entry, lifted to all exponents), every operation adds at most 2^-53: 6 roundings in all.
* Missing: numbers with a zero whole part and 18 digits or more (C65 refuted), the range next to underflow and overflow.
* Status: partial. Theorems: `C75_unknown_partial`, `C75_known_partial`, `C75_runtime_refuted`.
* Note: proved in the normal range with a nonzero whole part or fewer than 18 digits; refuted in the runtime execution mode: the exponent is cut to 32 bits, 1e4294967296 is read as 1.

### C76 A number whose digits are all zero is read as zero

* Modelled: as C75.
* Proof: zero times a finite double is zero with the product of the signs.
* Missing: exponents above 308, refuted.
* Status: partial. Theorems: `C76_zero_partial`, `C76_text_partial`, `C76_refuted`.
* Note: proved for exponents up to 308; refuted: 0e309 is NaN.

### C77 A double written by to_json is read back as the same double

* Modelled: to_chars (RealSerModel) then parse_real with IEEE754Precise.
* Proof: C09 gives the number denoted by the text, C74 the nearest double to it, which is unique.
* Missing: the Dragonbox digits (assumed to round to the double), the default mode (refuted).
* Status: partial. Theorems: `C77_unknown_partial`, `C77_known_partial`, `C77_default_refuted`.
* Note: proved with IEEE754Precise given an exact from_chars and digits that round to the double; refuted for the default mode: 0.30000000000000004 comes back as 0.3.

### C78 Arrays of key and value objects are read and written as pairs

* Modelled: parse_value_keyvalue_array, to_json_string_keyvalue_array (TKvArr).
* Proof: the array loop of C28 over the class reader of C24.
* Missing: whitespace in the empty array, refuted.
* Status: partial. Theorems: `C78_pairs_partial`, `C78_round_trip_partial`, `C78_empty_partial`, `C78_space_refuted`.
* Note: proved for arrays that are not empty and for [] itself; refuted: [ ] with whitespace is refused.

### C79 A custom type's converter is given the text of the value

* Modelled: parse_value_custom, to_json_string_custom (TCustom); the converter is not modelled, its argument is the value.
* Proof: the skipping of C14, C17 and C18 delimits the text.
* Missing: the cases refuted.
* Status: partial. Theorems: `C79_literal_partial`, `C79_string_partial`, `C79_literal_round_trip_partial`, `C79_string_round_trip_partial`, `C79_string_refuted`, `C79_escape_refuted`, `C79_null_refuted`, `C79_any_refuted`, `C79_order_refuted`.
* Note: proved for numbers, true and false, and for strings that are not empty and do not start with a bracket; refuted: these strings, null, any value (strings lose the closing quote, arrays and classes are refused), quotes in the output, numbers given for a string that was skipped first.

### C80 A variant is read as the alternative of the value's kind

* Modelled: parse_value_variant, base_map, to_variant_string (TVariant).
* Proof: the first byte, or the byte before a skipped value, tells the kind (invariant of stored locations); induction over the alternatives.
* Missing: null and custom literals, refuted.
* Status: partial. Theorems: `C80_kind_partial`, `C80_no_alternative_partial`, `C80_round_trip_partial`, `C80_null_refuted`, `C80_literal_refuted`.
* Note: proved for every value and every alternative whose kind tells it; refuted: the null of a nullable alternative and custom literals cannot be read back.

### C81 The embedded tag of a variant selects the alternative wherever it stands

* Modelled: parse_value_variant_intrusive, parse_visit (TIntrusive); the switching function is a parameter.
* Proof: the object is read as a class of one member, then as the alternative: C24 twice.
* Missing: exact mappings, refuted.
* Status: partial. Theorems: `C81_tag_anywhere_partial`, `C81_no_tag_partial`, `C81_exact_refuted`.
* Note: proved without exact mappings; refuted: with UseExactMappingsByDefault every member but the tag is refused.

### C82 A variant's tag in another member selects the alternative whatever the order of the members

* Modelled: find_index, parse_value_variant_tagged (TagModel).
* Proof: the loop that looks for members (C24) is proved once more with an invariant that keeps where the class starts and ends and which values were skipped because of what; the tag is read as a class of one member (C24).
* Missing: numbers and strings that were skipped first, refuted.
* Status: partial. Theorems: `C82_class_partial`, `C82_tag_anywhere_partial`, `C82_no_tag_partial`, `C82_order_refuted`, `C82_null_pointer_refuted`.
* Note: proved for variants that come in turn, or whose value is an object, an array, true or false; refuted: a number or a string that was skipped first is refused, 1e5 dereferences null.

### C83 A sized array is read with the size that another member states

* Modelled: parse_value_sz_array (TagModel).
* Proof: as C82; the size is found by find_range (C52).
* Missing: the cases refuted; an error for a missing size.
* Status: partial. Theorems: `C83_size_anywhere_partial`, `C83_order_refuted`, `C83_null_pointer_refuted`, `C83_size_refuted`, `C83_path_refuted`.
* Note: proved for arrays that come in turn: elements and size reach the constructor; refuted: the size is not compared and may be negative, is not found behind an array that was skipped first, and its name is taken as a path; a number in place of the array dereferences null.

### C84 A raw member is the text of its value

* Modelled: parse_value_unknown (TagModel).
* Proof: the delimiting of C17.
* Missing: strings that were skipped first and null, refuted.
* Status: partial. Theorems: `C84_text_partial`, `C84_skipped_partial`, `C84_quotes_refuted`, `C84_null_refuted`.
* Note: proved for members that come in turn and are not null; refuted: strings that were skipped first lose their quotes, null has no text.

### C85 A std::string is read to the same value as a view of its text

* Modelled: from_json for zero-terminated text (ZModel), to_json.
* Proof: a simulation: wherever the checked parser, made to refuse stored ranges that are not of the kind read, succeeds on the document and its zero, the zero-terminated parser succeeds with the same value, positions differing only at the end of the range; by induction over types and loops. The strict parser reads every document by the lemmas of C29.
* Missing: reals, dates, tagged variants, sized arrays, comments, other execution modes.
* Status: partial. Theorems: `C85_same_value_partial`, `C85_round_trip_partial`.
* Note: proved for the types of the model without reals, dates, tagged variants and sized arrays, default execution mode, below 2^31-1 bytes and without zero bytes in the text.

### C86 Reading a std::string never passes its terminating zero

* Modelled: the same on arbitrary bytes.
* Proof: an invariant: positions never pass the zero; closed forms of the digit loops; induction over types.
* Missing: strings, classes, maps and custom types: three over-reads refute it for them. 32 bit integers (C04).
* Status: partial. Theorems: `C86_inside_partial`, `C86_cut_off_partial`, `C86_escape_refuted`, `C86_literal_refuted`, `C86_open_class_refuted`.
* Note: proved for all bytes and types without strings and names; refuted: a backslash before the zero, a skipped literal cut short, a class that is not closed.

### C87 A std::string is refused whenever a view of its text is

* Modelled: both parsers on arbitrary bytes.
* Proof: both have the same successes step by step, reading the same bytes below the zero and failing at it; induction over types.
* Missing: types with strings or names, refuted; tuples that ignore elements.
* Status: partial. Theorems: `C87_same_partial`, `C87_zero_refuted`, `C87_skipped_refuted`, `C87_skipped_null_refuted`, `C87_read_refuted`, `C87_number_refuted`.
* Note: proved for texts without a zero byte and types without strings and names; refuted: literals are skipped by their first letter, skipped reals read as integers differ, text behind an embedded zero is ignored.

### C88 Classes with dependent members are written as one JSON object

* Modelled: serialize_json_class with dependent_member_to_json_str and to_json_str (TagSerModel); the switcher of the class is a parameter.
* Proof: induction over the two passes with the list of visited names.
* Missing: raw texts with whitespace; nullable dependent members.
* Status: partial. Theorems: `C88_well_formed_partial`, `C88_raw_refuted`.
* Note: proved for all values whose raw members hold JSON without whitespace and whose tags agree; refuted: a raw string that was skipped when read is written without its quotes.

### C89 Classes with dependent members are read back as written

* Modelled: the same and from_json of such classes (TagModel).
* Proof: the written object has the meaning of the value (as C29), read by C82.
* Missing: sized arrays behind an empty optional member (they are read, by example); the cases refuted.
* Status: partial. Theorems: `C89_round_trip_partial`, `C89_optional_refuted`, `C89_exact_refuted`.
* Note: proved when no optional member mapped before a sized array, or before a tagged number or string, is empty; refuted: with an empty one such variants are refused, and exact mappings refuse the tag that is written.

### C90 Iterating over an array visits exactly its elements

* Modelled: json_array_iterator and its range, skip_known_value (IterModel); how often each element is dereferenced is a parameter.
* Proof: induction over the elements; the state between turns is at the next element or at the closing bracket.
* Missing: elements that are not looked at and whose type ++ cannot tell, refuted; json_value elements.
* Status: partial. Theorems: `C90_elements_partial`, `C90_distance_partial`, `C90_bool_refuted`, `C90_nullable_refuted`.
* Note: proved when every element is looked at or its type can be passed over; refuted for booleans and nullable values that are not looked at.

### C91 Iterating over any bytes stays inside them and ends

* Modelled: the same on arbitrary bytes, and the line iterators.
* Proof: the invariant of C58 for every call; strict progress of every parser for the end.
* Missing: types that read arrays, variants or anything, and 32 bit signed numbers; nullable elements, refuted.
* Status: partial. Theorems: `C91_inside_partial`, `C91_ends_partial`, `C91_endless_refuted`, `C91_endless_nullable_refuted`, `C91_path_refuted`, `C91_nested_refuted`.
* Note: memory safety proved for the types without arrays and variants, the end when every element is looked at; refuted: loops that never end, the constructor with a path, arrays of arrays.

### C92 Iterating over JSON Lines gives the value of every line

* Modelled: json_lines_iterator and its range.
* Proof: induction over the lines, each value ended by whitespace or the end of the data.
* Missing: signed numbers, booleans and words as json_value, refuted.
* Status: partial. Theorems: `C92_lines_partial`, `C92_signed_refuted`, `C92_bool_refuted`.
* Note: proved for all types without signed numbers and booleans at their end; refuted for those.

### C93 A loop over json_array_range_once gives the elements of the array

* Modelled: json_array_iterator_once and its range.
* Proof: induction over the turns: none ends the loop.
* Missing: nothing positive holds; the claim is refuted for every document.
* Status: partial. Theorems: `C93_never_refuted`, `C93_refuted`.
* Note: refuted: no loop over json_array_range_once ends without an error.

### C94 Iterating over malformed text ends in an error

* Modelled: the iterators on malformed text.
* Proof: directly.
* Missing: all other malformed texts; refuted for truncated arrays, missing and trailing commas and several values on a line.
* Status: partial. Theorems: `C94_start_partial`, `C94_truncated_refuted`, `C94_comma_refuted`, `C94_lines_refuted`.
* Note: proved for text that does not start with a bracket; refuted for truncated arrays, missing commas and several values on a line.

### C95 A range with a path visits the array at that path

* Modelled: get_range and the constructor with a path (IterModel).
* Proof: composition of C52 with C90.
* Missing: paths with a leading index or two indices in a row, refuted; names that need escapes.
* Status: partial. Theorems: `C95_path_partial`, `C95_not_array_partial`, `C95_missing_partial`, `C95_index_refuted`.
* Note: proved for paths of plain names and indices behind a name; refuted for a leading index and for two indices in a row.

### C96 Comparison of iterators is consistent

* Modelled: operator==, operator!= and good of the iterators.
* Proof: case analysis.
* Missing: json_array_iterator_once, refuted.
* Status: partial. Theorems: `C96_not_equal_partial`, `C96_equal_partial`, `C96_equivalence_partial`, `C96_end_partial`, `C96_good_partial`, `C96_once_refuted`, `C96_refuted`.
* Note: proved for json_array_iterator and json_lines_iterator; refuted for json_array_iterator_once, which is not equal to itself at its end.

### C97 to_json_schema writes well-formed JSON

* Modelled: to_json_schema with its overloads (SchemaModel), through the output policy of to_json.
* Proof: induction over the type: the text written is a JSON text of an explicitly given value (SchemaProofs).
* Missing: names, identifiers and titles that need escapes; the cases refuted; reals, dates, raw members, tagged variants and sized arrays.
* Status: partial. Theorems: `C97_well_formed_partial`, `C97_empty_class_refuted`, `C97_title_refuted`, `C97_seven_bit_refuted`.
* Note: proved for names, identifiers and titles without escapes; refuted for a class without members, titles with quotes and, with 7 bit output, optional members with high bytes in their names.

### C98 The schema follows the draft it names

* Modelled: the same.
* Proof: a text stands for one value only (UniqueProofs), so every value it can be read as is the one of C97; induction over the type for its keywords.
* Missing: tuples, refuted.
* Status: partial. Theorems: `C98_conforms_partial`, `C98_tuple_refuted`.
* Note: proved for types without tuples; refuted for tuples.

### C99 What is written is valid against the schema

* Modelled: to_json_schema and to_json.
* Proof: induction over the type, with the meaning of the keywords in SpecSchema; texts stand for one value.
* Missing: null, and alternatives that the schema does not tell apart.
* Status: partial. Theorems: `C99_valid_partial`, `C99_null_refuted`, `C99_tag_refuted`.
* Note: proved for texts without null and variants whose alternatives the schema tells apart; refuted for null elements and for variants with an embedded tag.

### C100 What is valid against the schema can be read

* Modelled: to_json_schema and from_json.
* Proof: induction over the type: a valid value is a value of the type (SchemaProofs3); C29 reads it.
* Missing: tuples, key/value arrays, custom types, embedded tags and classes without members; the cases refuted.
* Status: partial. Theorems: `C100_read_partial`, `C100_range_refuted`, `C100_fraction_refuted`, `C100_exact_refuted`, `C100_tuple_refuted`, `C100_tag_refuted`.
* Note: proved for small integers, strings and names that can be decoded, and classes, arrays, maps and variants of different kinds; refuted for out of range integers, 1.0, exact mappings, short tuples and embedded tags.

### C101 Reading without checks gives the same value

* Modelled: the variants of the parsing functions for CheckedParseMode::no, zero-terminated or not (UModel).
* Proof: simulation: wherever the checked parser that refuses null and missing members succeeds on text with a zero behind it, the one without checks does the same (USim, USim2, UTyped); that checked parser reads every document of the type (UReads).
* Missing: documents with null or with optional members left out, refuted in general; reals, dates, tagged variants and sized arrays; comments; memory behind a view that does not start with a zero byte.
* Status: partial. Theorems: `C101_same_value_partial`, `C101_round_trip_partial`, `C101_null_refuted`, `C101_null_end_refuted`, `C101_missing_refuted`.
* Note: proved for documents that leave nothing out and have no null at an optional value; refuted for null, which eats the byte behind it, and for optional members that are left out.

### C102 Reading without checks stays inside a proper document

* Modelled: the same; reading outside of the memory given is an outcome of its own.
* Proof: as C101: the outcome is a value.
* Missing: the same; malformed documents, for which nothing is promised.
* Status: partial. Theorems: `C102_inside_partial`, `C102_missing_refuted`, `C102_view_refuted`.
* Note: proved under the same conditions when a zero byte follows the document; refuted for optional members that are left out and for views that nothing follows.

### C103 Doubles and dates inside other types are read right

* Modelled: parse_value_real and parse_value_date below nullables, arrays, maps, classes and tuples (XModel); std::from_chars is a parameter.
* Proof: C74 and C75 for a number at its place, C43 for a date, then the induction of C29 over the type (XProofs).
* Missing: other spellings of dates; numbers that stand as strings; a whole number as the whole document, refuted; longer numbers without IEEE754Precise, refuted.
* Status: partial. Theorems: `C103_read_partial`, `C103_root_refuted`, `C103_order_refuted`.
* Note: proved with IEEE754Precise, given an exact from_chars, and without it for numbers of up to 15 digits and small exponents, for dates in UTC; refuted for a whole number that is the whole document and, without IEEE754Precise, for the order of members.

### C104 Values with doubles and dates are written and read back

* Modelled: to_json_string_real and to_json_string_date at the same places (XModel); the digits that Dragonbox finds are a parameter, assumed to identify the double (SpecX dragonbox, met by FloatDec ref_db).
* Proof: induction over the type: what is written means the value (XSerProofs), C103 reads it.
* Missing: doubles that are the whole document; the values refuted.
* Status: partial. Theorems: `C104_well_formed_partial`, `C104_round_trip_partial`, `C104_default_refuted`, `C104_values_refuted`.
* Note: proved with IEEE754Precise for finite doubles other than the negative zero and the dates of C43, given that Dragonbox and from_chars are exact; refuted without IEEE754Precise, for the negative zero, NaN, fractions below 100 ms and dates before 1970.

### C105 Documents with comments are read as if the comments were whitespace

* Modelled: all parsing functions of ValueModel once more, calling the trimming and skipping of a comment policy (CModel).
* Proof: a simulation of two runs, one with comments over the document and one without over the document with spaces: the places reached correspond, stored ranges of members hold corresponding bytes, the parser without comments refuses what the claim excludes and still reads every document (CLex to CTyped). A comma or a closing bracket behind the document is refused (CGarbage).
* Missing: the places refuted; reals, dates, tagged variants, sized arrays; zero-terminated text and parsing without checks.
* Status: partial. Theorems: `C105_comments_partial`, `C105_no_difference_partial`, `C105_without_partial`, `C105_garbage_partial`, `C105_number_refuted`, `C105_hash_number_refuted`, `C105_null_refuted`, `C105_bracket_refuted`, `C105_skipped_refuted`, `C105_slash_refuted`, `C105_open_refuted`.
* Note: proved for line comments and for blocks without stars and slashes in them and two bytes of whitespace behind, other than directly behind a number, null or a bracket with whitespace; refuted at those places, and for comments that are not closed.

### C106 Parsing with comments stays inside memory

* Modelled: the same; reading outside is an outcome of its own.
* Proof: C105: the outcome is a value.
* Missing: all other documents, refuted in general; which cut off documents are safe.
* Status: partial. Theorems: `C106_inside_partial`, `C106_refuted`, `C106_terminated_refuted`.
* Note: proved for the documents of C105; refuted for documents that are cut off, for arrays even when a zero byte follows.

### C107 The execution mode makes no difference

* Modelled: no functions of its own: the execution mode is a parameter of the scanning, skipping and parsing functions (StrScanModel, SkipModel, ValueModel).
* Proof: a simulation: where the mode for constant evaluation succeeds and there is no backslash, the others take the same steps to the same places and note no escape (ExecProofs); a skipped member is read as a string only when it was one.
* Missing: strings with escapes, refuted; what is refused in one mode may be accepted in another, refuted; reals, dates, tagged variants, sized arrays; comments and parsing without checks.
* Status: partial. Theorems: `C107_reads_partial`, `C107_no_difference_partial`, `C107_without_strings_partial`, `C107_round_trip_partial`, `C107_escape_refuted`, `C107_simd_refuted`, `C107_end_refuted`, `C107_control_refuted`, `C107_number_refuted`.
* Note: proved for documents without backslashes that mean a value at the type, for all such documents that one mode reads when the type has no strings, and for what is written; refuted for strings with escapes, documents that are cut off, ExcludeSpecialEscapes, and skipped numbers mapped to strings.

### C108 Minified documents read the same with MinifiedDocument

* Modelled: the parsing functions of CModel with the trimming functions that return at once (policy Min).
* Proof: the simulation of C105, with no comments and no whitespace: trimming has nothing to do at any place reached.
* Missing: documents with whitespace, for which nothing is promised (some are refused, some are read); reals, dates, tagged variants, sized arrays; zero-terminated text and parsing without checks; the other execution modes.
* Status: partial. Theorems: `C108_reads_partial`, `C108_no_difference_partial`, `C108_garbage_partial`, `C108_round_trip_partial`.
* Note: proved for every document of a value at the type below 2^32 - 1 bytes in the mode for constant evaluation, no reals, dates, tagged variants or sized arrays.

### C109 from_json_array and from_json_alloc agree with from_json

* Modelled: from_json_array with and without a path, from_json_alloc (ArrModel).
* Proof: both ways of trimming stop at the same byte when there is one, then both functions make the same calls; no assumption about the document otherwise.
* Missing: documents of whitespace only and those that end with a zero, refuted. Views only: std::string arguments take the zero-terminated parser (C85).
* Status: partial. Theorems: `C109_same_partial`, `C109_path_same`, `C109_alloc_partial`, `C109_reads_partial`, `C109_blank_refuted`, `C109_all_blank_refuted`, `C109_zero_refuted`.
* Note: proved with a path for all bytes, without one for documents that have a byte that is no whitespace and do not end with a zero; refuted for those.

### C110 Reading a json_value

* Modelled: from_json of a json_value with and without a path (ArrModel).
* Proof: C36 and C52 say what a position stands for, the induction of C29 reads it; the invariant of C58 holds at every position reached.
* Missing: the types left out of C29 and C58; KnownBounds.
* Status: partial. Theorems: `C110_reads_partial`, `C110_path_partial`, `C110_missing_partial`, `C110_safe_partial`.
* Note: proved for the values C36 and C52 reach, types as in C29; safety for every value reached in any bytes, types as in C58.

### C111 Only documents of the type are accepted

* Modelled: no functions of its own: from_json on arbitrary bytes.
* Proof: induction over the type: a successful parser has passed over a text of the grammar that gives its value, and stands behind it (LaxProofs).
* Missing: classes, tuples that allow more elements, key/value arrays, custom types, variants; reals and dates; the other execution modes; the documents refuted.
* Status: partial. Theorems: `C111_accepted_partial`, `C111_start_partial`, `C111_unsigned_partial`, `C111_brackets_partial`, `C111_zeros_refuted`, `C111_trailing_refuted`, `C111_nothing_refuted`, `C111_missing_refuted`.
* Note: proved for the grammar of SpecLax, which contains JSON and lists what else is accepted, for integers, booleans, strings, optionals, arrays, maps and exact tuples in the mode for constant evaluation; refuted for JSON itself: leading zeros, trailing and missing commas, nothing in place of an optional value.

### C112 A JSON document is read to what it means, or refused

* Modelled: no functions of its own: from_json on JSON documents.
* Proof: an accepted document is a text of the grammar of SpecLax (C111) and at the same time a JSON text; induction over the grammar shows that the two readings agree (MeansProofs, with the uniqueness lemmas of UniqueProofs). Classes are followed function by function: RightProofs carries that a successful read of a member, of an element, of the rest of an object gave what is there through the loops, for parsers of which only this is known; the order of the members is handled with the invariants of C24.
* Missing: classes with members of another type that come before one mapped earlier (C73), repeated names, classes inside of tuples; tuples that allow more elements, key/value arrays, custom types, variants; reals and dates; the other execution modes; escapes to which JSON gives no meaning; numbers that do not fit.
* Status: partial. Theorems: `C112_means_partial`, `C112_kind_partial`, `C112_count_partial`, `C112_class_partial`, `C112_member_partial`, `C112_fit_refuted`.
* Note: proved for integers, booleans, strings, optionals, arrays, maps, exact tuples, and classes of these without repeated names in the mode for constant evaluation, numbers that fit their type; refuted for numbers that do not fit.

### C113 An error report describes the place of the error

* Modelled: to_formatted_string (ReportModel); the address of the document is a parameter, reading outside of the document an outcome of its own.
* Proof: the excerpt is a slice whose bounds are computed; lines are counted by induction over the document.
* Missing: the locations refuted; the addresses wrap at 2^64 only where the document would not fit into memory.
* Status: partial. Theorems: `C113_reads_partial`, `C113_report_partial`, `C113_shown_partial`, `C113_reason_partial`, `C113_start_refuted`, `C113_end_refuted`, `C113_column_refuted`, `C113_first_line_refuted`.
* Note: proved: which locations are read safely, the report behind a newline from byte 50 on; refuted: the first fifty bytes, the end, the column.

### C114 Every error has a text that names its reason

* Modelled: json_exception with its union, daw_json_error (ReportModel).
* Proof: by cases over the reasons; the texts are compared pairwise by computation.
* Missing: reasons that only functions not modelled throw; a missing token, refuted.
* Status: partial. Theorems: `C114_text_partial`, `C114_distinct_partial`, `C114_member_partial`, `C114_place_partial`, `C114_token_refuted`.
* Note: proved for all reasons but the missing token; refuted for it.

### C115 count_digits stops at the first byte that is no digit

* Modelled: count_digits with its blocks (ReportModel), on ranges of bytes.
* Proof: induction over the blocks of eight; the 256 combinations of digits and other bytes in a block are computed.
* Missing: ranges with the first other byte in a block of four, refuted. skip_number calls it only in a branch that is switched off, which is not modelled.
* Status: partial. Theorems: `C115_count_partial`, `C115_four_refuted`.
* Note: proved unless the first other byte is in a block of four; refuted for these.

### C116 The path of a location in a document

* Modelled: find_json_path_stack_to with its handler, find_json_path_to (FindModel), run by the model of json_event_parser.
* Proof: induction over the path: the calls before the location leave the stack of the handler as it was (every_value_by, by induction over the values passed), the container entered puts its node on it; the places of the iterators are those of the text because a text is of one value only (UniqueProofs). Safety by an invariant that keeps the stacks of handler and parser alike (FindSafe).
* Missing: locations in names, whitespace, commas and brackets; closing quotes, null, empty containers and documents with errors, refuted.
* Status: partial. Theorems: `C116_path_partial`, `C116_back_partial`, `C116_safe_partial`, `C116_quote_refuted`, `C116_null_refuted`, `C116_empty_refuted`, `C116_broken_refuted`.
* Note: proved for locations in numbers, booleans and strings of well-formed documents, and safety for any document; refuted for closing quotes, null, empty containers and documents with errors.

### C117 A class mapped to an array takes the elements at its places

* Modelled: parse_json_tuple_class, parse_ordered_class_member, maybe_skip_members (OrdModel), inside nullables, arrays, maps, classes and tuples.
* Proof: induction over the members with the elements in front of the next one as the invariant; skipping is that of C22; the induction of C29 over the type around it (OrdProofs, OrdRead).
* Missing: malformed documents, refuted; mappings without members, refuted; the other execution modes; zero-terminated text and parsing without checks.
* Status: partial. Theorems: `C117_read_partial`, `C117_missing_partial`, `C117_disorder_partial`, `C117_extra_partial`, `C117_disorder_refuted`, `C117_lax_refuted`, `C117_none_refuted`.
* Note: proved for well-formed documents and mappings with at least one member in the mode for constant evaluation, places out of order only if the array reaches that far; refuted: order in short arrays, commas and the closing bracket, classes without members.

### C118 A class written as an array is read back as the value

* Modelled: serialize_ordered_json_class inside the same types (SerModel, OrdModel).
* Proof: induction over the type: what is written is the text of a value with null in the gaps (OrdSer), C117 reads it.
* Missing: wider gaps, refuted; trailing commas.
* Status: partial. Theorems: `C118_well_formed_partial`, `C118_round_trip_partial`, `C118_gap_refuted`.
* Note: proved if every member but the last is placed before the number of members minus one, without trailing commas; refuted for wider gaps.

### C119 Reading a class from an array stays inside the document

* Modelled: the same as C117; reading outside of the memory is an outcome of its own.
* Proof: the invariant of C58 through the loops over members and skipped elements (OrdSafe).
* Missing: types with strings as members of classes other than the first, 32 bit signed numbers; positions and exact classes without a zero byte, refuted.
* Status: partial. Theorems: `C119_terminated_partial`, `C119_unterminated_partial`, `C119_positions_refuted`, `C119_exact_refuted`.
* Note: proved with a zero byte behind the document, and without it for members without places that are not exact; refuted for places and exact classes without it.

### C120 A std::array takes the elements of the array

* Modelled: construct_array, parse_value_array for a std::array (OrdModel, on the loop body of ValueModel).
* Proof: induction over the number of elements (FixProofs); the position behind the elements taken is described, so that what the end of the document looks like is known when there are more.
* Missing: arrays with more elements inside of tuples and classes, refuted; the other execution modes; zero-terminated text and parsing without checks; types that cannot be moved, whose increment runs in a destructor.
* Status: partial. Theorems: `C120_read_partial`, `C120_more_partial`, `C120_round_trip_partial`, `C120_neighbour_refuted`, `C120_order_refuted`, `C120_text_refuted`.
* Note: proved for arrays with at most as many elements in well-formed documents in the mode for constant evaluation, and for longer ones at the top of the document; refuted for longer ones inside of tuples and classes, and if the end is not verified.

### C121 Reading a std::array stays inside the document

* Modelled: the same as C120.
* Proof: the invariant of C58 through the elements (OrdSafe).
* Missing: the document without a zero byte behind it, refuted.
* Status: partial. Theorems: `C121_terminated_partial`, `C121_open_refuted`.
* Note: proved with a zero byte behind the document; refuted without it.

### C122 json_apply calls the function with the values of the document

* Modelled: json_apply_impl and json_apply (ApplyModel), on from_json with and without a path; the callable is any function of the list of arguments.
* Proof: C29 and C63 for the type the parameters make up; the shape of what a tuple is read to for the number of arguments.
* Missing: functions without parameters; parameters of types not modelled; the number of further elements, refuted.
* Status: partial. Theorems: `C122_call_partial`, `C122_extra_partial`, `C122_arity`, `C122_safe_partial`, `C122_path_partial`, `C122_extra_refuted`.
* Note: proved for well-formed documents in the mode for constant evaluation, with a path if the end is not verified, and for any document that the number of arguments is that of the parameters; refuted: whether further elements are refused depends on their kind.

### C123 Expecting long names changes nothing but the speed

* Modelled: memchr_checked, memchr_unchecked and mempbrk with expect_long, skip_comments of both policies, trim_left, parse_nq, parse_name, move_to_next_of (LongModel); classes, what reads them and from_json with them (LongValueModel); std::memchr and std::strpbrk are written down as the C standard has them, a null pointer is undefined behaviour because every caller reads from it or adds to it.
* Proof: both searches find the first quote (induction over the bytes before it); the rest of the functions is the same. The hash of long names is C53. Whole documents: a relation between the two outcomes (equal, or undefined behaviour against a refusal) that sequencing and loops keep, then induction over the type (LongProofs).
* Missing: whole documents outside of constant evaluation and with comments; what the end of strings and quoted numbers does with the option; refuted for comments, open names and zero bytes.
* Status: partial. Theorems: `C123_name_partial`, `C123_comments_partial`, `C123_search_partial`, `C123_from_json_partial`, `C123_accepted_partial`, `C123_document_refuted`, `C123_null_refuted`, `C123_comment_refuted`, `C123_no_quote`, `C123_zero_refuted`.
* Note: proved for whole documents without comments in the mode for constant evaluation (same outcome, or a null pointer where the document would be refused), for names with a quote behind them, gaps without comments, and searches that find something before a zero byte; refuted: names that do not end, comments, zero bytes.

### C124 Booleans in quotes are read as the option LiteralAsString says

* Modelled: parse_value_bool with LiteralAsString for checked and unchecked input, skip_quote_when_literal_as_string, to_json_string_bool (BoolModel); classes around it are those of ValueModel and UModel.
* Proof: the literal is compared byte by byte, the quotes by cases over the option; acceptance is turned around to get what was accepted.
* Missing: a member that is read out of order is only said to be decided by its first byte; what Maybe accepts beyond the allowed texts is shown by examples only; refuted as listed in section 4.
* Status: partial. Theorems: `C124_read_partial`, `C124_only_partial`, `C124_unchecked_read_partial`, `C124_known_partial`, `C124_round_trip_partial`, `C124_safe_partial`, `C124_half_refuted`, `C124_end_refuted`, `C124_order_refuted`, `C124_unchecked_refuted`.
* Note: proved for booleans that are not read out of order, checked (with Maybe if something follows) and unchecked, and that out of order the first byte decides; refuted: Maybe takes one quote, refuses a literal at the end of the data; out of order only the first byte counts, and with unchecked input a false in quotes is true.

### C125 Tuples whose members name a place take the elements at these places

* Modelled: parse_tuple_value with members that name a place, from_json around it (PosModel).
* Proof: the loop over the members of a tuple takes the steps of the loop for classes (OrdModel), only moved to the other side of move_next: whatever the class reads the tuple reads (PosProofs pos_follows), so C117 gives the elements; the end is that of tuples without places (C56). Safety as C119 (PosSafe).
* Missing: such tuples inside of other types; malformed documents; the array behind the last member, refuted; the variant of the code for MSVC; unchecked input. Writing such a tuple does not compile, json_tuple_member has no expected_type.
* Status: partial. Theorems: `C125_read_partial`, `C125_extra_partial`, `C125_terminated_partial`, `C125_unterminated_partial`, `C125_array_refuted`, `C125_missing_refuted`, `C125_disorder_refuted`, `C125_lax_refuted`, `C125_open_refuted`, `C125_end_refuted`.
* Note: proved for well-formed documents with at least one member when no array follows the last member, and that no byte outside is read when a zero byte follows the document or no member has a place; refuted: an array behind the last member, missing elements are not called that, places that descend, missing commas and brackets, the byte behind an open array.

### C126 Variants in an array are chosen by the element that is their tag

* Modelled: find_index and parse_value_variant_tagged with a tag that is an element (TagPosModel); the classes of OrdModel and the tuples of PosModel around them.
* Proof: the range of the array is part of the state and kept by every step, so the tag is looked for in the text of the array itself (TagPosProofs tag_found, from the tuple of C125 with one member); the loops over the members are followed again for parsers that depend on that range (members_at).
* Missing: such variants inside of arrays, maps and other types; malformed documents; safety of the class or tuple around the variant; intrusive variants with such a tag; unchecked input.
* Status: partial. Theorems: `C126_read_partial`, `C126_range_partial`, `C126_inside_partial`, `C126_open_refuted`, `C126_missing_refuted`, `C126_lax_refuted`.
* Note: proved for well-formed documents, for tuples when no array follows the last member, and that looking for the tag and reading the variant stay inside of a document with a zero byte behind it; refuted: arrays that are not closed, tags that are missing are not called that, missing commas.

### C127 A map has the first member of every name

* Modelled: the range constructor of std::unordered_map and std::map behind parse_value of a key_value container (DupModel), on ValueModel.
* Proof: an invariant of inserting the pairs one after the other, with C29 for the pairs, C63 for the path and C29 for the round trip.
* Missing: containers with other constructors, keys that are not strings, malformed documents; other means to get at a member than a path (those of json_value are C37, which a path is made of); classes and names with escapes, refuted.
* Status: partial. Theorems: `C127_keys`, `C127_read_partial`, `C127_path_partial`, `C127_absent_partial`, `C127_round_trip_partial`, `C127_class_refuted`, `C127_escape_refuted`.
* Note: proved that the keys are distinct and each has the value of its first member, for well-formed documents, that from_json with a path finds the same keys with the same values when no name has an escape, and that a map written in any order is read back; refuted: classes may take the last member, names with escapes are other names for a path.

## 4. Findings

Behaviour of the code, as modelled, that contradicts the property. Each is a theorem with a concrete witness.

Numbers
* `C02_unsigned_range_check_refuted`: a range-checked unsigned of 64 bits accepts numerals from 2^64 on and wraps.
* `C03_signed_range_check_refuted`: narrow_cast tests a signed target against the unsigned maximum, int8 `200` gives -56.
* `C04_signed_exact_refuted`, `C29_lowest_refuted`: reading INT32_MIN negates it in 32 bits, which overflows.
* `C06_quoted_round_trip_refuted`: a quoted number at the end of the data is refused.
* `C07_skip_number_refuted`, `C07_parse_refuted`: `-`, `1.`, `007` are accepted.

Strings
* `C10_runtime_refuted`, `C12_runtime_refuted`, `C16_first_escape_refuted`: the runtime scanner reports the first escape with the
  wrong sign, so escapes stay undecoded.
* `C12_disallow_high_empty_refuted`: an empty unchecked string is over-read when high bytes are disallowed.
* `C13_*_refuted`: bad hex digits, lone low surrogates and a missing second escape are accepted for checked input.
* `C11_raw_refuted`: raw strings are written unescaped. `C50_*_refuted`: truncated UTF-8 is over-read; a C string never ends.
* `C16_simd_end_refuted`: the simd scanner loses an escape at a block boundary and ends the string in its middle.
* `C16_simd_escape_refuted`: the simd scanner reports a backslash after the end of the string as its first escape, and counts from the block instead of the string.

Structure
* `C17_null_document_refuted`: `null` at the end of the data cannot be skipped. `C19_mismatch_refuted`: `[}{]` is accepted.
* `C21_comments_refuted`, `C22_*_refuted`, `C23_*_refuted`: `/***/` swallows the document; open comments are over-read; unchecked mode misses comments.
* `C28_missing_comma_refuted`: separators between elements are not required. `C48_control_refuted`: control bytes count as whitespace.
* `C56_array_refuted`, `C57_scalar_refuted`, `C58_*_refuted`: tuples, leading whitespace and open containers.

Classes
* `C25_*_refuted`: unmapped names with an escaped quote or final backslash break the class. `C26_empty_value_refuted`: an empty value counts as missing.
* `C27_*_refuted`: which of two equal names counts depends on the order of declaration.
* `C35_collision_refuted`: by default two names with one hash are confused (`liquid`, `costarring`).
* `C29_nested_optional_refuted`: nested optionals do not round trip.

Real numbers
* `C08_zero_refuted`, `C08_float_zero_refuted`, `C67_refuted`: leading zeros use up the digits that are kept, so a double written as
  0.00000000000000001 and a float written as 0.000000009 are read as zero. `C08_digits_refuted`: 0.12345678901234567 loses its last digit.
* `C66_refuted`: the same text gives another value when it was skipped first, so the value depends on the order of members.
* `C08_exponent_refuted`: 1e18446744073709551616 is read as 1.
* `C65_past_end_refuted`: from_json<double> of a document that is one whole number reads one byte past its end, and takes a digit there
  for part of the number. `C65_overflow_refuted`: signed overflow for an exponent near -2^63.
* `C64_refuted`: `1.`, `-.5`, `-`, `-01`, `1.e5` are accepted.
* `C68_float_refuted`: IEEE754Precise drops a digit of a float of 11 digits without using strtod.

* `C69_refuted`: 0.1 + 0.2 is written as 0.30000000000000004 and read back as 0.3: the leading zero uses up one of the 17 digits kept.
* `C70_refuted`: "Infinity" is rejected when the member was skipped first (out of order), because the closing quote is then not part of the
  range. `C71_*_refuted`: any string that starts with NaN is NaN; an unquoted NaN swallows everything up to the next quote, or moves past the
  end; the document `"` is read past its end.
* `C72_refuted`: -0.0 is written as 0.
* `C74_underflow_refuted`: with IEEE754Precise a text such as 1e-400 is read as +infinity if `std::from_chars` reports out_of_range for
  underflow (as the common implementations do): the fallback returns an infinity for every range error.
  `C74_single_refuted`: for `float` the fast path is entered with operands that are not exact, 1e-19 is not the nearest float.
* `C75_runtime_refuted`: in the runtime execution mode the exponent is narrowed to 32 bits, 1e4294967296 is read as 1.
* `C76_refuted`: 0e309 is read as NaN, and an exponent of 2000 gives infinity for zero.
* `C77_default_refuted`: in the default mode 0.30000000000000004 is written with 17 digits and read back as 0.3.

* `C73_number_refuted`, `C73_string_refuted`, `C73_embedded_refuted`: a member that comes before one that is mapped earlier is skipped first
  and parsed later with known bounds, where its kind is not looked at. `{"b":1.5,"a":1}` gives b = 2645, `1e5` gives 635; `12` given for a
  string gives the string `12,`; the string "[1,2]" is parsed as an array. With the members in mapped order all of these are rejected.
  `C58_other_kind_refuted`: the string search then runs past the end of a valid document such as `{"b":12}`.
* `C78_space_refuted`: `[ ]` is refused for an array of keys and values, `[` alone is read past its end (`C58_variant_refuted`).
* `C79_string_refuted`: custom strings that are empty or start with a bracket are written and then refused. `C79_null_refuted`: a custom
  literal refuses null although the documentation lists it. `C79_any_refuted`: a custom type that takes any value gets strings without their
  closing quote and no arrays or classes. `C79_escape_refuted`: the text of a custom string is not escaped. `C79_order_refuted`: a number is
  accepted for a custom string only when the member was skipped first.
* `C80_null_refuted`: the null of a nullable alternative is written and cannot be read. `C80_literal_refuted`: a custom literal counts as a
  string when the alternative is chosen. `C58_variant_refuted`: a variant whose value is missing at the end of the data is read past it.
* `C81_exact_refuted`: with exact mappings by default, a variant with an embedded tag refuses every object with another member.
* `C82_order_refuted`: a variant whose tag is in another member is refused when its value is a number or a string that comes before a member
  mapped earlier, because skipping it overwrites (numbers) or loses (strings) where the class is. `C82_null_pointer_refuted`: for `1e5` the
  start is null and the end is not, so `{"v":1e5,"a":1,"tag":0}` dereferences a null pointer. `C83_null_pointer_refuted`: the same for
  a number in place of a sized array.
* `C83_order_refuted`: the size of a sized array that was skipped first is looked for only up to the end of the array. `C83_size_refuted`: the
  size is not compared with the number of elements for checked input, and a negative size becomes a huge one. `C83_path_refuted`: the
  name of the size member is taken as a path.
* `C84_quotes_refuted`: json_raw gives strings with their quotes in mapped order and without them otherwise; written again, the latter is not
  JSON. `C84_null_refuted`: null has an empty text, or is an error.

* `C89_optional_refuted`: a tagged variant that holds a number or a string, mapped behind an optional member that is empty, is written and then
  refused by the reader (InvalidClassStart, InvalidString). `C89_exact_refuted`: with exact mappings the tag is written although it is not a
  member, and refused. `C88_raw_refuted`: a raw string read out of order is written without quotes.

Zero-terminated text (from_json of a std::string)
* `C86_escape_refuted`: a text that ends inside a string with a backslash is read behind the terminator. `C86_literal_refuted`: a skipped
  member that is cut after the `t` of true too, because four bytes are dropped unseen. `C86_open_class_refuted`: an object that is not closed
  too, because the search for the next member does not stop at the zero.
* `C87_skipped_refuted`, `C87_skipped_null_refuted`, `C87_read_refuted`: `txxx` and `nope` are skipped as true and null, and `txyz` is read as
  true if it was skipped first; a string_view of the text is refused. `C87_number_refuted`: 1.5 for an integer member that was skipped is 1
  for a std::string and 2645 for a string_view. `C87_zero_refuted`: text behind an embedded zero byte is ignored even when the end is verified.

Output and options
* `C31_name_refuted`, `C60_refuted`: names are written without escaping. `C31_ordered_refuted`: gaps of ordered classes are not written as JSON.
* `C59_refuted`: NullVisible is ignored. `C61_refuted`: `{,}` is written.
* `C33_set_bits_in_refuted`, `C34_*_refuted`: requested options are or-ed onto non-zero defaults.
* `C55_file_output_refuted`: bytes from 0x80 on are reported as OutputError by C streams.

Dates
* `C43_*_refuted`: fractions of 1 to 99 ms lose their leading zeros; instants before 1970 are wrong.
* `C44_huge_year_refuted`, `C45_*_refuted`, `C46_*_refuted`, `C47_before_1970_refuted`: year wrap, offsets, impossible dates, day of week.

json_value, paths, errors
* `C36_name_refuted`, `C37_*_refuted`, `C38_*_refuted`, `C39_first_refuted`, `C62_refuted`: escaped names, index one past the end,
  names asked of arrays, least index, -n, lookup on an empty value.
* `C41_start_refuted`: line and column of the first byte throw.
* `C52_rendered_refuted`, `C52_find_range_refuted`: rendered paths start with a dot that find_member does not accept; find_range ignores a
  leading index and the second of two indices and accepts an index equal to the size.
* `C42_skip_refuted`, `C42_skip_start_refuted`, `C42_skip_root_refuted`: SkipClassArray replaces the iterator by the end iterator, for which
  the check of the closing bracket fails: every skip throws InvalidEndOfValue. When a container starts, the skip acts on the container around
  it. Asked for the outermost value it calls back() of an empty vector (undefined).
* `C42_complete_refuted`: Complete inside a container leaves the depth counters nonzero, the final check throws InvalidEndOfValue.
* `C63_verify_refuted`: from_json with a path and end verification refuses every value that is not last.

Iterators
* `C90_bool_refuted`, `C90_nullable_refuted`: ++ of an array iterator passes over booleans and nullable values as if they were numbers; one
  that was not dereferenced is not passed over at all, std::distance over `[true]` never ends.
* `C91_endless_refuted`, `C91_endless_nullable_refuted`: counting the numbers of `[1}` never ends, nor does reading it as optional numbers.
  `C91_path_refuted`: the constructor with a path dereferences the end of a blank document. `C91_nested_refuted`: `[[` read as arrays of arrays.
* `C92_signed_refuted`, `C92_bool_refuted`: JSON Lines of signed numbers, of true and of false are refused, because the whitespace behind the
  value is skipped before its end is looked for.
* `C93_refuted`, `C93_never_refuted`: == and != of json_array_iterator_once are inverted for iterators at their end; every loop over a
  json_array_range_once ends in an error.
* `C94_truncated_refuted`, `C94_comma_refuted`, `C94_lines_refuted`: array iterators accept arrays that are cut off, without commas or with a
  trailing one; line iterators accept several values on a line.
* `C95_index_refuted`: a range with path `[1]` iterates over the whole document, one with `a[0][1]` over `a[0]`.
* `C96_refuted`, `C96_once_refuted`: a json_array_iterator_once at its end is not equal to itself but equal to every one that is not at its end.

Schemas
* `C97_empty_class_refuted`: the schema of a class without members ends in `"title":"T",}`. `C97_title_refuted`: title and identifier are not
  escaped. `C97_seven_bit_refuted`: with 7 bit output a name with high bytes is an error in required but written as it is in properties.
* `C98_tuple_refuted`: tuples use the array form of items, which the draft named in $schema does not have (it is prefixItems there).
* `C99_null_refuted`: an empty optional element of an array is written as null, the schema of its type does not allow that.
  `C99_tag_refuted`: the alternatives of a variant with an embedded tag are combined by oneOf and the values of the tag are not in the schema, so
  a value of one alternative is refused when another one has the same members.
* `C100_range_refuted`, `C100_fraction_refuted`, `C100_exact_refuted`, `C100_tuple_refuted`, `C100_tag_refuted`: no maximum for integers, 1.0 is
  a valid integer but not read, exact mappings do not forbid other members, tuples do not ask for all elements, tags are not tied to alternatives.

Reading without checks
* `C101_null_refuted`, `C101_null_end_refuted`: parse_value_null drops one more byte behind null (daw_json_parse_value.h:329-334); `[null]` read as
  optional numbers never ends, `null` alone reads past the terminator. A comma is dropped unharmed, which hides it.
* `C101_missing_refuted`: with optional members left out the search for the next member stops at a quote of another object
  (daw_json_location_info.h:271-276): `[{"b":1},{"a":5,"b":6,"c":7}]` is read as one object that has a and c of the second.
* `C102_missing_refuted`: the same search leaves the document when no quote follows, for `{"b":1}`. `C102_view_refuted`: the byte behind a view is
  read to skip whitespace.

Doubles and dates inside other types
* `C103_order_refuted`: without IEEE754Precise `{"a":0.5,"b":0.30000000000000004}` and the same members the other way round give different
  values of b: a member that was skipped first is read to more digits than one that is read where it stands (C66). C24, which is proved for the
  other types, does not hold for doubles in the default mode.
* `C103_root_refuted`: a double read from the document `1` accesses the byte behind it.
* `C104_default_refuted`, `C104_values_refuted`: C72, C77 and C43 seen from the outside: `[0.30000000000000004]` comes back as `[0.3]`, -0.0
  as 0.0, 5 ms after 1970 as 500 ms.

Comments
* `C105_number_refuted`, `C105_hash_number_refuted`, `C105_null_refuted`: `[1/*c*/,2]` is refused for unsigned numbers and read for signed ones;
  `[null/*c*/,2]` is refused. The check behind such a value looks for whitespace, comma or bracket only.
* `C105_bracket_refuted`: `[ /*c*/ 1]` is refused: behind the bracket whitespace is skipped without a look at comments when it comes first.
* `C105_skipped_refuted`: in a skipped container the two bytes behind a block comment are not looked at, `[true /*c*/ ]` misses its bracket.
  `C105_slash_refuted`: a slash inside a block ends it there.
* `C105_open_refuted`: `{"a":1} /* a` is accepted.
* `C106_refuted`, `C106_terminated_refuted`: `/`, `{"a":1} #` and `{"a":1 x` (an error without comments) read behind the data;
  `[#`, `[//` and `[/*` as arrays do so even with a terminating zero.

Execution modes (docs/cookbook/parser_policies.md calls compile_time the mode that is supported, the others less tested)
* `C107_escape_refuted`, `C107_simd_refuted`: `["a\\nb"]` gives three characters in the compile time mode and the four bytes of the text in the
  runtime and simd modes, where the place of the escape is computed with the wrong sign (daw_not_const_ex_functions.h:451-482) and taken for
  none; simd differs from runtime when the escape is in a block of 16 bytes.
* `C107_end_refuted`: `{"a":1,` is an error in the compile time mode; in the others the search for the next member leaves the data.
* `C107_control_refuted`: ExcludeSpecialEscapes has no effect in the runtime and simd modes: a tab inside a string is accepted.
* `C107_number_refuted`: `{"a":12,"b":1}` with b mapped before a and a mapped to a string gives `12,` in one mode and `12` in the others.

from_json_array
* `C109_blank_refuted`, `C109_all_blank_refuted`: for a view of whitespace only from_json_array reads behind it: it trims without looking at the
  end (daw_from_json.h:534, 642); from_json refuses it.
* `C109_zero_refuted`: a counted terminating zero is dropped by from_json but not by from_json_array without a path and from_json_alloc, which
  refuse the document.

* `C111_zeros_refuted`, `C111_trailing_refuted`, `C111_nothing_refuted`, `C111_missing_refuted`: `007` is read as 7, `[1,]` as one element,
  `[,1]` as an absent and a present optional element, `{"a":1 "b":2}` as a map and `[1 2]` as an exact tuple. The grammar `lax` in SpecLax.v
  lists everything that is accepted besides JSON for the types covered.
* `C112_fit_refuted`: 18446744073709551616 is read as 0 at a 64 bit type with range checks (the same wrap as in C02, inside a document).

Error reports
* `C113_start_refuted`: for every error among the first fifty bytes to_formatted_string( je, document ) reads the byte before the document and
  shows it: the number of bytes before the location is taken as distance( document, location + 1 ), one too many
  (daw_json_exception.h:314-321).
* `C113_end_refuted`: for an error at the end of the document the byte behind it is read; a view has none.
* `C113_column_refuted`: the first byte of a line is column 2; find_column_number_of says 0.
* `C113_first_line_refuted`: on the first line the column is the address of the location: last_nl is still null when it is subtracted (:312-313).
* `C114_token_refuted`: daw_json_value.h:261 throws ExpectedTokenNotFound with a reason only, and reason() then reads `data.token`, which was not
  written (daw_json_exception.h:258-261); missing_token is thrown nowhere.
* `C115_four_refuted`: count_4digits looks at the bytes 3, 2, 2 and 1 (daw_count_digits.h), never at the first: of `1.25` no digit is counted, of `-123`
  four. This is the bug for which the branch of skip_number that uses it is switched off with a TODO (daw_json_skip.h:165-170).

Paths of locations
* `C116_quote_refuted`: the range of a string leaves out its quotes, so a location at the closing quote gets the path of the container
  (daw_json_find_path.h:239; for the opening quote the one added to the location helps).
* `C116_null_refuted`: the range of null is null, no location is in it: `[null]` gives the empty path, `{"a":[7,null,8]}` gives `.a`.
* `C116_empty_refuted`: in an empty array or object that is the last of its container the location gets the path of the container; followed by another
  value it is right (last_popped is replaced when the container ends, :165-172).
* `C116_broken_refuted`: the event parser moves on to the next member before it reports the value (daw_json_event_parser.h:467-472), so a value that
  cannot be skipped is not reported: in `{"a":[1,2` every location gets the empty path, in `[10,x]` the location of the error does. This is the use the
  function is made for, the location of a json_exception.

* `C117_lax_refuted`: for a class that is read from an array commas are neither needed nor counted, and the array need not be closed: `[1 2]`, `[,1,2]`
  and `[1,2` are read. `C117_disorder_refuted`: a mapping whose places go back is refused only if the array is long enough to get there
  (maybe_skip_members leaves the index at the end of the array); the order could be checked when compiling. `C117_none_refuted`: a class without members
  takes `[1]` and refuses `[[1]]`.
* `C118_gap_refuted`: members at 2, 3 and 4 are written without commas between them; three numbers become one, three strings are read back from a text
  that is no JSON.
* `C119_positions_refuted`: maybe_skip_members evaluates parse_state.front( ) although there is nothing to skip, because the two conditions are joined by
  `&` (daw_json_parse_value.h:924), and parse_ordered_class_member checks has_more only for members without a place (daw_json_parse_class.h:58-66): `[`
  without a zero behind it is read past its end. `C119_exact_refuted`: so is `[1` for an exact class. Not modelled: without checks, nullable members make
  the loop ignore the end of the array.
* `C120_neighbour_refuted`: construct_array stops after as many elements as the std::array has (daw_json_default_constuctor.h:44-67), and neither it nor
  parse_value_array skips the rest (daw_json_parse_value.h:672-689). The parse position stays in the middle of the array, and the next element of a tuple
  around it is taken from there: `[[1,2],7]` as a tuple of a std::array of one number and a number is `[1]` and `2`. As a member that was found while
  another one was looked for, this is accepted with all checks on: `{"t":[[1,2],7],"b":5}`. `C120_order_refuted`: at the end of a class the rest is skipped with
  the members that are not mapped, so that `{"a":[1,2,3],"b":4}` is accepted if `a` is mapped last and refused if it is mapped first.
  `C120_text_refuted`: what is left need not be JSON.
* `C121_open_refuted`: `[` without a zero byte behind it is read past its end by trim_left_unchecked, as for the other arrays.
* `C122_extra_refuted`: a function with two parameters is called for `[1,2,3]`, the 3 is dropped; for `[1,2,[3]]` the call is refused (the defect of
  `C56_array_refuted`: skip_array starts at the bracket of the next element).
* `C123_comment_refuted`: with ExpectLongNames memchr_checked and memchr_unchecked call std::memchr with a quote, not with their argument
  (daw_json_string_util.h:38-57, 85-107). Comments look for a newline or a star with them: a comment ends at the first quote, and what is behind the quote
  is read as JSON. `C123_no_quote`: if there is no quote in the rest of the document, a null pointer is used. `C123_null_refuted`: so it is for a name that
  does not end, which is an error without the option: nobody compares the result of std::memchr with nullptr. `C123_zero_refuted`: std::strpbrk ends at a
  zero byte.
* `C124_unchecked_refuted`: with unchecked input a boolean that was skipped is read from the parse state's counter (daw_json_parse_value.h:377-380). If it
  was in quotes the counter is the one of skip_string, which is not zero for a string without escapes: `{"b":"false","a":1}` read as a class with the
  members a, b and LiteralAsString gives b = true, `{"a":1,"b":"false"}` gives b = false. `C124_order_refuted`: with checked input only the first byte counts
  for a member that was skipped: `"tomorrow"` is true, and the quotes that the option wants or forbids are not looked at. `C124_half_refuted`: with Maybe
  one quote is enough, `"true` and `false"`. `C124_end_refuted`: with Maybe the literal `true`, which is what to_json writes, is refused at the end of the
  data because skip_quote_when_literal_as_string wants a byte behind it.

* **C125, tuples whose members name a place.** `C125_array_refuted`: with an array behind the last member taken, `[1,2,[3]]`, the tuple ends at the inner
  bracket (skip_array stands inside of the array already and takes the `[` for its own). `C125_missing_refuted`: an element that is missing is not reported
  as MemberNotFound, as for the class with the same members; the parser of the member is run on the `]`. `C125_disorder_refuted`: places that descend are found
  out only if the document is long enough. `C125_lax_refuted`, `C125_open_refuted`: commas are not needed, and a tuple that is not exact may end with the data.
  `C125_end_refuted`: maybe_skip_members and the check for further elements read the byte behind an open array.

* **C126, variants tagged by another element.** `C126_missing_refuted`: a tag that is not in the array is reported as InvalidNumber, because the tag is read
  where the closing bracket is; other missing members of the class are MemberNotFound. `C126_open_refuted`: the array need not be closed, and with exact
  mapping the byte behind the document is read. `C126_lax_refuted`: commas are not needed to reach the tag.

* **C127, names that an object repeats.** `C127_class_refuted`: of `{"a":1,"a":2,"b":3}` a map keeps `a` = 1, a class that declares `b` before `a` takes 2.
  `C127_escape_refuted`: a map decodes its keys, a path compares the bytes of the document, so when the first member is written with an escape
  (the letter a as a unicode escape) the map has its value and a path gives that of the next one.

Seen while reading, not modelled: at( Integer ), name_of and contains( size_t ) of the stateful value do not compile when instantiated.
The traits that detect handle_on_value, handle_on_array_start and handle_on_class_start are instantiated with the allocator type in place of
the value type (daw_json_event_parser.h:88-130), so only handlers that take any type are found.

## 5. Assumptions of each theorem

`Print Assumptions` answers "Closed under the global context" for the following 512 theorems: none depends on an axiom.

`C01_unsigned_exact`, `C01_unsigned_exact_width`, `C02_unsigned_range_check_partial`, `C02_unsigned_range_check_refuted`, `C02_unsigned_range_check_known_refuted`, `C03_signed_range_check_partial`, `C03_signed_range_check_refuted`, `C04_signed_exact_partial`, `C04_signed_exact_refuted`, `C05_unsigned_canonical`, `C05_signed_canonical`, `C05_quoted`, `C06_unsigned_round_trip`, `C06_signed_round_trip_partial`, `C06_signed_round_trip_refuted`, `C06_quoted_round_trip_refuted`, `C07_skip_number_partial`, `C07_unsigned_partial`, `C07_signed_partial`, `C07_skip_number_refuted`, `C07_parse_refuted`, `C07_minus_refuted`, `C08_exact_partial`, `C08_truncated_partial`, `C08_known_partial`, `C08_digits_refuted`, `C08_zero_refuted`, `C08_float_zero_refuted`, `C08_exponent_refuted`, `C09_denotes`, `C09_member`, `C10_round_trip`, `C10_round_trip_document`, `C10_runtime_refuted`, `C11_output_legal`, `C11_raw_refuted`, `C12_decode`, `C12_decode_disallow_high`, `C12_decode_located`, `C12_scalar`, `C12_runtime_refuted`, `C12_disallow_high_empty_refuted`, `C13_cut_short_partial`, `C13_not_hex_refuted`, `C13_low_surrogate_refuted`, `C13_no_second_escape_refuted`, `C14_string_end`, `C14_string_end_exclude_special`, `C14_skip_string`, `C15_string_scan_safe`, `C15_unterminated_throws`, `C15_success_is_string`, `C16_runtime_same_end_partial`, `C16_no_escape_partial`, `C16_simd_end_partial`, `C16_first_escape_refuted`, `C16_simd_end_refuted`, `C16_simd_escape_refuted`, `C17_skip_value_partial`, `C17_null_document_refuted`, `C18_array_count`, `C19_balanced_partial`, `C19_mismatch_refuted`, `C20_checked_unchecked_agree`, `C21_skip_value_safe`, `C21_comments_refuted`, `C22_cpp_comments_partial`, `C22_double_star_refuted`, `C22_unchecked_refuted`, `C22_overread_refuted`, `C23_hash_comments_partial`, `C23_overread_refuted`, `C23_unchecked_refuted`, `C24_any_order_partial`, `C25_agree_partial`, `C25_unmapped_ignored_partial`, `C25_escaped_name_refuted`, `C25_backslash_name_refuted`, `C25_exact_rejected_partial`, `C25_exact_document_partial`, `C26_missing_required_partial`, `C26_missing_document_partial`, `C29_parse_partial`, `C26_empty_value_refuted`, `C27_refuted`, `C27_null_refuted`, `C27_exact_refuted`, `C28_elements_in_order_partial`, `C28_missing_comma_refuted`, `C28_separator_partial`, `C29_round_trip_partial`, `C29_lowest_refuted`, `C29_nested_optional_refuted`, `C30_layout_only_partial`, `C31_well_formed_partial`, `C31_ordered_partial`, `C31_name_refuted`, `C31_ordered_refuted`, `C32_span_no_overrun`, `C32_outside_untouched`, `C33_set_bits`, `C33_set_one`, `C33_get_fits`, `C33_set_bits_in_refuted`, `C34_zero_default_partial`, `C34_parse_number_bool_custom_partial`, `C34_enumerators_partial`, `C34_output_flags`, `C34_output_flags_enumerators`, `C34_string_opt_refuted`, `C34_string_raw_opt_refuted`, `C34_serialize_options_refuted`, `C34_twice_refuted`, `C35_full_check`, `C35_short_names_partial`, `C35_mapped_name_found`, `C35_collision_refuted`, `C36_iterate_partial`, `C36_type_partial`, `C36_text_partial`, `C36_as_partial`, `C36_root_partial`, `C36_name_refuted`, `C36_positions_partial`, `C36_raw_partial`, `C37_by_name_partial`, `C37_by_index_partial`, `C37_past_end_partial`, `C37_index_refuted`, `C37_escape_refuted`, `C38_class_partial`, `C38_position_partial`, `C38_size_partial`, `C38_by_index_partial`, `C38_by_name_partial`, `C38_array_refuted`, `C38_contains_refuted`, `C38_least_index_refuted`, `C39_negative_partial`, `C39_first_refuted`, `C40_partition`, `C41_line_partial`, `C41_column_partial`, `C41_start_refuted`, `C42_calls_partial`, `C42_traversal_partial`, `C42_no_more_partial`, `C42_complete_partial`, `C42_safe_partial`, `C42_skip_refuted`, `C42_skip_start_refuted`, `C42_skip_root_refuted`, `C42_complete_refuted`, `C43_round_trip_partial`, `C43_small_fraction_refuted`, `C43_before_1970_refuted`, `C44_days_of_date`, `C44_calendar_bijection`, `C44_to_time_point`, `C44_from_time_point`, `C44_round_trip`, `C44_huge_year_refuted`, `C45_offset_refuted`, `C45_wrap_refuted`, `C45_offset_never_accepted`, `C46_fields_partial`, `C46_no_such_day_refuted`, `C46_no_such_time_refuted`, `C46_malformed_field_refuted`, `C47_day_of_week_partial`, `C47_date_partial`, `C47_before_1970_refuted`, `C48_garbage_rejected_partial`, `C48_whitespace_accepted_partial`, `C48_control_refuted`, `C49_trim_exact`, `C49_trim_end`, `C49_trim_safe`, `C49_separator`, `C50_reads_inside_partial`, `C50_truncated_refuted`, `C50_c_string_never_ends_refuted`, `C51_name_exact`, `C51_used`, `C51_escaped_name_exact`, `C52_lookup_partial`, `C52_render_partial`, `C52_rendered_partial`, `C52_find_range_partial`, `C52_rendered_refuted`, `C52_find_range_refuted`, `C52_missing_partial`, `C53_long_short_agree`, `C53_short_names_distinct`, `C54_decode_safe`, `C54_parse_string_safe`, `C55_string_output`, `C55_file_output_partial`, `C55_file_output_refuted`, `C56_extra_ignored_partial`, `C56_array_refuted`, `C57_leading_partial`, `C57_scalar_refuted`, `C58_terminated_partial`, `C58_unterminated_partial`, `C58_array_refuted`, `C58_class_refuted`, `C58_other_kind_refuted`, `C58_exact_tuple_refuted`, `C58_variant_refuted`, `C59_written_partial`, `C59_refuted`, `C60_seven_bits_partial`, `C60_refuted`, `C61_refuted`, `C62_iterate_partial`, `C62_type_partial`, `C62_by_name_partial`, `C62_by_index_partial`, `C62_path_partial`, `C62_history_partial`, `C62_refuted`, `C63_partial`, `C63_verify_refuted`, `C63_missing_partial`, `C64_form_partial`, `C64_refuted`, `C65_unknown_partial`, `C65_known_partial`, `C65_past_end_refuted`, `C65_overflow_refuted`, `C66_partial`, `C66_refuted`, `C67_partial`, `C67_refuted`, `C68_unknown_partial`, `C68_known_partial`, `C68_float_refuted`, `C69_partial`, `C69_default_partial`, `C69_refuted`, `C70_unknown_partial`, `C70_known_nan_partial`, `C70_refuted`, `C71_prefix_refuted`, `C71_swallow_refuted`, `C71_position_refuted`, `C71_past_end_refuted`, `C72_partial`, `C72_refuted`, `C73_other_kind_partial`, `C73_error_partial`, `C73_known_partial`, `C73_number_refuted`, `C73_string_refuted`, `C73_embedded_refuted`, `C75_runtime_refuted`, `C76_refuted`, `C78_pairs_partial`, `C78_round_trip_partial`, `C78_empty_partial`, `C78_space_refuted`, `C79_literal_partial`, `C79_string_partial`, `C79_literal_round_trip_partial`, `C79_string_round_trip_partial`, `C79_string_refuted`, `C79_escape_refuted`, `C79_null_refuted`, `C79_any_refuted`, `C79_order_refuted`, `C80_kind_partial`, `C80_no_alternative_partial`, `C80_round_trip_partial`, `C80_null_refuted`, `C80_literal_refuted`, `C81_tag_anywhere_partial`, `C81_no_tag_partial`, `C81_exact_refuted`, `C82_class_partial`, `C82_tag_anywhere_partial`, `C82_no_tag_partial`, `C82_order_refuted`, `C82_null_pointer_refuted`, `C83_size_anywhere_partial`, `C83_order_refuted`, `C83_null_pointer_refuted`, `C83_size_refuted`, `C83_path_refuted`, `C84_text_partial`, `C84_skipped_partial`, `C84_quotes_refuted`, `C84_null_refuted`, `C85_same_value_partial`, `C85_round_trip_partial`, `C86_inside_partial`, `C86_cut_off_partial`, `C86_escape_refuted`, `C86_literal_refuted`, `C86_open_class_refuted`, `C87_same_partial`, `C87_zero_refuted`, `C87_skipped_refuted`, `C87_skipped_null_refuted`, `C87_read_refuted`, `C87_number_refuted`, `C88_well_formed_partial`, `C88_raw_refuted`, `C89_round_trip_partial`, `C89_optional_refuted`, `C89_exact_refuted`, `C90_elements_partial`, `C90_distance_partial`, `C90_bool_refuted`, `C90_nullable_refuted`, `C91_inside_partial`, `C91_ends_partial`, `C91_endless_refuted`, `C91_endless_nullable_refuted`, `C91_path_refuted`, `C91_nested_refuted`, `C92_lines_partial`, `C92_signed_refuted`, `C92_bool_refuted`, `C93_never_refuted`, `C93_refuted`, `C94_start_partial`, `C94_truncated_refuted`, `C94_comma_refuted`, `C94_lines_refuted`, `C95_path_partial`, `C95_not_array_partial`, `C95_missing_partial`, `C95_index_refuted`, `C96_not_equal_partial`, `C96_equal_partial`, `C96_equivalence_partial`, `C96_end_partial`, `C96_good_partial`, `C96_once_refuted`, `C96_refuted`, `C97_well_formed_partial`, `C97_empty_class_refuted`, `C97_title_refuted`, `C97_seven_bit_refuted`, `C98_conforms_partial`, `C98_tuple_refuted`, `C99_valid_partial`, `C99_null_refuted`, `C99_tag_refuted`, `C100_read_partial`, `C100_range_refuted`, `C100_fraction_refuted`, `C100_exact_refuted`, `C100_tuple_refuted`, `C100_tag_refuted`, `C101_same_value_partial`, `C101_round_trip_partial`, `C101_null_refuted`, `C101_null_end_refuted`, `C101_missing_refuted`, `C102_inside_partial`, `C102_missing_refuted`, `C102_view_refuted`, `C103_root_refuted`, `C103_order_refuted`, `C104_values_refuted`, `C105_comments_partial`, `C105_no_difference_partial`, `C105_without_partial`, `C105_garbage_partial`, `C105_number_refuted`, `C105_hash_number_refuted`, `C105_null_refuted`, `C105_bracket_refuted`, `C105_skipped_refuted`, `C105_slash_refuted`, `C105_open_refuted`, `C106_inside_partial`, `C106_refuted`, `C106_terminated_refuted`, `C107_reads_partial`, `C107_no_difference_partial`, `C107_without_strings_partial`, `C107_round_trip_partial`, `C107_escape_refuted`, `C107_simd_refuted`, `C107_end_refuted`, `C107_control_refuted`, `C107_number_refuted`, `C108_reads_partial`, `C108_no_difference_partial`, `C108_garbage_partial`, `C108_round_trip_partial`, `C109_same_partial`, `C109_path_same`, `C109_alloc_partial`, `C109_reads_partial`, `C109_blank_refuted`, `C109_all_blank_refuted`, `C109_zero_refuted`, `C110_reads_partial`, `C110_path_partial`, `C110_missing_partial`, `C110_safe_partial`, `C111_accepted_partial`, `C111_start_partial`, `C111_unsigned_partial`, `C111_brackets_partial`, `C111_zeros_refuted`, `C111_trailing_refuted`, `C111_nothing_refuted`, `C111_missing_refuted`, `C112_means_partial`, `C112_kind_partial`, `C112_count_partial`, `C112_class_partial`, `C112_member_partial`, `C112_fit_refuted`, `C113_reads_partial`, `C113_report_partial`, `C113_shown_partial`, `C113_reason_partial`, `C113_start_refuted`, `C113_end_refuted`, `C113_column_refuted`, `C113_first_line_refuted`, `C114_text_partial`, `C114_distinct_partial`, `C114_member_partial`, `C114_place_partial`, `C114_token_refuted`, `C115_count_partial`, `C115_four_refuted`, `C116_path_partial`, `C116_back_partial`, `C116_safe_partial`, `C116_quote_refuted`, `C116_null_refuted`, `C116_empty_refuted`, `C116_broken_refuted`, `C117_read_partial`, `C117_missing_partial`, `C117_disorder_partial`, `C117_extra_partial`, `C117_disorder_refuted`, `C117_lax_refuted`, `C117_none_refuted`, `C118_well_formed_partial`, `C118_round_trip_partial`, `C118_gap_refuted`, `C119_terminated_partial`, `C119_unterminated_partial`, `C119_positions_refuted`, `C119_exact_refuted`, `C120_read_partial`, `C120_more_partial`, `C120_round_trip_partial`, `C120_neighbour_refuted`, `C120_order_refuted`, `C120_text_refuted`, `C121_terminated_partial`, `C121_open_refuted`, `C122_call_partial`, `C122_extra_partial`, `C122_arity`, `C122_safe_partial`, `C122_path_partial`, `C122_extra_refuted`, `C123_name_partial`, `C123_comments_partial`, `C123_search_partial`, `C123_from_json_partial`, `C123_accepted_partial`, `C123_document_refuted`, `C123_null_refuted`, `C123_comment_refuted`, `C123_no_quote`, `C123_zero_refuted`, `C124_read_partial`, `C124_only_partial`, `C124_unchecked_read_partial`, `C124_known_partial`, `C124_round_trip_partial`, `C124_safe_partial`, `C124_half_refuted`, `C124_end_refuted`, `C124_order_refuted`, `C124_unchecked_refuted`, `C125_read_partial`, `C125_extra_partial`, `C125_terminated_partial`, `C125_unterminated_partial`, `C125_array_refuted`, `C125_missing_refuted`, `C125_disorder_refuted`, `C125_lax_refuted`, `C125_open_refuted`, `C125_end_refuted`, `C126_read_partial`, `C126_range_partial`, `C126_inside_partial`, `C126_open_refuted`, `C126_missing_refuted`, `C126_lax_refuted`, `C127_keys`, `C127_read_partial`, `C127_path_partial`, `C127_absent_partial`, `C127_round_trip_partial`, `C127_class_refuted`, `C127_escape_refuted`.

The following theorems speak of real numbers (rounding) and use axioms of the Coq standard library (its construction of the real numbers), and no others:

* `C74_unknown_partial`: `ClassicalDedekindReals.sig_forall_dec`, `ClassicalDedekindReals.sig_not_dec`, `Classical_Prop.classic`, `FunctionalExtensionality.functional_extensionality_dep`
* `C74_known_partial`: `ClassicalDedekindReals.sig_forall_dec`, `ClassicalDedekindReals.sig_not_dec`, `Classical_Prop.classic`, `FunctionalExtensionality.functional_extensionality_dep`
* `ref_from_chars_exact`: `ClassicalDedekindReals.sig_forall_dec`, `ClassicalDedekindReals.sig_not_dec`, `Classical_Prop.classic`, `FunctionalExtensionality.functional_extensionality_dep`
* `C74_underflow_refuted`: `ClassicalDedekindReals.sig_forall_dec`, `ClassicalDedekindReals.sig_not_dec`, `Classical_Prop.classic`, `FunctionalExtensionality.functional_extensionality_dep`
* `C74_single_refuted`: `ClassicalDedekindReals.sig_forall_dec`, `FunctionalExtensionality.functional_extensionality_dep`
* `C75_unknown_partial`: `ClassicalDedekindReals.sig_forall_dec`, `ClassicalDedekindReals.sig_not_dec`, `Classical_Prop.classic`, `FunctionalExtensionality.functional_extensionality_dep`
* `C75_known_partial`: `ClassicalDedekindReals.sig_forall_dec`, `ClassicalDedekindReals.sig_not_dec`, `Classical_Prop.classic`, `FunctionalExtensionality.functional_extensionality_dep`
* `C76_zero_partial`: `ClassicalDedekindReals.sig_forall_dec`, `ClassicalDedekindReals.sig_not_dec`, `Classical_Prop.classic`, `FunctionalExtensionality.functional_extensionality_dep`
* `C76_text_partial`: `ClassicalDedekindReals.sig_forall_dec`, `ClassicalDedekindReals.sig_not_dec`, `Classical_Prop.classic`, `FunctionalExtensionality.functional_extensionality_dep`
* `C77_unknown_partial`: `ClassicalDedekindReals.sig_forall_dec`, `ClassicalDedekindReals.sig_not_dec`, `Classical_Prop.classic`, `FunctionalExtensionality.functional_extensionality_dep`
* `C77_known_partial`: `ClassicalDedekindReals.sig_forall_dec`, `ClassicalDedekindReals.sig_not_dec`, `Classical_Prop.classic`, `FunctionalExtensionality.functional_extensionality_dep`
* `C77_default_refuted`: `ClassicalDedekindReals.sig_forall_dec`, `ClassicalDedekindReals.sig_not_dec`, `Classical_Prop.classic`, `FunctionalExtensionality.functional_extensionality_dep`
* `C103_read_partial`: `ClassicalDedekindReals.sig_forall_dec`, `ClassicalDedekindReals.sig_not_dec`, `Classical_Prop.classic`, `FunctionalExtensionality.functional_extensionality_dep`
* `C104_well_formed_partial`: `ClassicalDedekindReals.sig_forall_dec`, `ClassicalDedekindReals.sig_not_dec`, `Classical_Prop.classic`, `FunctionalExtensionality.functional_extensionality_dep`
* `C104_round_trip_partial`: `ClassicalDedekindReals.sig_forall_dec`, `ClassicalDedekindReals.sig_not_dec`, `Classical_Prop.classic`, `FunctionalExtensionality.functional_extensionality_dep`
* `C104_default_refuted`: `ClassicalDedekindReals.sig_forall_dec`, `ClassicalDedekindReals.sig_not_dec`, `Classical_Prop.classic`, `FunctionalExtensionality.functional_extensionality_dep`

The modules that use `lia` over booleans load `ZifyBool`, which loads `Coq.ssr.ssrunder`; that file declares its own parameters inside a module type instance (`Coq.ssr.ssrunder.Under_rel.*`, seven names). They are listed by `coqchk` for the loaded library. No theorem uses them.
