{
 "claims": [
  {
   "property": "C01",
   "status": "proved",
   "theorems": [
    "C01_bitCount",
    "C01_highestOneBit",
    "C01_lowestOneBit",
    "C01_lowestOneBit_iso",
    "C01_numberOfLeadingZeros",
    "C01_numberOfTrailingZeros",
    "C01_specifications_unique"
   ],
   "note": "Proved for every int in the gcc reading; numberOfLeadingZeros, bitCount, numberOfTrailingZeros, highestOneBit also in the ISO reading; lowestOneBit(MIN_VALUE) overflows in the ISO reading only (C01_lowestOneBit_iso)."
  },
  {
   "property": "C02",
   "status": "proved",
   "theorems": [
    "C02_reverse",
    "C02_reverseBytes",
    "C02_rotateLeft",
    "C02_rotateRight",
    "C02_reverse_involutive",
    "C02_reverseBytes_involutive",
    "C02_rotations_inverse",
    "C02_rotate_iso",
    "C02_reverse_iso"
   ],
   "note": "Proved for every int and distance in the gcc reading (wrapping shifts, masked counts); in the ISO reading every rotation by a non-zero distance is undefined (C02_rotate_iso) and reverse/reverseBytes shift negative values (C02_reverse_iso)."
  },
  {
   "property": "C03",
   "status": "proved",
   "theorems": [
    "C03_compareUnsigned",
    "C03_compareUnsigned_iso",
    "C03_divide_remainder"
   ],
   "note": "Proved; compareUnsigned relies on wrap-around for negative arguments (C03_compareUnsigned_iso)."
  },
  {
   "property": "C04",
   "status": "proved",
   "theorems": [
    "C04_round_trip",
    "C04_toString_domain",
    "C04_toUnsignedString",
    "C04_toString_iso"
   ],
   "note": "Proved for every int and radix 2..32; toString supports radix 2, 8, 10, 16 only and raises UnsupportedOperationException otherwise."
  },
  {
   "property": "C05",
   "status": "partial",
   "theorems": [
    "C05_accepts",
    "C05_rejects_out_of_range_partial",
    "C05_total",
    "C05_range_refuted",
    "C05_garbage_refuted"
   ],
   "note": "Acceptance of legal numerals, rejection of out-of-range numerals except 2^63..2^64, and totality are proved; the 'exactly' part is refuted: trailing garbage, blanks, '+', 0x and wrapped numerals near 2^64 are accepted and \"-\" raises StringIndexOutOfBounds."
  },
  {
   "property": "C06",
   "status": "partial",
   "theorems": [
    "C06_exact",
    "C06_zero_divisor",
    "C06_overflow",
    "C06_text_follows_value",
    "C06_min_by_minus_one_refuted"
   ],
   "note": "Exact results, ArithmeticException on zero and text consistency proved; 'no operand pair is undefined' refuted by MIN_VALUE / -1 and MIN_VALUE % -1 (traps in both readings)."
  },
  {
   "property": "C07",
   "status": "partial",
   "theorems": [
    "C07_bitCount",
    "C07_bitCount_iso",
    "C07_highestOneBit_partial",
    "C07_highestOneBit_negative",
    "C07_highestOneBit_refuted",
    "C07_lowestOneBit",
    "C07_lowestOneBit_iso",
    "C07_numberOfLeadingZeros",
    "C07_numberOfTrailingZeros",
    "C07_signum_partial",
    "C07_signum_refuted"
   ],
   "note": "bitCount, lowestOneBit, numberOfLeadingZeros, numberOfTrailingZeros proved for every long (ISO overflow cases stated exactly). Refuted: highestOneBit is 0 for every negative value; signum is -1 for every positive value. Exact behaviour proved for all longs."
  },
  {
   "property": "C08",
   "status": "partial",
   "theorems": [
    "C08_reverse_refuted",
    "C08_rotateLeft_partial",
    "C08_rotateRight_partial",
    "C08_rotateLeft_exact",
    "C08_rotateRight_exact",
    "C08_rotate_refuted",
    "C08_rotate_iso"
   ],
   "note": "rotateLeft/rotateRight proved for non-negative values; exact wrong result proved for negative ones (arithmetic shift). reverse and reverseBytes return their argument (refuted). ISO: rotation by a non-zero distance is undefined."
  },
  {
   "property": "C09",
   "status": "partial",
   "theorems": [
    "C09_parseLong_partial",
    "C09_parseLong_otherwise",
    "C09_parseLong_other_radix",
    "C09_parseLong_bad_radix_refuted",
    "C09_distinguishable_refuted",
    "C09_decode_partial",
    "C09_decode_refuted"
   ],
   "note": "parseLong proved exact for radix 10 and 16 (lower-case digits): the value, or -1 for everything else. Refuted: errors are indistinguishable from the legal -1; other radices never accept; radix 0/-1 undefined; decode(MIN_VALUE) is 1 and octal literals are rejected."
  },
  {
   "property": "C10",
   "status": "partial",
   "theorems": [
    "C10_toBinaryString",
    "C10_toHexString",
    "C10_toOctalString_partial",
    "C10_toOctalString_negative",
    "C10_toOctalString_refuted"
   ],
   "note": "Binary and hexadecimal proved for every long, octal for non-negative ones; octal of every negative value is the numeral of its 66-bit value (refuted, exact)."
  },
  {
   "property": "C11",
   "status": "partial",
   "theorems": [
    "C11_static_toString_exact",
    "C11_static_toString_refuted",
    "C11_object_text_exact",
    "C11_object_text_partial",
    "C11_object_text_refuted"
   ],
   "note": "Exact characterisation: the static toString repeats the text of its first argument forever, object text is not renewed by compound assignment. The property as stated is refuted; it holds for histories of plain assignments."
  },
  {
   "property": "C12",
   "status": "partial",
   "theorems": [
    "C12_addExact",
    "C12_subtractExact",
    "C12_add_subtract_iso",
    "C12_increment_decrement_negate",
    "C12_multiplyExact_int_partial",
    "C12_multiplyExact_int_refuted",
    "C12_multiplyExact_long_exact",
    "C12_multiplyExact_long_partial",
    "C12_multiplyExact_long_refuted",
    "C12_multiplyExact_long_iso",
    "C12_toIntExact_exact",
    "C12_toIntExact_partial",
    "C12_toIntExact_refuted"
   ],
   "note": "add/subtract/increment/decrement/negateExact proved (gcc reading for add/subtract; ISO overflow stated). multiplyExact and toIntExact exactly characterised and refuted: multiplyExact(int) and toIntExact miss negative overflow, toIntExact wraps near MAX_VALUE, multiplyExact(long) skips the test when bit 31 of both magnitudes is clear (2^32*2^32 = 0)."
  },
  {
   "property": "C13",
   "status": "partial",
   "theorems": [
    "C13_floorDiv_zero",
    "C13_floorDiv_partial",
    "C13_floorMod_partial",
    "C13_min_by_minus_one_refuted",
    "C13_floorMod_iso"
   ],
   "note": "Proved for every pair except MIN_VALUE / -1, which is undefined (refuted); floorMod's ISO overflow stated exactly."
  },
  {
   "property": "C14",
   "status": "proved",
   "theorems": [
    "C14_max_min",
    "C14_abs",
    "C14_abs_min"
   ],
   "note": "Proved; abs(MIN_VALUE) behaviour stated."
  },
  {
   "property": "C15",
   "status": "proved",
   "theorems": [
    "C15_every_history",
    "C15_get_negative",
    "C15_single_bit_operations",
    "C15_range_operations",
    "C15_iso"
   ],
   "note": "Proved for every history of API calls (inductive syntax of programs) with elements below 2^31-1 under gcc/x86-64 shift semantics; C15_iso shows ISO C++ leaves the unreduced shifts undefined."
  },
  {
   "property": "C16",
   "status": "partial",
   "theorems": [
    "C16_flip_range_exact_partial",
    "C16_flip_range_unaligned_partial",
    "C16_flip_range_refuted",
    "C16_bad_range"
   ],
   "note": "Refuted when the range ends at a multiple of 64: the next 64 bits are toggled too. Exact behaviour characterised for all arguments; correct for every other end."
  },
  {
   "property": "C17",
   "status": "proved",
   "theorems": [
    "C17_cardinality",
    "C17_length",
    "C17_isEmpty",
    "C17_nextSetBit",
    "C17_nextClearBit",
    "C17_previousSetBit",
    "C17_previousClearBit",
    "C17_negative_index",
    "C17_size",
    "C17_length_at_the_boundary"
   ],
   "note": "All queries proved for every reachable BitSet; boundary element 2^31-1 overflows length() (C17_length_at_the_boundary)."
  },
  {
   "property": "C18",
   "status": "proved",
   "theorems": [
    "C18_bitAnd",
    "C18_bitOr",
    "C18_bitXor",
    "C18_andNot",
    "C18_de_morgan"
   ],
   "note": "Proved for all reachable bit sets."
  },
  {
   "property": "C19",
   "status": "partial",
   "theorems": [
    "C19_intersects_exact_partial",
    "C19_intersects_refuted"
   ],
   "note": "Refuted: disjoint sets whose word arrays are full make intersects throw std::out_of_range. Exact characterisation proved."
  },
  {
   "property": "C20",
   "status": "proved",
   "theorems": [
    "C20_toByteArray",
    "C20_valueOf_bytes",
    "C20_bytes_round_trip",
    "C20_toLongArray",
    "C20_longs_round_trip",
    "C20_valueOf_longs"
   ],
   "note": "Proved for every reachable bit set; array sizes within int."
  },
  {
   "property": "C21",
   "status": "proved",
   "theorems": [
    "C21_equals",
    "C21_equal_sets_equal_hash",
    "C21_hash_value",
    "C21_clone",
    "C21_hash_iso"
   ],
   "note": "HW mode; C21_hash_iso shows the ISO signed overflow."
  },
  {
   "property": "C22",
   "status": "proved",
   "theorems": [
    "C22_round_trip",
    "C22_round_trip_string",
    "C22_round_trip_into"
   ],
   "note": "Sizes up to the int range (encoded length <= 2^31-4). HW mode, because ISO C++ leaves the encoder's expression unsequenced (C23_iso)."
  },
  {
   "property": "C23",
   "status": "proved",
   "theorems": [
    "C23_encode_rfc4648",
    "C23_encode_into",
    "C23_length_alphabet",
    "C23_iso"
   ],
   "note": "HW mode; C23_iso shows the ISO C++ unsequenced-modification undefined behaviour for inputs of 3 or more bytes."
  },
  {
   "property": "C24",
   "status": "partial",
   "theorems": [
    "C24_decode_exact_partial",
    "C24_foreign_byte_rejected",
    "C24_short_total",
    "C24_decode_never_out_of_bounds_refuted"
   ],
   "note": "Violated only by the exception message built with pointer arithmetic past a 46-character literal; exact outcome on every input is C24_decode_exact_partial."
  },
  {
   "property": "C25",
   "status": "partial",
   "theorems": [
    "C25_mime_encoder_folds_partial",
    "C25_default_mime_encoder",
    "C25_folded_lines",
    "C25_bad_separator_rejected",
    "C25_negative_length_is_basic",
    "C25_short_line_refuted",
    "C25_mime_decode_exact",
    "C25_mime_round_trip_refuted",
    "C25_mime_round_trip_partial",
    "C25_default_mime_round_trip_partial"
   ],
   "note": "Encoder correct for line lengths >= 4; lengths 0..3 overflow the buffer (out_of_range). The MIME decoder reads the source instead of its table: exact outcome on all MIME encodings is C25_mime_decode_exact."
  },
  {
   "property": "C26",
   "status": "proved",
   "theorems": [
    "C26_sort",
    "C26_sort_range",
    "C26_midpoint_overflow"
   ],
   "note": "Arrays of up to 2^30 elements; C26_midpoint_overflow shows what happens for larger index sums. NaN (no total order) excluded."
  },
  {
   "property": "C27",
   "status": "partial",
   "theorems": [
    "C27_result_holds_key",
    "C27_power_of_two_partial",
    "C27_misses_present_key_refuted",
    "C27_from_ignored_refuted"
   ],
   "note": "Refuted: exactly the lengths 4, 8, 16, ... work; for every other length some present key is missed (C27_misses_present_key_refuted). Results are always sound."
  },
  {
   "property": "C28",
   "status": "partial",
   "theorems": [
    "C28_copyOf",
    "C28_copyOfRange_partial",
    "C28_copyOfRange_to_end_refuted",
    "C28_copyOfRange_convert",
    "C28_fill_range",
    "C28_fill_bad_range",
    "C28_fill",
    "C28_equals"
   ],
   "note": "copyOfRange refuted for ranges that end at the array length; everything else proved."
  },
  {
   "property": "C29",
   "status": "partial",
   "theorems": [
    "C29_history_partial",
    "C29_history_fresh_puts",
    "C29_put_overwrites_refuted",
    "C29_scalar_missing_key_refuted",
    "C29_bulk",
    "C29_forEach",
    "C29_reachable_wf",
    "C29_forEach_stops"
   ],
   "note": "put is insert-if-absent, so a put onto a present key is lost (refuted); every history is proved equal to Java's with put read as putIfAbsent, and exactly Java's when puts hit fresh keys; scalar value types read an indeterminate value for missing keys."
  },
  {
   "property": "C30",
   "status": "partial",
   "theorems": [
    "C30_equals_exact",
    "C30_equals_partial",
    "C30_equal_maps",
    "C30_different_keys_refuted",
    "C30_asymmetric_refuted",
    "C30_scalar_undefined_refuted"
   ],
   "note": "missing key counts as the default value: maps with different keys can compare equal, equals is not symmetric (refuted); exact characterisation and correctness when no value is the default are proved."
  },
  {
   "property": "C31",
   "status": "partial",
   "theorems": [
    "C31_add",
    "C31_build",
    "C31_get",
    "C31_removeAt",
    "C31_search",
    "C31_iteration_iso",
    "C31_set_partial",
    "C31_set_returns_old_refuted",
    "C31_addAt_partial",
    "C31_addAt_end_refuted",
    "C31_addAt_empty_refuted",
    "C31_capacity_constructor_refuted",
    "C31_removeRange"
   ],
   "note": "add(index) at the end or out of range is silently ignored (out-of-bounds insert on the empty list), set returns the new element, ArrayList(n) has n elements (refuted); the rest proved."
  },
  {
   "property": "C32",
   "status": "partial",
   "theorems": [
    "C32_history_partial",
    "C32_addAll_refuted",
    "C32_removeRange_refuted",
    "C32_search_bounds_refuted",
    "C32_assign",
    "C32_self_assign_refuted",
    "C32_built_from_list_refuted",
    "C32_copy",
    "C32_clone",
    "C32_add_own_element_refuted",
    "C32_removeAll_iso",
    "C32_equals"
   ],
   "note": "addAll inserts in front, removeRange bounds, lastIndexOf on empty throws, self-assignment empties, uninitialised capacityIncrement, v.add(v[i]) dangling (refuted); every history of the other calls proved."
  },
  {
   "property": "C33",
   "status": "partial",
   "theorems": [
    "C33_history",
    "C33_search_partial",
    "C33_search_refuted",
    "C33_search_relation_partial"
   ],
   "note": "push/pop/peek/empty proved for every history; search reports the 0-based index from the bottom and throws on empty (refuted, with exact relation)."
  },
  {
   "property": "C34",
   "status": "partial",
   "theorems": [
    "C34_history_partial",
    "C34_empty_refuted",
    "C34_element_refuted",
    "C34_remove_out_of_range_refuted",
    "C34_copy_refuted",
    "C34_remove_node_partial"
   ],
   "note": "Every history that calls get/getFirst/getLast/poll* only on a non-empty list and remove(i) only in range is a deque, memory safe and leak free (C34_history_partial). Refuted: the empty-list calls are undefined, element() has no return, remove(i) out of range answers true, the implicit copy frees every node twice. offer and set are ill-formed when instantiated and not modelled."
  },
  {
   "property": "C35",
   "status": "partial",
   "theorems": [
    "C35_history_partial",
    "C35_drain_partial",
    "C35_empty_refuted",
    "C35_toArray_into",
    "C35_remove_refuted"
   ],
   "note": "For every strict weak ordering and all std heap algorithms meeting their contract. Refuted: remove(x) leaves the vector unheaped, so the next peek is wrong and poll violates the precondition of pop_heap; poll on an empty queue is undefined; peek on an empty queue of scalars is indeterminate."
  },
  {
   "property": "C36",
   "status": "partial",
   "theorems": [
    "C36_contains",
    "C36_startsWith",
    "C36_startsWith_offset",
    "C36_endsWith",
    "C36_indexOf_char",
    "C36_indexOf_nul_refuted",
    "C36_indexOf_char_from",
    "C36_indexOf_str",
    "C36_indexOf_str_from",
    "C36_indexOf_empty_refuted",
    "C36_lastIndexOf_char",
    "C36_lastIndexOf_char_from_partial",
    "C36_lastIndexOf_char_from_refuted",
    "C36_lastIndexOf_char_from_empty_refuted",
    "C36_lastIndexOf_str",
    "C36_lastIndexOf_str_from_partial",
    "C36_lastIndexOf_str_from_refuted"
   ],
   "note": "contains/startsWith/endsWith/indexOf(non-NUL, non-empty)/lastIndexOf proved for all strings. Refuted: indexOf('\\0') returns 0, indexOf(\"\") returns -1, lastIndexOf(char,from) skips index from and reads out of bounds on the empty string, lastIndexOf(String,from) returns -1 when from+|p| exceeds the length; exact behaviour of those proved in the _partial theorems."
  },
  {
   "property": "C37",
   "status": "partial",
   "theorems": [
    "C37_charAt_inside",
    "C37_charAt_outside",
    "C37_charAt_empty",
    "C37_charAt_refuted",
    "C37_getStringFromIndex_inside",
    "C37_getStringFromIndex_outside",
    "C37_getStringFromIndex_empty",
    "C37_subString_inside",
    "C37_slice_unique",
    "C37_subString_outside",
    "C37_subString_refuted",
    "C37_getChars_inside",
    "C37_getChars_outside"
   ],
   "note": "In-range and out-of-range behaviour proved exactly. Refuted: charAt on the empty string is an out-of-bounds read for index > 0; subString returns \"\" instead of raising the documented exception."
  },
  {
   "property": "C38",
   "status": "partial",
   "theorems": [
    "C38_hashCode_unmodified",
    "C38_hashCode_first_call",
    "C38_hashCode_refuted",
    "C38_hashCode_iso_overflow"
   ],
   "note": "Holds while the object is not modified after the first hashCode(); refuted in general because the cached hash is never invalidated. ISO reading: overflow is undefined."
  },
  {
   "property": "C39",
   "status": "partial",
   "theorems": [
    "C39_replace",
    "C39_replaced_unique",
    "C39_replace_empty_diverges_refuted",
    "C39_split",
    "C39_split_join",
    "C39_split_pieces",
    "C39_split_limit",
    "C39_split_empty_diverges_refuted",
    "C39_replace_char",
    "C39_replaceFirst_partial",
    "C39_replaceFirst_at_end_refuted"
   ],
   "note": "Proved for non-empty targets. Refuted: an empty target never terminates; replaceFirst raises an exception when the match is at the end."
  },
  {
   "property": "C40",
   "status": "partial",
   "theorems": [
    "C40_compareTo",
    "C40_lex_order",
    "C40_compareTo_nul_refuted",
    "C40_equals",
    "C40_equalsIgnoreCase",
    "C40_case_partial",
    "C40_trim",
    "C40_regionMatches_inside",
    "C40_regionMatches_refuted"
   ],
   "note": "Proved for NUL-free strings; compareTo and regionMatches refuted outside that domain / for invalid ranges. toLowerCase/toUpperCase only for ASCII."
  },
  {
   "property": "C41",
   "status": "partial",
   "theorems": [
    "C41_constructors",
    "C41_history_partial",
    "C41_toString",
    "C41_toString_nul_refuted",
    "C41_insert_overflow_refuted",
    "C41_assign_refuted",
    "C41_length_overflow_refuted"
   ],
   "note": "Full editing history refinement proved for conforming calls; refuted parts: toString/substring truncate at an embedded NUL, insert(array) offset+length overflow, missing operator= (double free), total length beyond int overflows the buffer."
  },
  {
   "property": "C42",
   "status": "partial",
   "theorems": [
    "C42_indexOf_total",
    "C42_indexOf_short_partial",
    "C42_indexOf_refuted",
    "C42_lastIndexOf_total_partial",
    "C42_lastIndexOf_short_partial",
    "C42_lastIndexOf_from_char_partial",
    "C42_lastIndexOf_refuted",
    "C42_lastIndexOf_beyond_refuted",
    "C42_builder"
   ],
   "note": "Totality/memory safety of indexOf proved; correctness proved for patterns of at most two characters; refuted for longer patterns (indexOf builds its failure table from the text instead of the pattern), lastIndexOf ignores its start index and reads outside the text for a start beyond the length."
  },
  {
   "property": "C43",
   "status": "partial",
   "theorems": [
    "C43_constructors",
    "C43_history_partial",
    "C43_toString_partial",
    "C43_toString_refuted",
    "C43_bounds_refuted",
    "C43_replace_refuted",
    "C43_calls_refuted"
   ],
   "note": "Proved: every history of conforming edits whose buffer keeps room for the terminator ends with the specified text, and toString/indexOf agree with it; refuted: a full or just-grown buffer has no terminator so toString reads beyond, deleteCharAt/setLength/deletes touch memory beyond a full buffer, replace moves the wrong number of characters, insert(CharSequence) inserts the word true, subString(length) throws."
  },
  {
   "property": "C44",
   "status": "partial",
   "theorems": [
    "C44_atomic_partial",
    "C44_progress_partial",
    "C44_accesses",
    "C44_appends",
    "C44_ensureCapacity_refuted"
   ],
   "note": "Proved for the mutex-protected methods, any number of threads, programs, schedules and any access-level decomposition: linearizable, deadlock free, undefined behaviour only where a sequential order has it; appending threads lose nothing. Missing: ensureCapacity, length and getValue take no mutex - refuted by a schedule where ensureCapacity loses an append. Copying from another buffer without its lock is not modelled."
  },
  {
   "property": "C45",
   "status": "partial",
   "theorems": [
    "C45_encode",
    "C45_encoded_unique",
    "C45_alphabet",
    "C45_decode",
    "C45_round_trip",
    "C45_nul_refuted",
    "C45_charset",
    "C45_malformed",
    "C45_iso"
   ],
   "note": "Round trip, encoding, decoding and alphabet proved for every string without NUL (under the strict reading: ASCII, since isalnum of other bytes is undefined). Missing: strings with NUL are cut at the NUL (refuted)."
  },
  {
   "property": "C46",
   "status": "partial",
   "theorems": [
    "C46_digest_partial",
    "C46_limit",
    "C46_huge_refuted",
    "C46_shift_iso"
   ],
   "note": "The model computes the RFC 1321 digest for every list of chunks. Missing from the full property: one update may not exceed INT_MAX - (bytes buffered) bytes; C46_limit is exact and C46_huge_refuted shows the out-of-bounds write beyond it."
  },
  {
   "property": "C47",
   "status": "proved",
   "theorems": [
    "C47_digest"
   ],
   "note": "SHA-1 against an independent transcription of FIPS 180-4, any partition of the input."
  },
  {
   "property": "C48",
   "status": "partial",
   "theorems": [
    "C48_sha1_history",
    "C48_md5_history",
    "C48_md5_resets_partial",
    "C48_md5_again_refuted",
    "C48_reset",
    "C48_rejected",
    "C48_algorithms",
    "C48_copy_refuted"
   ],
   "note": "SHA-1 keeps the promise in every history. MD5: a second digest() without reset() hashes the padded message (isFinished is never set), refuted; proved for histories with a reset after each digest. Copying a MessageDigest double-frees its engine."
  },
  {
   "property": "C49",
   "status": "proved",
   "theorems": [
    "C49_text",
    "C49_round_trip",
    "C49_fromString",
    "C49_unparse_lower",
    "C49_unparse_upper",
    "C49_parse",
    "C49_parse_total",
    "C49_parse_unparse",
    "C49_pack_unpack",
    "C49_parse_iso"
   ],
   "note": "toString/fromString and libuuid parse/unparse/pack/unpack, for every UUID; in ISO C++ isxdigit on a negative char is undefined (C49_parse_iso)."
  },
  {
   "property": "C50",
   "status": "partial",
   "theorems": [
    "C50_random",
    "C50_time",
    "C50_distinct_partial",
    "C50_distinct_refuted",
    "C50_backward_refuted"
   ],
   "note": "Version and variant proved for every input. Distinctness of time UUIDs is refuted in general (eleven equal clock readings collide with the next microsecond; 2^14 backward steps wrap the clock sequence) and proved when neither happens. State file and per-thread clock states are not modelled."
  },
  {
   "property": "C51",
   "status": "partial",
   "theorems": [
    "C51_compare",
    "C51_total_order",
    "C51_equals",
    "C51_fields",
    "C51_variant_refuted",
    "C51_variant_wrong_refuted",
    "C51_variant_ncs_partial"
   ],
   "note": "variant() is refuted for every IETF UUID (shift count 66); everything else proved."
  },
  {
   "property": "C52",
   "status": "proved",
   "theorems": [
    "C52_sequence",
    "C52_same_seed",
    "C52_bound",
    "C52_bad_bound",
    "C52_fractions",
    "C52_full_period",
    "C52_overflow_iso",
    "C52_order_iso"
   ],
   "note": "On gcc/x86-64. nextGaussian is in C118, the constructor without a seed in C117. In ISO C++ the product in next overflows (C52_overflow_iso) and the order of the two draws of nextLong and nextDouble is open (C52_order_iso)."
  },
  {
   "property": "C53",
   "status": "proved",
   "theorems": [
    "C53_sequential",
    "C53_finished",
    "C53_each_state_once",
    "C53_progress"
   ],
   "note": "Covers next and setSeed under every schedule, including spurious failures of compare_exchange_weak. Calls that draw twice (nextLong, nextDouble) are two calls of next."
  },
  {
   "property": "C54",
   "status": "partial",
   "theorems": [
    "C54_conservation",
    "C54_conservation_finished",
    "C54_mutual_exclusion",
    "C54_nonnegative_partial",
    "C54_one_acquirer_partial",
    "C54_negative_refuted",
    "C54_negative_try_refuted",
    "C54_spurious_refuted"
   ],
   "note": "Conservation of permits (modulo 2^32) holds at every step of every interleaving, as does mutual exclusion; non-negativity is proved for tryAcquire/release programs and for one acquirer, and refuted for two acquirers (test and decrement are two critical sections), acquire against tryAcquire, and spurious wake-ups."
  },
  {
   "property": "C55",
   "status": "partial",
   "theorems": [
    "C55_progress_partial",
    "C55_try_never_stuck",
    "C55_lost_wakeup_refuted",
    "C55_notify_one_refuted",
    "C55_stuck"
   ],
   "note": "Proved: the mutexes never deadlock, only waits of acquire can block for ever, tryAcquire programs always finish. Refuted: a release between the test and the wait is lost; release(2) wakes one of two waiters."
  },
  {
   "property": "C56",
   "status": "partial",
   "theorems": [
    "C56_join_after_function_partial",
    "C56_join_result",
    "C56_spurious_refuted",
    "C56_join_finished_partial",
    "C56_join_lost_refuted",
    "C56_second_join_refuted",
    "C56_alive_refuted",
    "C56_timed_join"
   ],
   "note": "Proved: without spurious wake-ups a join that gets its permit comes after the end of the function; the only join on a finished thread returns; timed joins return. Refuted: spurious wake-up, lost wake-up, second join, isAlive still true after join."
  },
  {
   "property": "C57",
   "status": "partial",
   "theorems": [
    "C57_linearizable",
    "C57_single_writer_partial",
    "C57_final_table",
    "C57_sequential",
    "C57_putIfAbsent_refuted",
    "C57_remove_refuted",
    "C57_removeIf_refuted",
    "C57_size_refuted",
    "C57_get_scalar_refuted"
   ],
   "note": "Linearizable (canonical atomic object, any number of threads): get, getOrDefault, containsKey, containsValue, put always; putIfAbsent and remove when each key has one writer. Refuted: concurrent putIfAbsent (both insert), concurrent remove (both return the value), remove(key, value) against put (lost update), size (counters read one by one), get on a map of scalars (indeterminate). clear() is not atomic in the program (C106) and is left out. libcuckoo is modelled by its contract, which C107 proves of the table; putIfAbsent as written does not compile and is modelled with a local copy."
  },
  {
   "property": "C58",
   "status": "partial",
   "theorems": [
    "C58_constructor",
    "C58_valueOf",
    "C58_valueOf_only",
    "C58_roundtrip_partial",
    "C58_valueOf_toString",
    "C58_roundtrip_refuted",
    "C58_reflexive",
    "C58_isCompatible_total",
    "C58_isCompatible_partial",
    "C58_isCompatible_exact",
    "C58_matches_symmetric",
    "C58_symmetric_partial",
    "C58_suffix",
    "C58_symmetric_refuted",
    "C58_wildcard_suffix_refuted",
    "C58_default"
   ],
   "note": "valueOf completely characterised; round trip for clean types and for everything valueOf returns; isCompatible reflexive, total, correct without '+', refuted with suffixes (asymmetric)."
  },
  {
   "property": "C59",
   "status": "partial",
   "theorems": [
    "C59_order",
    "C59_getTime_order_partial",
    "C59_setTime",
    "C59_copy",
    "C59_getTime_refuted"
   ],
   "note": "Ordering proved for every state reachable by constructing, copying, assigning and setting dates; partial because getTime overflows beyond year 292 million, where its order no longer agrees."
  },
  {
   "property": "C60",
   "status": "partial",
   "theorems": [
    "C60_total",
    "C60_iso",
    "C60_iso_refuted",
    "C60_local",
    "C60_gmt",
    "C60_offset",
    "C60_asctime",
    "C60_toString",
    "C60_slash",
    "C60_half_day",
    "C60_comment",
    "C60_comment_refuted",
    "C60_round_trip_refuted",
    "C60_wrap_refuted",
    "C60_american_zone",
    "C60_two_digit_year"
   ],
   "note": "Totality for all strings; ISO C++ agrees with the wrapping semantics except for signed overflow on long digit runs; the usual formats (local, GMT, offsets, toString, m/d/y, am/pm) and comments proved for all dates from year 100. Refuted: nested comments rejected, toString output in a zone with numeric abbreviation rejected, years reduced modulo 2^32 (ISO: undefined). The words are searched as the code does, so one-letter prefixes are accepted (not specified by the property)."
  },
  {
   "property": "C61",
   "status": "partial",
   "theorems": [
    "C61_digit_decimal",
    "C61_digit_hexadecimal_partial",
    "C61_digit_capital_refuted",
    "C61_digit_radix_refuted",
    "C61_surrogates_refuted",
    "C61_non_surrogates_partial",
    "C61_high_not_low",
    "C61_toCodePoint_refuted",
    "C61_toCodePoint_iso",
    "C61_toCodePoint_partial",
    "C61_charCount",
    "C61_codePointAt_chars",
    "C61_codePointAt_limit_chars",
    "C61_codePointBefore_chars",
    "C61_codePointCount_chars",
    "C61_compare",
    "C61_codePointBefore_start_chars"
   ],
   "note": "Digits proved for radix 10 and lower-case radix 16; the surrogate constants are multi-character literals, so the surrogate functions fail on every UTF-16 unit (refuted for all inputs)."
  },
  {
   "property": "C62",
   "status": "partial",
   "theorems": [
    "C62_text_round_trip",
    "C62_parse",
    "C62_parse_total",
    "C62_parse_refuted",
    "C62_arithmetic",
    "C62_assignments",
    "C62_order",
    "C62_valueOf_first_partial",
    "C62_valueOf_twice_refuted",
    "C62_parseBoolean",
    "C62_boolean_round_trip",
    "C62_boolean_compare",
    "C62_boolean_constructor_refuted",
    "C62_decode",
    "C62_default_charValue"
   ],
   "note": "Text, arithmetic, order and parseBoolean proved; Bytes.valueOf(byte) may be called only once per process (use after free), Boolean(string) accepts only \"True\"."
  },
  {
   "property": "C63",
   "status": "proved",
   "theorems": [
    "C63_toString"
   ],
   "note": "Proved for every reachable bit set."
  },
  {
   "property": "C64",
   "status": "partial",
   "theorems": [
    "C64_buffer_without_assignment_partial",
    "C64_double_free_refuted"
   ],
   "note": "Refuted: assignment after toString frees the buffer without clearing the pointer; the next toString/assignment/destructor frees it again. Without assignment the buffer is freed once."
  },
  {
   "property": "C65",
   "status": "partial",
   "theorems": [
    "C65_hashCode_polynomial_partial",
    "C65_empty_refuted",
    "C65_equal_arrays_equal_hash",
    "C65_iso"
   ],
   "note": "Refuted for the empty array (0 instead of 1)."
  },
  {
   "property": "C66",
   "status": "partial",
   "theorems": [
    "C66_bytes_appended",
    "C66_bytes_refuted",
    "C66_string_partial",
    "C66_string_refuted"
   ],
   "note": "Both parts are violated for every input: nextBytes appends the bytes drawn to the array (its length doubles), nextString stores its terminator one element past its local array. C66_string_partial covers what is stored before the terminator."
  },
  {
   "property": "C67",
   "status": "partial",
   "theorems": [
    "C67_lower_partial",
    "C67_upper_refuted",
    "C67_malformed_refuted",
    "C67_malformed_group_refuted"
   ],
   "note": "Upper-case digits and malformed texts give wrong UUIDs instead of a value or an exception."
  },
  {
   "property": "C68",
   "status": "proved",
   "theorems": [
    "C68_type",
    "C68_variant",
    "C68_time",
    "C68_time_generated",
    "C68_compare",
    "C68_is_null"
   ],
   "note": "Every clause, for every UUID."
  },
  {
   "property": "C69",
   "status": "partial",
   "theorems": [
    "C69_first_start",
    "C69_start_alive",
    "C69_second_start_refuted",
    "C69_restart_refuted",
    "C69_once_partial",
    "C69_detach",
    "C69_detach_new_refuted"
   ],
   "note": "A second start terminates the process (move assignment to a joinable std::thread) unless alive is set; after detach start runs the function again; detach before start throws std::system_error."
  },
  {
   "property": "C70",
   "status": "partial",
   "theorems": [
    "C70_fresh_partial",
    "C70_constructor_partial",
    "C70_set_partial",
    "C70_text",
    "C70_getters_refuted",
    "C70_setter_refuted",
    "C70_compare_refuted"
   ],
   "note": "All dates share the static buffer of localtime: the getters and setters act on the date made (or compared) last. What holds right after a construction is proved; the sharing is refuted with concrete programs."
  },
  {
   "property": "C71",
   "status": "partial",
   "theorems": [
    "C71_UTC_partial",
    "C71_UTC_zone_refuted"
   ],
   "note": "Exact result proved; right only in a zone equal to UTC (milliseconds are passed where seconds are expected)."
  },
  {
   "property": "C72",
   "status": "partial",
   "theorems": [
    "C72_unsigned_accepts",
    "C72_unsigned_range",
    "C72_unsigned_minus",
    "C72_unsigned_total",
    "C72_unsigned_garbage_refuted",
    "C72_unsigned_iso",
    "C72_unsigned_iso_refuted",
    "C72_decode_partial",
    "C72_decode_refuted"
   ],
   "note": "Partial: garbage after or before the digits is accepted, '-0', the least int, '+0x..' and '#..' are mishandled by decode (refuted); numerals and literals in range, rejection of out-of-range numerals and of '-', and totality are proved."
  },
  {
   "property": "C73",
   "status": "partial",
   "theorems": [
    "C73_signum",
    "C73_long_compare",
    "C73_int_compare",
    "C73_sum",
    "C73_sum_wraps",
    "C73_hex",
    "C73_octal",
    "C73_long_hash",
    "C73_long_hash_range",
    "C73_long_exact",
    "C73_long_overflow",
    "C73_long_division_refuted"
   ],
   "note": "Partial: Long / and % by zero are not checked (refuted); everything else proved."
  },
  {
   "property": "C74",
   "status": "partial",
   "theorems": [
    "C74_subString",
    "C74_subString_outside",
    "C74_index",
    "C74_index_end",
    "C74_index_refuted",
    "C74_contains",
    "C74_contentEquals",
    "C74_contentEquals_refuted",
    "C74_join",
    "C74_valueOf_bool",
    "C74_valueOf_int",
    "C74_valueOf_round_trip",
    "C74_valueOf_char",
    "C74_valueOf_char_refuted"
   ],
   "note": "Partial: operator[] outside the string is undefined, contentEquals stops at NUL, valueOf('\\0') is empty (refuted); everything else proved."
  },
  {
   "property": "C75",
   "status": "proved",
   "theorems": [
    "C75_forEach",
    "C75_visits_fun",
    "C75_trimToSize",
    "C75_subscript",
    "C75_pq_copy",
    "C75_pq_capacity",
    "C75_vector_capacity",
    "C75_vector_copyInto"
   ],
   "note": "forEach characterised for every effectful action (C75_visits_fun: the specification is functional); heap algorithms by contract as in C35."
  },
  {
   "property": "C76",
   "status": "partial",
   "theorems": [
    "C76_builder_codePoints",
    "C76_buffer_codePoints_partial",
    "C76_codePointCount_refuted",
    "C76_appendCodePoint_partial",
    "C76_appendCodePoint_refuted",
    "C76_lastIndexOf_partial",
    "C76_lastIndexOf_from_refuted",
    "C76_appendBuffer_refuted",
    "C76_offsetByCodePoints_refuted"
   ],
   "note": "codePointCount of a StringBuffer reads one byte past the range (out of bounds when the block is full); appendCodePoint ignores NUL and truncates to bytes; lastIndexOf(p, from) throws when from + |p| exceeds the length; append(StringBuffer) reads past a full block; offsetByCodePoints always answers 0."
  },
  {
   "property": "C77",
   "status": "partial",
   "theorems": [
    "C77_bits_partial",
    "C77_seen_partial",
    "C77_negated_partial",
    "C77_negative_refuted",
    "C77_minus_zero_refuted",
    "C77_half_refuted",
    "C77_tiny_refuted",
    "C77_nan_refuted",
    "C77_large_refuted"
   ],
   "note": "Exact IEEE bits for the positive numbers below 2^30 whose digits the code keeps (faithful), +0 and +infinity; general law for the other positive numbers. Refuted with exact sets: negative numbers (only -2.0 right), -0.0, NaN, half digit from 1 on, numbers below 2^-(M+1), magnitude from 2^30 (undefined)."
  },
  {
   "property": "C78",
   "status": "partial",
   "theorems": [
    "C78_normal_partial",
    "C78_negated_partial",
    "C78_subnormal_refuted",
    "C78_nan_refuted",
    "C78_minus_zero_refuted",
    "C78_negative_refuted",
    "C78_roundtrip_partial",
    "C78_roundtrip_zero_refuted",
    "C78_float_roundtrip_partial",
    "C78_float_roundtrip_refuted"
   ],
   "note": "Exact for positive normal patterns and +infinity; round trip for all faithful non-zero numbers of both signs and infinities. Refuted: zero and subnormal patterns (all of them), NaN patterns, negative patterns, LONG_MIN/INT_MIN (undefined); intBitsToFloat(floatToIntBits x) for negatives other than -2.0f."
  },
  {
   "property": "C79",
   "status": "partial",
   "theorems": [
    "C79_compare_partial",
    "C79_zeros_refuted",
    "C79_half_refuted",
    "C79_order",
    "C79_equals_partial",
    "C79_hashCode",
    "C79_operators_partial",
    "C79_classify",
    "C79_hash_halves"
   ],
   "note": "Java's order on faithful values (all signs, infinities, NaN) except the two zeros; consistency of compare for all values; refuted at the zeros and where a digit is lost (1.5 equals 1.0)."
  },
  {
   "property": "C80",
   "status": "partial",
   "theorems": [
    "C80_abs_partial",
    "C80_abs_refuted",
    "C80_copySign",
    "C80_signum",
    "C80_max_partial",
    "C80_min_partial",
    "C80_max_min_refuted"
   ],
   "note": "copySign and signum proved for every number; abs except -0.0; max/min right exactly outside two stated sets (refuted there)."
  },
  {
   "property": "C81",
   "status": "partial",
   "theorems": [
    "C81_getExponent_partial",
    "C81_getExponent_refuted",
    "C81_ulp_partial",
    "C81_ulp_float_refuted",
    "C81_ulp_double_refuted",
    "C81_nextUp",
    "C81_nextDown_partial",
    "C81_nextDown_zero_refuted",
    "C81_nextAfter"
   ],
   "note": "nextUp and nextAfter proved; nextDown except at zero (MIN_VALUE is the least normal number); getExponent except negative subnormals below half the least normal number; ulp refuted for every finite number but the largest."
  },
  {
   "property": "C82",
   "status": "partial",
   "theorems": [
    "C82_cast_partial",
    "C82_cast_refuted",
    "C82_byteValue_partial",
    "C82_byteValue_refuted",
    "C82_round_partial",
    "C82_round_tie_refuted",
    "C82_round_range_refuted",
    "C82_remainder_partial",
    "C82_remainder_refuted"
   ],
   "note": "round refuted for negative halves, conversions out of range undefined, IEEERemainder refuted in ties and for infinite divisors; right elsewhere as stated."
  },
  {
   "property": "C83",
   "status": "proved",
   "theorems": [
    "C83_never_more_than_given",
    "C83_books_balance",
    "C83_availableApprox",
    "C83_sleeper_can_go",
    "C83_giving_up_ends",
    "C83_post_succeeds",
    "C83_stuck_only_without_permits"
   ],
   "note": "Operational model at the level of single atomic operations; invariant by induction over runs. The kernel semaphore is modelled by its POSIX contract; loads may return any stale value."
  },
  {
   "property": "C84",
   "status": "proved",
   "theorems": [
    "C84_results",
    "C84_who_sleeps",
    "C84_waitMany_zero",
    "C84_tryWaitMany_takes_all",
    "C84_tryWait_takes_one"
   ],
   "note": "C84_waitMany_zero: waitMany(0) without timeout is accepted by the entry assertion but returns 0, which fails its own assertion result > 0."
  },
  {
   "property": "C85",
   "status": "proved",
   "theorems": [
    "C85_nothing_lost_or_duplicated",
    "C85_items_to_take_are_there",
    "C85_taker_can_go",
    "C85_results",
    "C85_consumer_wakes",
    "C85_stuck_only_when_empty",
    "C85_size_approx"
   ],
   "note": "The semaphore is modelled step by step (C83, C84); the inner ConcurrentQueue is replaced by its documented contract, a bag without order."
  },
  {
   "property": "C86",
   "status": "partial",
   "theorems": [
    "C86_objects",
    "C86_toString_injective",
    "C86_equal_hash",
    "C86_hash_text",
    "C86_comparisons",
    "C86_arithmetic",
    "C86_division_by_zero_refuted",
    "C86_charValue",
    "C86_parse_decimal",
    "C86_round_trip",
    "C86_parse_garbage_refuted",
    "C86_parse_range_refuted",
    "C86_parse_octal_refuted",
    "C86_parse_nothing_refuted"
   ],
   "note": "All but parsing of invalid texts and division by zero proved; parseShort (sscanf %hi) accepts blanks and trailing garbage, reads 0.. as octal and 0x.. as hexadecimal, wraps out-of-range numbers (undefined in ISO C++) and returns an indeterminate value when there is no number; division by zero is undefined instead of ArithmeticException."
  },
  {
   "property": "C87",
   "status": "partial",
   "theorems": [
    "C87_constructors",
    "C87_refines_list",
    "C87_get",
    "C87_iteration",
    "C87_negative_size",
    "C87_large_size_refuted"
   ],
   "note": "Proved for fewer than 2^31 elements; refuted beyond: Array(long) accepts them, but the int field length is truncated (2^32 elements iterate as none)."
  },
  {
   "property": "C88",
   "status": "partial",
   "theorems": [
    "C88_list_text",
    "C88_string_list_text",
    "C88_map_text",
    "C88_string_map_text",
    "C88_numbers_unambiguous",
    "C88_number_maps_unambiguous",
    "C88_strings_unambiguous",
    "C88_strings_ambiguous_refuted"
   ],
   "note": "Exact texts proved; unambiguous for integers and for Strings without quotes that do not begin with [ or {; refuted in general: nothing is escaped."
  },
  {
   "property": "C89",
   "status": "proved",
   "theorems": [
    "C89_at_most_once",
    "C89_right_element",
    "C89_in_order",
    "C89_no_gap",
    "C89_prefix_when_quiet"
   ],
   "note": "Sub-queues of implicit producers; memory is sequentially consistent except that counter loads may be stale; the pool of blocks and the block index are modelled by contract; indices unbounded (wrap-around treated in C91)."
  },
  {
   "property": "C90",
   "status": "proved",
   "theorems": [
    "C90_no_undefined_behaviour",
    "C90_pool_blocks_unused",
    "C90_elements_kept"
   ],
   "note": "Same model as C89."
  },
  {
   "property": "C91",
   "status": "proved",
   "theorems": [
    "C91_counters",
    "C91_never_blocked",
    "C91_bounded",
    "C91_dequeue_alone",
    "C91_no_refusal",
    "C91_size_when_quiet",
    "C91_circular_less_than",
    "C91_place_in_block"
   ],
   "note": "Same model as C89; the block pool and block index count as single steps (the real ones are lock-free, not wait-free)."
  },
  {
   "property": "C92",
   "status": "proved",
   "theorems": [
    "C92_handed_out_once",
    "C92_clients_keep",
    "C92_one_place",
    "C92_one_worker",
    "C92_nothing_lost",
    "C92_flag_clear"
   ],
   "note": "Every access to an atomic variable is a step; loads of the head and of the counters may be arbitrarily stale. Nodes are never freed while the list exists (the precondition the code states)."
  },
  {
   "property": "C93",
   "status": "proved",
   "theorems": [
    "C93_never_blocked",
    "C93_all_calls_end",
    "C93_null_only_if_empty",
    "C93_get_alone",
    "C93_add_alone"
   ],
   "note": "Bound 120 T^3 + 74 T^2 + 15 T on the steps of T threads without new calls; needs current values in loads (a load that is stale for ever can retry for ever)."
  },
  {
   "property": "C94",
   "status": "partial",
   "theorems": [
    "C94_one_reading",
    "C94_first_directive",
    "C94_fills",
    "C94_too_few",
    "C94_exception_refuted",
    "C94_plain",
    "C94_total",
    "C94_number_too_long_refuted",
    "C94_string_128_refuted",
    "C94_string_nul_refuted",
    "C94_bool_refuted",
    "C94_type_refuted",
    "C94_format_nul_refuted"
   ],
   "note": "Proved for format strings without NUL and arguments that fit; wrong: exception class, number texts of 128 or more characters (out of bounds beyond), string texts of exactly 128, NUL in format or String argument, %b with a width, mismatched types undefined. regexec and snprintf by contract."
  },
  {
   "property": "C95",
   "status": "partial",
   "theorems": [
    "C95_utf8_injective",
    "C95_characters",
    "C95_idempotent",
    "C95_ascii",
    "C95_invalid_refuted",
    "C95_every_text",
    "C95_nul_refuted"
   ],
   "note": "Proved for every valid UTF-8 text without NUL, any towupper/towlower; refuted: a byte that cannot begin a character makes the whole result empty, NUL cuts the text, an incomplete last character is dropped. Conversions of libstdc++ by contract."
  },
  {
   "property": "C96",
   "status": "partial",
   "theorems": [
    "C96_message",
    "C96_cause",
    "C96_no_cause_refuted",
    "C96_index_text",
    "C96_assertion_text",
    "C96_handlers",
    "C96_handlers_refuted",
    "C96_application"
   ],
   "note": "Refuted: getCause of an exception made without a cause reads an uninitialised pointer; NumberFormatException is no IllegalArgumentException, InterruptedException and CloneNotSupportedException are RuntimeExceptions. Everything else proved for all classes."
  },
  {
   "property": "C97",
   "status": "partial",
   "theorems": [
    "C97_equivalence",
    "C97_identity_partial",
    "C97_identity_refuted",
    "C97_classes_refuted",
    "C97_text",
    "C97_enum_order",
    "C97_enum_names",
    "C97_enum_order_refuted"
   ],
   "note": "Equivalence and text proved for all objects. Identity holds only for objects less than 4 GB apart (C97_identity_partial): the hash code keeps 32 bits of the address (C97_identity_refuted), and objects of different classes with the same hash code are equal (C97_classes_refuted). Enum order proved for ordinals >= 0; refuted for negative ones, which the constructor accepts."
  },
  {
   "property": "C98",
   "status": "partial",
   "theorems": [
    "C98_spec_refuted",
    "C98_copy",
    "C98_text",
    "C98_settings",
    "C98_new",
    "C98_defaults_refuted"
   ],
   "note": "Copy, text of a URL with parts, and settings proved. Refuted: the constructor from a text ignores the text and leaves the port uninitialised (C98_spec_refuted); five settings have no default (C98_defaults_refuted)."
  },
  {
   "property": "C99",
   "status": "partial",
   "theorems": [
    "C99_toString",
    "C99_toLocaleString_partial",
    "C99_toGMTString",
    "C99_round_trip",
    "C99_round_trip_string_partial",
    "C99_toLocaleString_refuted",
    "C99_round_trip_string_refuted"
   ],
   "note": "toString and toGMTString proved for every reachable date, with the weekday; toGMTString is parsed back in every zone (C99_round_trip); toString where the zone is GMT, UT or UTC (refuted for zones parse does not know). toLocaleString prints the shared buffer: its form is proved, but it shows the date made last (C99_toLocaleString_refuted). strftime by contract."
  },
  {
   "property": "C100",
   "status": "partial",
   "theorems": [
    "C100_one_text",
    "C100_format_partial",
    "C100_format_refuted",
    "C100_java_pattern_refuted",
    "C100_environment_partial",
    "C100_environment_refuted",
    "C100_getters_refuted",
    "C100_zone",
    "C100_zone_refuted",
    "C100_getenv_partial",
    "C100_getenv_refuted"
   ],
   "note": "The text is proved to be the one the pattern stands for (which exists and is unique, C100_one_text) when it has less than 80 characters. Refuted: longer texts are lost, patterns in Java's notation are printed literally, TZ is removed from the environment, the getters of other dates change, zones held by reference change, getenv of an unset variable dereferences null."
  },
  {
   "property": "C101",
   "status": "partial",
   "theorems": [
    "C101_array",
    "C101_range",
    "C101_message_refuted",
    "C101_pointer",
    "C101_buffer_partial",
    "C101_buffer_refuted"
   ],
   "note": "Refuted: when offset + length exceeds int, the index in the message is computed with signed overflow; from a StringBuilder or StringBuffer the text is cut at the first NUL."
  },
  {
   "property": "C102",
   "status": "proved",
   "theorems": [
    "C102_map",
    "C102_contract"
   ],
   "note": "The whole of libcuckoo used by one thread: breadth-first path search, displacement, lazy migration, doubling, rebuilding, iteration; every growth ends within 70 rounds."
  },
  {
   "property": "C103",
   "status": "partial",
   "theorems": [
    "C103_first_eight_partial",
    "C103_refused_sparse_partial",
    "C103_ninth_refuted",
    "C103_nine_refuted",
    "C103_strings_refuted"
   ],
   "note": "Proved: in a table made for at least 2048 elements (the default is 262144) no put is refused while fewer than eight mappings are present, and a refusal leaves the content unchanged, at a load factor below 0.05 with both buckets full. Refuted: a ninth key with the hash value of eight present keys is always refused (load_factor_too_low), at every table size; nine String keys that start with NUL are such keys for every std::hash, because the hash stops at the first NUL."
  },
  {
   "property": "C104",
   "status": "proved",
   "theorems": [
    "C104_growth",
    "C104_migration",
    "C104_displacement"
   ],
   "note": "Stated for every table a history can reach; fast_double, lock_one (which migrates) and run_cuckoo each keep the answers of every lookup."
  },
  {
   "property": "C105",
   "status": "partial",
   "theorems": [
    "C105_copy_refuted",
    "C105_copy_partial"
   ],
   "note": "Refuted: after clear, after an enumeration, or after a growth that moved the entries at once, the old-buckets pointer is null and the copy constructor dereferences it. Proved: a copy holds the same mappings when the history so far had no clear, enumeration, refusal or growth."
  },
  {
   "property": "C106",
   "status": "partial",
   "theorems": [
    "C106_undisturbed_partial",
    "C106_clear_refuted",
    "C106_size_refuted"
   ],
   "note": "As long as no other thread steps between the two loops of a clear() the map is linearizable (partial). Refuted: lock_all's manager is a temporary destroyed at the end of its statement, so clear() runs without locks; a put between the loop that empties the buckets and the loop that zeroes the counters leaves a mapping with size 0, and removing it brings size() to 2^64 - 1. A data race in C++ besides; only interleavings of whole loops are modelled."
  },
  {
   "property": "C107",
   "status": "partial",
   "theorems": [
    "C107_linearizable",
    "C107_no_failure",
    "C107_quiescent",
    "C107_size_refuted"
   ],
   "note": "Proved for critical sections as indivisible steps (locks held: CuckooThreadsModel.v), any number of threads, fewer than 2^63 steps, calls other than clear (C106) and size. put may be refused (load factor below 5 percent when growing, see C103). Refuted for size(): it reads the counters one by one without locks."
  },
  {
   "property": "C108",
   "status": "proved",
   "theorems": [
    "C108_exclusion",
    "C108_inside",
    "C108_footprint",
    "C108_private",
    "C108_commute",
    "C108_no_deadlock",
    "C108_progress",
    "C108_linearizable"
   ],
   "note": "All schedules of lock steps for maps with 65536 locks (every default-constructed map). A section is one step once its locks are held; C108_footprint, C108_private and C108_commute justify that. Calls other than clear (no locks, C106) and size (no locks, C107). Progress is that of the system: a spinning thread may starve. Not covered: get_current_locks() reads the list of lock arrays without synchronisation, harmless when the array is never replaced."
  },
  {
   "property": "C109",
   "status": "proved",
   "theorems": [
    "C109_finishes",
    "C109_size",
    "C109_steps"
   ],
   "note": "Steps of one thread on the model of CuckooThreadsModel while all others stand still, from any reachable state; clear() is excluded from the calls before, as in C107."
  },
  {
   "property": "C110",
   "status": "proved",
   "theorems": [
    "C110_own_queue",
    "C110_no_failure",
    "C110_one_each",
    "C110_wait_free",
    "C110_alone",
    "C110_progress"
   ],
   "note": "Invariant over all interleavings of the atomic steps of get_or_add_implicit_producer with ghost state (who owns which sub-queue, who holds which ticket); room in every table follows from the tickets by counting. Sequentially consistent memory. The limit 2^61 on the length of a run stands for the 64-bit counter; with it the loop that doubles the capacity always ends."
  },
  {
   "property": "C111",
   "status": "partial",
   "theorems": [
    "C111_one_thread_partial",
    "C111_offer_refuted",
    "C111_clear_refuted",
    "C111_contains_refuted",
    "C111_remove_object_refuted",
    "C111_remove_all_refuted",
    "C111_peek_refuted",
    "C111_poll_empty_refuted",
    "C111_poll_ambiguous_refuted",
    "C111_poll_primitive_refuted",
    "C111_size_refuted",
    "C111_add_lost_refuted",
    "C111_threads",
    "C111_safe",
    "C111_drained",
    "C111_fifo_refuted",
    "C111_starved_refuted"
   ],
   "note": "Proved: with one thread add, isEmpty, poll of a non-empty queue and size up to 2^31-1 keep Java's contract; with many, each thread has a FIFO queue of its own, poll takes the head of one of them exactly when some element is there, isEmpty and size are exact (size modulo 2^32), polls alone return every element once, and nothing undefined happens but the poll of an empty queue of a primitive type. Refuted: offer, clear, contains, remove(x), removeAll, peek, element, remove, poll of an empty queue, size of 2^31 elements; add returns true for an element lost for lack of memory; first in first out across threads; an element may starve. Sub-queues are lists here (C89-C91 justify that)."
  },
  {
   "property": "C112",
   "status": "partial",
   "theorems": [
    "C112_at_most_once",
    "C112_right_element",
    "C112_in_order",
    "C112_no_crash",
    "C112_never_blocked",
    "C112_bounded",
    "C112_one_consumer",
    "C112_counted",
    "C112_size_between",
    "C112_missed_refuted",
    "C112_empty_refuted",
    "C112_size_refuted"
   ],
   "note": "Proved for every interleaving: at most once, right element, order within a thread, no null dereference, a bound of 14n+15 own steps for n threads that added, never blocked; with one consumer a poll says 'none' only if everything added before it began had been polled; size lies between what was there throughout the call and what was there at some time. Refuted: with three polls one may say 'none' although an element was there before it began and nobody takes it; isEmpty may be true although the queue is never empty, and size 2 although there is never more than one element. Loads return the latest values here (the sub-queue theorems C89-C91, on which this rests, allow older ones)."
  },
  {
   "property": "C113",
   "status": "partial",
   "theorems": [
    "C113_right_block",
    "C113_no_undefined_behaviour",
    "C113_lookup_wait_free",
    "C113_put_succeeds",
    "C113_refused_only_by_failure",
    "C113_cleared_once",
    "C113_size",
    "C113_size_by_use_refuted",
    "C113_no_index",
    "C113_protocol"
   ],
   "note": "Proved for every interleaving and every value the memory order allows a load to yield: each look-up yields the block put for the element, no out-of-bounds, uninitialised or null access and no failing assertion, look-up in four own steps, put in at most eight, refusals only by failures, cleared at most once; the sub-queue machine of C89-C91 uses the index as the model assumes (C113_protocol). Refuted: the size is not bounded by the number of blocks in use (a delayed reader of one element makes it grow with every block that passes); it is bounded by twice the spread of the blocks in use if the writer's loads are up to date. Refuted/assumed parts: counters do not wrap in put/refusal theorems (fewer than 2^56 blocks)."
  },
  {
   "property": "C114",
   "status": "proved",
   "theorems": [
    "C114_destroys_the_rest",
    "C114_no_leak",
    "C114_accounted"
   ],
   "note": "Proved for every reachable quiet state of the machine of C89-C91: the destructor meets no null, uninitialised or double-free access, destroys exactly the elements that were not handed out, in order, and afterwards every block is in the pool and empty. The arrays of the block index and of the table of threads are not part of the model."
  },
  {
   "property": "C115",
   "status": "proved",
   "theorems": [
    "C115_exclusive",
    "C115_array_first",
    "C115_valid_block",
    "C115_economical",
    "C115_new_only_if_none_free",
    "C115_refused_only_if_none_free",
    "C115_refused_only_by_failure",
    "C115_counter",
    "C115_call_bounded",
    "C115_never_blocks",
    "C115_ended_once",
    "C115_capacity",
    "C115_populate"
   ],
   "note": "Each theorem holds for every run of the machine of atomic accesses; stale relaxed loads included. The free list is the atomic object that C92 and C93 prove the real one to be; blocks come back only from who holds them (C109, C114)."
  },
  {
   "property": "C116",
   "status": "partial",
   "theorems": [
    "C116_weakly_consistent",
    "C116_reading_and_removing",
    "C116_quiet",
    "C116_growth_refuted",
    "C116_put_refuted"
   ],
   "note": "Proved for every loop during which no call stores a new key (reads, removals, clear and overwriting are allowed), and unconditionally for bodies that only read and remove. Refuted when a new key is stored: the iterators hold no lock, so growth makes the loop run out of the table, and a displacement makes it miss a mapping that stays. Calls come between the steps of the loop, not during one."
  },
  {
   "property": "C117",
   "status": "partial",
   "theorems": [
    "C117_sequence",
    "C117_distinct_values",
    "C117_period",
    "C117_distinct_seeds",
    "C117_seeds_repeat",
    "C117_different_numbers",
    "C117_seed_range",
    "C117_lock_free",
    "C117_never_stuck",
    "C117_iso_refuted"
   ],
   "note": "Proved for the wrapping arithmetic of gcc/x86-64: the values of seedUniquifier() have the period 2^60, the seeds at one clock reading the period 2^44 (both bounds are shown sharp), and two nextInt() determine the seed. Refuted in ISO C++: the product of the first call overflows. The clock is arbitrary; at different readings equal seeds are possible."
  },
  {
   "property": "C118",
   "status": "proved",
   "theorems": [
    "C118_accepts",
    "C118_pair",
    "C118_kept",
    "C118_total",
    "C118_set_seed"
   ],
   "note": "One thread, gcc/x86-64 arithmetic, operands from left to right, binary64 of Coq's SpecFloat; sqrt and log are an arbitrary function."
  },
  {
   "property": "C119",
   "status": "partial",
   "theorems": [
    "C119_even_partial",
    "C119_others_partial",
    "C119_copy_refuted"
   ],
   "note": "Refuted in general: the copy constructor drops the kept second number of nextGaussian(), so after an odd number of nextGaussian() calls the copy draws a new pair and even its nextInt() differs from then on, whatever sqrt and log are. Proved when that number of calls is even (since the last setSeed), and always for sequences without nextGaussian(). One thread."
  },
  {
   "property": "C120",
   "status": "partial",
   "theorems": [
    "C120_integer_keys",
    "C120_integer_hash",
    "C120_long_keys_partial",
    "C120_short_keys",
    "C120_long_put_refuted",
    "C120_long_putIfAbsent_refuted"
   ],
   "note": "Integer and Short proved for all keys. Long refuted: compound assignments leave the text, and the hash is taken from the text, so after x += 2 and put(x, v) containsKey(x) is false, and putIfAbsent() can add a number twice (for every hash that tells the two texts apart); proved for Long keys never changed by a compound assignment. The container is libstdc++'s: nodes keep their hash values. Float and Double keys: see C121."
  },
  {
   "property": "C121",
   "status": "partial",
   "theorems": [
    "C121_double_text",
    "C121_double_copy",
    "C121_value_exact",
    "C121_value_partial",
    "C121_float_text_partial",
    "C121_float_copy",
    "C121_float_assign_refuted",
    "C121_float_key_refuted",
    "C121_double_key_refuted",
    "C121_double_default_refuted",
    "C121_equal_text_refuted",
    "C121_compound_refuted"
   ],
   "note": "Proved: the text of a Double constructed from a number is its %.15f text after every history; the number is the one last assigned. Refuted: compound assignments of both classes leave the object unchanged (they are const and return the result); a Float shows %g after construction and %f after assignment, and a HashMap then does not find it as a key; Double() shows %lg and equals Double(0), which shows %.15f, and is not found as a key either; 1.0 == 1.5 with different texts (see C77). printf is an arbitrary function; the refutations assume that it (and the hash) tells the two texts apart."
  },
  {
   "property": "C122",
   "status": "partial",
   "theorems": [
    "C122_round_trip_partial",
    "C122_radix_ten",
    "C122_leading_zero_refuted",
    "C122_text_refuted",
    "C122_getLong_refuted"
   ],
   "note": "Proved: valueOf(s) reads the decimal text of every long but MIN_VALUE (_partial), valueOf(s, 10) that of every long. Refuted: every numeral with a leading zero gives -1 (1 with a minus sign), the text of MIN_VALUE gives 1, \"0x10\" is taken for 16, getLong(nm, val) ignores val and getLong(nm) decodes the name itself."
  },
  {
   "property": "C123",
   "status": "partial",
   "theorems": [
    "C123_short",
    "C123_long_int_byte",
    "C123_widen",
    "C123_integer_byte_partial",
    "C123_integer_byte_refuted",
    "C123_integer_order",
    "C123_long_order",
    "C123_extremes"
   ],
   "note": "Proved for both classes, except Integer.byteValue, which is right exactly when bit 7 is clear (byte is unsigned char): Integer(-1).byteValue() is 255 while Long(-1).byteValue() is -1. Conversions to float and double are not part of this claim."
  },
  {
   "property": "C124",
   "status": "partial",
   "theorems": [
    "C124_reached",
    "C124_codePointAt",
    "C124_codePointBefore",
    "C124_codePointBefore_refuted",
    "C124_codePointCount",
    "C124_ascii_partial",
    "C124_negative_refuted"
   ],
   "note": "Proved for every conforming history (C41): a char is its own code point and the count is the number of chars. Code points of ASCII texts only (_partial); a byte above 127 is answered as a negative number (refuted), so a UTF-8 letter of two bytes counts as two. codePointBefore(MIN_VALUE) overflows in ISO C++ (refuted)."
  },
  {
   "property": "C125",
   "status": "partial",
   "theorems": [
    "C125_method",
    "C125_response_partial",
    "C125_response_refuted"
   ],
   "note": "Proved for the method and, once a response has been stored, for the response. Refuted before that: responseCode has no initialiser, so reading it is undefined behaviour in every history without a response."
  }
 ]
}