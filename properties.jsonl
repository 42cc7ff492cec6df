{"id": "C01", "title": "128-bit add/sub/inc/dec are exact modulo 2^128", "statement": "tmi_add, tmi_sub, their _u64 variants, tmi_inc and tmi_dec return the mathematical sum/difference of the operands modulo 2^128; in particular sub undoes add.", "quantifier": "every pair of 128-bit values (and every 128/64-bit pair)", "why_tests_cant": "2^256 operand pairs; carries only matter on a thin boundary set", "anchors": ["tm_uint128.h: tmi_add, tmi_sub, tmi_add_u64, tmi_sub_u64, tmi_increment, tmi_decrement"]}
{"id": "C02", "title": "128-bit multiplication is exact modulo 2^128", "statement": "tmi_mul and tmi_mul_u64 return the product modulo 2^128; the internal 64x64->128 product never loses a carry.", "quantifier": "every pair of 128-bit values", "why_tests_cant": "cross-term carries occur only for rare operand patterns among 2^256 pairs", "anchors": ["tm_uint128.h: tmi_mul, tmi_mul_u64, tmi_internal_mul64"]}
{"id": "C03", "title": "128-bit division satisfies the Euclidean equation", "statement": "for a non-zero divisor, tmi_divmod / tmi_divmod_u64 return q and r with n = q*d + r and r < d (hence q = n/d, r = n mod d), and terminate.", "quantifier": "every dividend and every non-zero divisor", "why_tests_cant": "long division loop over 2^256 operand pairs", "anchors": ["tm_uint128.h: tmi_divmod, tmi_divmod_u64, tmi_div, tmi_mod"]}
{"id": "C04", "title": "128-bit shifts, bitwise operations and comparisons agree with the mathematical value", "statement": "shl/shr by s<128 are multiplication by 2^s modulo 2^128 and floor division by 2^s; and/or/xor/not act on each of the 128 bits; set_bit/is_bit_set address exactly the named bit; ==,!=,<,<=,>,>= decide the numeric order.", "quantifier": "every 128-bit value(s), every shift/bit index below 128", "why_tests_cant": "case splits at shift 0, 64 and the word boundary over an astronomically large domain", "anchors": ["tm_uint128.h: tmi_shl, tmi_shr, tmi_and, tmi_or, tmi_xor, tmi_not, tmi_set_bit, tmi_is_bit_set, tmi_equal, tmi_less_than, ..."]}
{"id": "C05", "title": "Portable bit scans and population count are correct", "statement": "the software fls/ffs/popcount fallbacks return the (0-based) index of the highest/lowest set bit and the number of set bits of any non-zero (popcount: any) 32/64/128-bit value.", "quantifier": "every 32-, 64- and 128-bit value", "why_tests_cant": "the De Bruijn multiplication trick has to be right for all 2^32..2^128 inputs", "anchors": ["tm_uint128.h: tmi_fls_u32, tmi_ffs_u32, tmi_popcount_u32, tmi_fls_u64, tmi_ffs_u64, tmi_fls, tmi_ffs, tmi_popcount"]}
{"id": "C06", "title": "Printing and scanning 128-bit integers round-trip in every base", "statement": "for 2<=base<=36 printing v with a large enough buffer and scanning the digits back in the same base returns v, consumes exactly the printed characters, and the printed length equals the digit count of v in that base.", "quantifier": "every 128-bit value, every base 2..36, upper- and lowercase", "why_tests_cant": "unbounded combination of value, base and digit boundary", "anchors": ["tm_uint128.h: print_u128, print_u128_w, scan_u128_n, scan_u128, get_digits_count_u128"]}
{"id": "C07", "title": "Scanning 128-bit integers accepts exactly the representable numerals", "statement": "scan_u128_n consumes the longest digit run; reports EINVAL iff that run is empty, ERANGE iff its value is >= 2^128, and otherwise stores exactly its value.", "quantifier": "every character sequence and base 2..36", "why_tests_cant": "the overflow test must be right at the single value 2^128-1 in every base and for any input length", "anchors": ["tm_uint128.h: scan_u128_n, scan_u128"]}
{"id": "C08", "title": "128-bit to floating point conversion is correctly rounded", "statement": "tmi_to_float_rm / tmi_to_double_rm return the floating point number selected by the rounding mode (nearest-even, toward zero, upward, downward) for the integer value.", "quantifier": "every 128-bit value, every rounding mode", "why_tests_cant": "wrong rounding appears only for values whose mantissa rounds up to a power of two", "anchors": ["tm_uint128.h: tmi_to_float_rm, tmi_to_double_rm"]}
{"id": "C09", "title": "Floating point to 128-bit conversion truncates toward zero", "statement": "tmi_from_float / tmi_from_double return the integer part of every finite non-negative argument below 2^128 and the two's complement of the integer part for negative arguments; the _s variants reject everything not representable.", "quantifier": "every 32/64-bit floating point bit pattern", "why_tests_cant": "2^64 bit patterns; failures sit at negative and huge arguments", "anchors": ["tm_uint128.h: tmi_from_float, tmi_from_double, tmi_from_double_s"]}
{"id": "C10", "title": "Hash map behaves as a finite map under every operation history", "statement": "after any sequence of insert (overwrite or add), remove, find/get and implicit growth, find returns the value most recently inserted for the key and not since removed, and nothing for all other keys; count equals the number of present keys.", "quantifier": "every finite sequence of operations, every hash function, every key/value", "why_tests_cant": "probe windows, tombstone reuse and growth interact over unbounded histories", "anchors": ["tm_hashmapx.h: insert, insert_move, find, find_index, get, remove, remove_index, grow, rehash"]}
{"id": "C11", "title": "Hash map storage invariant", "statement": "in every reachable map the capacity is zero or a power of two >= 16, every stored key sits within 16 slots (circularly) of its home slot, no key is stored twice, and count equals the number of occupied slots and stays below three quarters of the capacity (with room for one more).", "quantifier": "every reachable state", "why_tests_cant": "only a state invariant over all histories rules out unreachable (lost) keys", "anchors": ["tm_hashmapx.h: create, insert_move, remove_index, grow"]}
{"id": "C12", "title": "A failed hash map insertion leaves the map intact", "statement": "when insert reports failure because memory could not be allocated, all previously stored pairs are still found with their values.", "quantifier": "every history and every pattern of allocation failures", "why_tests_cant": "needs every failure point of nested growth", "anchors": ["tm_hashmapx.h: insert_move, grow, rehash, create"]}
{"id": "C13", "title": "The reserved key is never stored, found or removed", "statement": "insert rejects the reserved tombstone key and find/get/remove of the reserved key report absence and change nothing.", "quantifier": "every map state", "why_tests_cant": "depends on the map containing at least one element and an empty slot in the probe window", "anchors": ["tm_hashmapx.h: insert_move, find_index, remove"]}
{"id": "C14", "title": "Hash map insertion terminates and fails only for lack of memory", "statement": "insert always returns; it reports failure for an ordinary key only if an allocation it made was refused, and as long as memory for twice the capacity is granted it stores the pair.", "quantifier": "every map and key set, every hash function, every pattern of allocation failures", "why_tests_cant": "growth and rehashing call insertion recursively; needs adversarial hash values", "anchors": ["tm_hashmapx.h: insert_move, grow, rehash"]}
{"id": "C15", "title": "Default string hash is 64-bit FNV-1a", "statement": "the shift-and-add hash equals iterated (h xor byte) * 0x100000001B3 modulo 2^64 from the standard offset basis.", "quantifier": "every byte string", "why_tests_cant": "equality of two functions on all byte strings", "anchors": ["tm_hashmapx.h: tmh_default_hash / fnv1a"]}
{"id": "C16", "title": "base64 and base64url round-trip", "statement": "encoding any byte string and decoding the result returns the same bytes, for the padded and the url alphabet, provided the buffers are larger than the sizes required.", "quantifier": "every byte string", "why_tests_cant": "all lengths modulo 3 and all byte values", "anchors": ["tm_stringutil.h: tmsu_base64_encode, tmsu_base64_decode, tmsu_base64url_encode, tmsu_base64url_decode"]}
{"id": "C17", "title": "base64 functions write at most the buffer and report the required size", "statement": "the encoders/decoders never write outside [out, out+out_size); the return value is the number of bytes the complete result needs; if it does not exceed out_size, the buffer holds the complete result.", "quantifier": "every input and every buffer size", "why_tests_cant": "exact-fit sizes are one point among all sizes", "anchors": ["tm_stringutil.h: tmsu_base64_encode_chars, tmsu_base64_decode_chars"]}
{"id": "C18", "title": "base64 decoding rejects malformed input", "statement": "decode returns 0 for every non-empty string which is not in the image of a base64 encoding grammar (alphabet groups of four with '=' only at the end).", "quantifier": "every character sequence", "why_tests_cant": "set of malformed strings is infinite", "anchors": ["tm_stringutil.h: tmsu_base64_decode_chars"]}
{"id": "C19", "title": "url encoding round-trips and sizes are exact", "statement": "tmsu_url_decode(tmsu_url_encode(s)) = s for every byte string; the sizes returned are exact for every buffer size, nothing outside the buffer is written, and a result that fits (including exactly) is written completely; encoded output uses only unreserved characters and %XX.", "quantifier": "every byte string and every buffer size", "why_tests_cant": "all strings and all truncation points", "anchors": ["tm_stringutil.h: tmsu_url_encode, tmsu_url_decode"]}
{"id": "C20", "title": "Substring search returns the first / last occurrence", "statement": "tmsu_find_n returns the smallest (tmsu_find_last_n the largest) position at which the needle occurs, or the end if there is none.", "quantifier": "every haystack and needle", "why_tests_cant": "all overlaps of partial matches", "anchors": ["tm_stringutil.h: tmsu_find_n, tmsu_find_last_n_ex"]}
{"id": "C21", "title": "Character-set searches return the first / last member", "statement": "find_first_of/find_first_not_of/find_last_of/find_last_not_of (length based) return the first/last position whose character is (not) in the set, or the documented not-found position.", "quantifier": "every string and character set", "why_tests_cant": "all strings and sets", "anchors": ["tm_stringutil.h: tmsu_find_first_of_n, tmsu_find_first_not_of_n, tmsu_find_last_of_n_ex, tmsu_find_last_not_of_n_ex"]}
{"id": "C22", "title": "Escape-aware search finds the first unescaped occurrence", "statement": "find_char_unescaped_n / find_first_of_unescaped_n return the first position holding a searched character that a left-to-right reader, skipping the character after each escape character, would see; or the end.", "quantifier": "every string, every escape character", "why_tests_cant": "all escape run lengths", "anchors": ["tm_stringutil.h: tmsu_is_char_unescaped, tmsu_find_char_unescaped_n, tmsu_find_first_of_unescaped_n"]}
{"id": "C23", "title": "Tokenizing is lossless", "statement": "repeatedly taking the next token yields exactly the pieces between delimiters, in order (next_token_skip_empty: exactly the non-empty pieces), and a loop that runs while the call reports success sees all of them.", "quantifier": "every string and delimiter set", "why_tests_cant": "all strings; delimiter placement at the ends", "anchors": ["tm_stringutil.h: tmsu_next_token_n, tmsu_next_token_skip_empty_n"]}
{"id": "C24", "title": "Trimming removes exactly the surrounding characters", "statement": "trim_left/right/trim return the maximal substring whose first/last character is not in the set, all-set strings give the empty string, and the removed parts consist only of set members.", "quantifier": "every string and set", "why_tests_cant": "all strings", "anchors": ["tm_stringutil.h: tmsu_trim_left_n, tmsu_trim_right_n, tmsu_trim_n"]}
{"id": "C25", "title": "String comparison is a total order consistent with equality", "statement": "tmsu_compare_n is antisymmetric, transitive, total, zero iff the strings are equal, and lexicographic; tmsu_compare_ignore_case_ansi_n is the same on upper-cased strings and its zero set is tmsu_equals_ignore_case_ansi_n.", "quantifier": "every pair/triple of strings", "why_tests_cant": "order axioms quantify over triples of strings", "anchors": ["tm_stringutil.h: tmsu_compare_n, tmsu_compare_ignore_case_ansi_n, tmsu_equals_n, tmsu_equals_ignore_case_ansi_n"]}
{"id": "C26", "title": "Bounded case-insensitive comparison looks at exactly the first n characters", "statement": "tmsu_strnicmp(a,b,n)=0 iff a and b agree (ignoring ASCII case) on their first n characters or up to a common terminator; prefix tests built on it accept exactly the strings with that prefix.", "quantifier": "every pair of strings and every n", "why_tests_cant": "last-character mismatches hide among all n", "anchors": ["tm_stringutil.h: tmsu_strnicmp, tmsu_starts_with_ignore_case_ansi"]}
{"id": "C27", "title": "Natural-order (human) comparison is a total preorder", "statement": "tmsu_human_compare_ansi_n is antisymmetric and transitive (usable as a sort comparator).", "quantifier": "every triple of strings", "why_tests_cant": "needs triples mixing digit runs with leading zeros", "anchors": ["tm_stringutil.h: tmsu_human_compare_ansi_n"]}
{"id": "C28", "title": "UTF-8 encoding round-trips every scalar value", "statement": "utf8 encode of a valid codepoint (not a surrogate, <= 10FFFF) produces well-formed UTF-8 of 1..4 bytes which extracts to the same codepoint consuming exactly those bytes; for whole sequences encode then decode is the identity.", "quantifier": "every codepoint and codepoint sequence", "why_tests_cant": "1.1M codepoints and all sequences", "anchors": ["tm_unicode.h: tmu_utf8_encode, tmu_utf8_extract, tmu_utf8_append"]}
{"id": "C29", "title": "UTF-16 encoding round-trips every scalar value", "statement": "same as for UTF-8 with 1..2 code units and well-formed surrogate pairs.", "quantifier": "every codepoint and codepoint sequence", "why_tests_cant": "all sequences", "anchors": ["tm_unicode.h: tmu_utf16_encode, tmu_utf16_extract"]}
{"id": "C30", "title": "UTF-8 validation returns the longest well-formed prefix", "statement": "tmu_utf8_valid_range returns the length of the longest prefix that is well-formed according to Unicode table 3-7.", "quantifier": "every byte sequence", "why_tests_cant": "2^32 four-byte sequences and their compositions", "anchors": ["tm_unicode.h: tmu_utf8_valid_range"]}
{"id": "C31", "title": "UTF-16 validation returns the longest well-formed prefix", "statement": "tmu_utf16_valid_range returns the length of the longest prefix without unpaired surrogates.", "quantifier": "every sequence of 16-bit units", "why_tests_cant": "all sequences", "anchors": ["tm_unicode.h: tmu_utf16_valid_range"]}
{"id": "C32", "title": "Skipping invalid units keeps every valid sequence", "statement": "utf8/utf16 skip_invalid returns exactly the concatenation of the well-formed sequences of the input.", "quantifier": "every byte / unit sequence", "why_tests_cant": "valid text after invalid text", "anchors": ["tm_unicode.h: tmu_utf8_skip_invalid, tmu_utf16_skip_invalid"]}
{"id": "C33", "title": "UTF-8 extraction only accepts well-formed sequences", "statement": "tmu_utf8_extract succeeds only on well-formed UTF-8 and never reads past the end of the stream; on failure the stream does not move.", "quantifier": "every byte sequence", "why_tests_cant": "overlong and truncated forms", "anchors": ["tm_unicode.h: tmu_utf8_extract"]}
{"id": "C34", "title": "UTF-8 <-> UTF-16 conversion preserves text and follows the two-call protocol", "statement": "on valid input the converted text has the same codepoints; nothing is written outside the buffer; if the buffer is too small the call reports ERANGE together with the exact size, and a second call with that size succeeds; converting back gives the original.", "quantifier": "every valid text and every buffer size", "why_tests_cant": "all texts and truncation points", "anchors": ["tm_unicode.h: tmu_utf8_from_utf16_ex, tmu_utf16_from_utf8_ex"]}
{"id": "C35", "title": "Conversion with replacement terminates and replaces each invalid unit", "statement": "with validate_replace the conversions terminate for every input and output the replacement string for invalid units.", "quantifier": "every input", "why_tests_cant": "non-termination is not testable", "anchors": ["tm_unicode.h: tmu_utf8_from_utf16_ex, tmu_utf16_from_utf8_ex"]}
{"id": "C36", "title": "Truncating copy keeps UTF-8 well-formed", "statement": "tmu_utf8_copy_truncated never writes past the buffer and, for well-formed input, copies a well-formed prefix that cannot be extended within the buffer.", "quantifier": "every string and buffer size", "why_tests_cant": "all truncation points inside multi-byte sequences", "anchors": ["tm_unicode.h: tmu_utf8_copy_truncated"]}
{"id": "C37", "title": "Case-insensitive equality is an equivalence", "statement": "the case-insensitive equality and comparison functions are reflexive, symmetric and transitive, and compare zero iff the case-folded texts are equal.", "quantifier": "every pair/triple of texts", "why_tests_cant": "relations over all texts; length differences", "anchors": ["tm_unicode.h: tmu_utf8_equals_ignore_case_simple, tmu_utf8_compare_ignore_case_simple"]}
{"id": "C38", "title": "Unicode property lookup is total and in bounds; simple folding is idempotent", "statement": "every table index computed for a valid codepoint is inside its table, the folded codepoint is valid, and folding twice equals folding once.", "quantifier": "every codepoint 0..10FFFF", "why_tests_cant": "1.1M codepoints through generated tables", "anchors": ["tm_unicode.h: tmu_ucd_get_*, tmu_ucd_internal tables"]}
{"id": "C39", "title": "Byte-order marks never reach the converted text", "statement": "converting a byte buffer with a detected or given encoding drops a leading byte order mark.", "quantifier": "every byte buffer", "why_tests_cant": "short buffers and all encodings", "anchors": ["tm_unicode.h: tmu_detect_encoding_from_bom, tmu_utf8_convert_from_bytes"]}
{"id": "C40", "title": "Integer scanning accepts exactly the representable numerals", "statement": "scan_{i,u}{32,64}(_n) consume an optional '-' (signed) and the longest run of digits of the base; report EINVAL iff no digit, ERANGE iff the value does not fit the type, leave the output untouched on error and otherwise store exactly the value.", "quantifier": "every character sequence, base 2..36", "why_tests_cant": "range boundary of each type in each base; any length of digit run", "anchors": ["tm_conversion.h: scan_i32_n, scan_u32_n, scan_i64_n, scan_u64_n, scan_i32, scan_u32, scan_i64, scan_u64"]}
{"id": "C41", "title": "Integer printing and scanning round-trip", "statement": "printing any 32/64-bit integer in base 2..36 and scanning it back returns the integer; printed digits are the canonical numeral.", "quantifier": "every integer, every base, both letter cases", "why_tests_cant": "all values", "anchors": ["tm_conversion.h: print_i32, print_u32, print_i64, print_u64, print_decimal_*, print_hex_*"]}
{"id": "C42", "title": "Printing never writes past the buffer", "statement": "every integer print function writes at most maxlen characters, reports EOVERFLOW iff the text does not fit and otherwise returns the exact length.", "quantifier": "every value, base and buffer length", "why_tests_cant": "all lengths around the digit count", "anchors": ["tm_conversion.h: print_*"]}
{"id": "C43", "title": "Digit counting is exact", "statement": "get_digits_count_* return the number of digits of the canonical numeral (1 for 0).", "quantifier": "every value and base", "why_tests_cant": "thresholds at every power of the base", "anchors": ["tm_conversion.h: get_digits_count_decimal_u32, get_digits_count_decimal_u64, get_digits_count_hex_*, get_digits_count_u32, get_digits_count_u64"]}
{"id": "C44", "title": "Boolean scanning accepts exactly the documented spellings", "statement": "scan_bool(_n) succeeds exactly on 0/1/true/false spellings (ignoring case) and never reports more characters than were given.", "quantifier": "every character sequence", "why_tests_cant": "all near-miss strings", "anchors": ["tm_conversion.h: scan_bool, scan_bool_n, tm_strnicmp"]}
{"id": "C45", "title": "Decimal floating point scanning returns the written number", "statement": "the value scanned from a decimal literal is the number written (up to floating point rounding).", "quantifier": "every decimal literal", "why_tests_cant": "placement of zeros, point and exponent; digit counts above 18", "anchors": ["tm_conversion.h: scan_double, scan_double_n"]}
{"id": "C46", "title": "Stack allocator hands out disjoint, aligned, in-bounds blocks", "statement": "every successful allocation lies inside the buffer, has the requested alignment and does not overlap any live block.", "quantifier": "every sequence of allocate/free/reallocate operations", "why_tests_cant": "histories and address/alignment combinations", "anchors": ["tm_allocator.h: StackAllocator::allocate_bytes, free_bytes, reallocate_bytes"]}
{"id": "C47", "title": "Stack allocator LIFO frees restore the previous state", "statement": "freeing blocks in reverse order of allocation (same alignment) returns the allocator to the state before the allocations; the most recent allocation can always be grown in place if room remains.", "quantifier": "every allocation sequence", "why_tests_cant": "histories", "anchors": ["tm_allocator.h: StackAllocator::free_bytes, reallocate_in_place"]}
{"id": "C48", "title": "Oversized stack allocation requests fail", "statement": "a request larger than the remaining space returns null.", "quantifier": "every size up to SIZE_MAX", "why_tests_cant": "wrap-around at the top of the size range", "anchors": ["tm_allocator.h: StackAllocator::allocate_bytes"]}
{"id": "C49", "title": "Fixed size id allocator: ids are unique handles", "statement": "live ids are distinct, resolve to distinct storage, keep resolving until destroyed, and a destroyed slot is reused before new memory.", "quantifier": "every create/destroy history", "why_tests_cant": "histories", "anchors": ["tm_allocator.h: FixedSizeIdAllocator::create, destroy, data_from_id"]}
{"id": "C50", "title": "Generational ids detect stale handles", "statement": "an id resolves iff it was created and not destroyed since; destroyed ids stay invalid (up to generation wrap-around), recycled slots get fresh ids that do resolve.", "quantifier": "every create/destroy history", "why_tests_cant": "histories and recycling", "anchors": ["tm_allocator.h: FixedSizeGenerationalIdAllocator::create, destroy, data_from_id"]}
{"id": "C51", "title": "Guillotine packing never overlaps and stays inside the bin", "statement": "after any sequence of guillotine insertions (any heuristic, any split rule, with or without flipping, with or without merging) all placed rectangles lie inside the bin, are pairwise disjoint and disjoint from all free rectangles.", "quantifier": "every sequence of insertions of positive sizes", "why_tests_cant": "geometry over all histories", "anchors": ["tm_bin_packing.h: guillotineInsertChoice, guillotineInsert, guillotineSplitFreeRectByHeuristic, guillotineMergeFreeRects, guillotineInsertBatch"]}
{"id": "C52", "title": "Guillotine packing conserves area", "statement": "used area plus total free area equals the bin area after every operation, so occupancy is exact.", "quantifier": "every history", "why_tests_cant": "all histories", "anchors": ["tm_bin_packing.h: guillotineInsert, guillotineMergeFreeRects, guillotineOccupancy"]}
{"id": "C53", "title": "A bin that fits is placed", "statement": "if some free rectangle can hold the bin (or its flipped version when flipping is allowed) then every heuristic returns a valid choice, and the chosen rectangle really holds the bin.", "quantifier": "every state and size", "why_tests_cant": "all heuristics and scores", "anchors": ["tm_bin_packing.h: guillotineBest*, maxRectsBest*, maxRectsBottomLeftRule, maxRectsContactPointRule"]}
{"id": "C54", "title": "Documented static memory sizes suffice for Guillotine", "statement": "with guillotineFreeRectsSize(n) free slots and n used slots, n insertions never run out of memory.", "quantifier": "every n and every insertion sequence of length n", "why_tests_cant": "unbounded n", "anchors": ["tm_bin_packing.h: guillotineFreeRectsSize, tmbp_push"]}
{"id": "C55", "title": "MaxRects packing never overlaps", "statement": "after any sequence of maxRects insertions all placed rectangles are pairwise disjoint and inside the bin.", "quantifier": "every sequence of insertions", "why_tests_cant": "overlap needs particular exact-fit histories", "anchors": ["tm_bin_packing.h: maxRectsInsert, maxRectsSplitFreeNode, maxRectsPruneFreeRects"]}
{"id": "C56", "title": "small_vector operations refine list operations", "statement": "push_back, insert (value/count/range), erase, pop_back, clear, resize, assign and emplace transform the sequence of elements as the corresponding list operation, or leave it unchanged when they report allocation failure.", "quantifier": "every operation history, small-buffer size and allocation failure pattern", "why_tests_cant": "histories crossing the small-buffer/heap boundary", "anchors": ["tm_small_vector.h: make_room, insert_value_impl, insert_n_impl, erase, grow_by, assign_n_impl, resize"]}
{"id": "C57", "title": "small_vector object lifetimes are balanced", "statement": "no operation constructs over a live element, assigns to or destroys a dead one; after each operation exactly the first size() slots are live.", "quantifier": "every operation history for non-trivial element types", "why_tests_cant": "histories; destructor balance is invisible for trivial types", "anchors": ["tm_small_vector.h: make_room, erase, shrink_to_fit, destroy, grow_by"]}
{"id": "C58", "title": "small_vector reserve provides the capacity", "statement": "when reserve(n) returns true the capacity is at least n.", "quantifier": "every vector state and n", "why_tests_cant": "depends on relation of size, capacity and n", "anchors": ["tm_small_vector.h: reserve, grow_by"]}
{"id": "C59", "title": "small_vector swap exchanges contents and keeps capacities truthful", "statement": "after swap each vector has the other's elements, and the reported capacity never exceeds the storage actually owned.", "quantifier": "every pair of vectors (inline or heap)", "why_tests_cant": "combination of inline/heap and sizes", "anchors": ["tm_small_vector.h: small_vector_base::swap"]}
{"id": "C60", "title": "Batch insertion accounts for every request", "statement": "a batch insertion reports each placed request exactly once with its own user data, places it inside the bin disjoint from everything else, leaves exactly the unplaced requests in the request array, and the number it returns is the number of unplaced requests.", "quantifier": "every bin state reachable by guillotine operations, every request list and every heuristic", "why_tests_cant": "request lists and histories are unbounded", "anchors": ["tm_bin_packing.h: guillotineInsertRects, guillotineInsertBatch"]}
{"id": "C61", "title": "Heuristic choice minimises its documented score", "statement": "the free rectangle and orientation an insertion picks has the best score of the chosen heuristic among all free rectangles in which the requested rectangle fits.", "quantifier": "every reachable bin state, every size, every heuristic", "why_tests_cant": "minimum over unboundedly many candidates", "anchors": ["tm_bin_packing.h: guillotineBest*, maxRectsBest*, maxRectsBottomLeftRule, maxRectsContactPointRule"]}
{"id": "C62", "title": "MaxRects finds a place whenever one exists", "statement": "a MaxRects insertion succeeds if and only if some position inside the bin exists at which the rectangle (or its rotation, when rotation is allowed) overlaps no placed rectangle.", "quantifier": "every reachable bin state and every size", "why_tests_cant": "quantifies over all positions and histories", "anchors": ["tm_bin_packing.h: maxRectsInsert, maxRectsSplitFreeNode, maxRectsPruneFreeRects"]}
{"id": "C63", "title": "MaxRects insertion never uses freed memory", "statement": "an insertion into a dynamically growing pack never reads memory that a reallocation inside the same insertion released, and never fails for lack of slots.", "quantifier": "every insertion history", "why_tests_cant": "needs a particular number of free rectangles at the moment of growth", "anchors": ["tm_bin_packing.h: maxRectsInsert, tmbp_push"]}
{"id": "C64", "title": "Clearing gives back an empty pack of its current size", "statement": "after clear the pack holds no rectangle and one free rectangle covering the whole bin of the current size; fitting the memory to size keeps the packing.", "quantifier": "every history of insertions, merges, resets and fits", "why_tests_cant": "needs histories combining reset, fit and clear", "anchors": ["tm_bin_packing.h: binPackClear, binPackReset, binPackFitToSize"]}
{"id": "C65", "title": "A hash map can be destroyed in every state, also after a failed creation", "statement": "destroying a map releases each of its allocations exactly once and leaves an empty map; this also holds for a map whose creation failed.", "quantifier": "every history and every pattern of allocation failures", "why_tests_cant": "needs failure of one particular allocation", "anchors": ["tm_hashmapx.h: create, destroy"]}
{"id": "C66", "title": "Iterating over the slots of a hash map visits every pair exactly once", "statement": "calling get for every index below the capacity yields each stored pair exactly once and nothing else.", "quantifier": "every reachable map", "why_tests_cant": "slot positions depend on hash values and history", "anchors": ["tm_hashmapx.h: get, capacity"]}
{"id": "C67", "title": "Null-terminated string functions agree with the length based ones", "statement": "every search, prefix test, tokenizer and comparison taking null-terminated strings gives the same answer as its length based counterpart applied to the characters before the terminator, and never reads outside of the strings.", "quantifier": "every string and every search string", "why_tests_cant": "reads before or after a string go unnoticed by tests; strings are unbounded", "anchors": ["tm_stringutil.h: tmsu_find, tmsu_find_first_of, tmsu_find_last_of, tmsu_find_char_unescaped, tmsu_next_token, tmsu_compare, tmsu_stricmp"]}
{"id": "C68", "title": "Word boundaries", "statement": "the end of the word is the first separator after the leading whitespace, the start of the last word is just behind the last separator before the trailing whitespace; with no separator the end or start of the text.", "quantifier": "every text, whitespace set and non-empty separator set", "why_tests_cant": "texts and sets are unbounded", "anchors": ["tm_stringutil.h: tmsu_find_word_end_n_ex, tmsu_find_word_start_n_ex"]}
{"id": "C69", "title": "Reversal and backward byte search", "statement": "strnrev reverses exactly the given characters and changes nothing else; memrchr finds the last occurrence of a byte.", "quantifier": "every buffer, position and length", "why_tests_cant": "buffers are unbounded", "anchors": ["tm_stringutil.h: tmsu_strnrev, tmsu_memrchr"]}
{"id": "C70", "title": "Prefix and suffix tests", "statement": "the length based starts_with and ends_with, exact and ignoring ASCII case, accept exactly the texts that begin or end with the given text (up to case).", "quantifier": "every pair of texts", "why_tests_cant": "texts are unbounded", "anchors": ["tm_stringutil.h: tmsu_starts_with_n, tmsu_ends_with_n, tmsu_starts_with_ignore_case_ansi_n, tmsu_ends_with_ignore_case_ansi_n"]}
{"id": "C71", "title": "Case-insensitive search finds the first occurrence", "statement": "the case-insensitive search for a character or a text returns the first position at which it occurs up to ASCII case, or the end.", "quantifier": "every text and needle", "why_tests_cant": "texts are unbounded; partial matches overlap", "anchors": ["tm_stringutil.h: tmsu_find_char_ignore_case_ansi_n, tmsu_find_ignore_case_ansi_n, tmsu_find_ignore_case_ansi"]}
{"id": "C72", "title": "Whitespace classification", "statement": "a codepoint is reported as whitespace exactly if it has the Unicode property White_Space.", "quantifier": "every codepoint 0..10FFFF", "why_tests_cant": "1.1M codepoints through compressed tables", "anchors": ["tm_unicode.h: tmu_ucd_is_whitespace"]}
{"id": "C73", "title": "Categories of letters, surrogates and private use codepoints", "statement": "CJK ideographs, Hangul syllables and every codepoint with case are letters; surrogates and private use codepoints are in the category other.", "quantifier": "every codepoint 0..10FFFF", "why_tests_cant": "1.1M codepoints through compressed tables; ranges given only by their ends in the source data", "anchors": ["tm_unicode.h: tmu_ucd_get_category, tmu_ucd_get_case_info"]}
{"id": "C74", "title": "Grapheme break classes of the exact ranges", "statement": "CR, LF, ZWJ, regional indicators and the two Hangul syllable classes are assigned to exactly the codepoints Unicode lists.", "quantifier": "every codepoint 0..10FFFF", "why_tests_cant": "1.1M codepoints through compressed tables", "anchors": ["tm_unicode.h: tmu_ucd_get_entry"]}
{"id": "C75", "title": "ASCII is classified and folded as in ASCII", "statement": "for codepoints below 128 category, case and both foldings are those of ASCII: only A..Z change, by +32.", "quantifier": "every codepoint below 128", "why_tests_cant": "every entry of the tables is generated", "anchors": ["tm_unicode.h: tmu_ucd_get_category, tmu_ucd_get_case_info, tmu_utf8_to_case_fold"]}
{"id": "C76", "title": "A buffer of three times the text takes its case folding", "statement": "full case folding needs at most three times, simple case folding at most one and a half times the octets of the text, whatever the text, so buffers of that size never yield ERANGE.", "quantifier": "every octet sequence", "why_tests_cant": "the factor depends on the worst codepoint and on all texts", "anchors": ["tm_unicode.h: tmu_utf8_to_case_fold, tmu_utf8_to_case_fold_simple"]}
{"id": "C77", "title": "Skipping conversion drops exactly the invalid units", "statement": "conversion with validate_skip delivers the conversion of the well-formed sequences of the input, in order, and reports that something was dropped iff something was.", "quantifier": "every unit sequence and output size", "why_tests_cant": "invalid units at any place, sequences cut short", "anchors": ["tm_unicode.h: tmu_utf8_from_utf16_ex, tmu_utf16_from_utf8_ex"]}
{"id": "C78", "title": "Octet-wise comparison of UTF-8 is codepoint order", "statement": "equals holds iff the octets agree; compare has the sign of the lexicographic order of the octets, which on valid texts is the lexicographic order of the codepoints.", "quantifier": "every pair of texts, also overlapping ones", "why_tests_cant": "texts are unbounded", "anchors": ["tm_unicode.h: tmu_utf8_equals, tmu_utf8_compare"]}
{"id": "C79", "title": "Counting codepoints", "statement": "the count of a valid text is its number of codepoints; of any text the number of codepoints in front of the first place where none can be extracted.", "quantifier": "every octet sequence", "why_tests_cant": "texts are unbounded", "anchors": ["tm_unicode.h: tmu_utf8_count_codepoints"]}
{"id": "C80", "title": "Case folding into a buffer follows the two-call protocol", "statement": "the case folding functions report the size of the folded text whatever the buffer, deliver it if it fits, report ERANGE otherwise and EINVAL if the input could not be read to its end; nothing is written outside of the buffer; folding a folded text changes nothing.", "quantifier": "every octet sequence and buffer size", "why_tests_cant": "texts and buffers are unbounded, truncation in the middle of a codepoint", "anchors": ["tm_unicode.h: tmu_utf8_to_case_fold, tmu_utf8_to_case_fold_simple"]}
{"id": "C81", "title": "Natural comparison of Unicode texts", "statement": "human_compare orders texts by their case folding with runs of digits compared by value; it terminates for every input.", "quantifier": "every pair of texts", "why_tests_cant": "unbounded numbers and texts, overflow, non-termination", "anchors": ["tm_unicode.h: tmu_utf8_human_compare, tmu_utf8_human_compare_simple"]}
{"id": "C82", "title": "Bytes of a valid text in any encoding form become its UTF-8", "statement": "converting the bytes of a valid text in UTF-8, UTF-16 or UTF-32 of either byte order, with the encoding named, yields the UTF-8 of the same codepoints under the two-call protocol and reports the encoding and no invalid codepoints, whatever the validation mode.", "quantifier": "every text, encoding form, buffer size and validation mode", "why_tests_cant": "texts and buffers are unbounded, byte order and surrogate handling must agree everywhere", "anchors": ["tm_unicode.h: tmu_utf8_convert_from_bytes"]}
{"id": "C83", "title": "Invalid bytes are dropped, replaced or rejected one by one", "statement": "converting arbitrary bytes drops (or replaces, or rejects) exactly the units at which no codepoint starts and keeps everything else, and reports whether there were any; a trailing incomplete unit is an error.", "quantifier": "every byte sequence, encoding form, buffer and replacement", "why_tests_cant": "invalid units at any place, cut units, in-place replacement of different length", "anchors": ["tm_unicode.h: tmu_utf8_convert_from_bytes, tmu_utf8_convert_from_bytes_dynamic"]}
{"id": "C84", "title": "Ownership in the allocating byte conversion", "statement": "the allocating conversion hands out a string it owns, or nothing together with an error code; the caller's input is unchanged unless it is reported as taken over.", "quantifier": "every input and every sequence of granted and refused allocations", "why_tests_cant": "allocation failure at any point", "anchors": ["tm_unicode.h: tmu_utf8_convert_from_bytes_dynamic"]}
{"id": "C85", "title": "Checked width printing", "statement": "built with TMC_CHECKED_WIDTH (assertions off), the print functions that are told a width never write outside of the buffer and report EOVERFLOW unless the width is the number of digits.", "quantifier": "every value, base, width and buffer", "why_tests_cant": "all mismatches of width and value", "anchors": ["tm_small_vector.h: print_decimal_u32_w, print_decimal_u64_w, print_hex_u32_w, print_hex_u64_w, print_u32_w, print_u64_w"]}
{"id": "C86", "title": "Bytes are printed as two hexadecimal digits each", "statement": "print_hex_bytes writes two digits per byte, high digit first, reports EOVERFLOW iff they do not fit, and different byte sequences give different texts.", "quantifier": "every byte sequence shorter than half of the address space and every buffer", "why_tests_cant": "unbounded sequences, buffer boundary", "anchors": ["tm_small_vector.h: print_hex_bytes"]}
{"id": "C87", "title": "Booleans are printed within the buffer and read back", "statement": "print_bool writes true/false or 1/0, reports EOVERFLOW iff the text does not fit, writes at most maxlen characters, and scan_bool reads the text back.", "quantifier": "every buffer length", "why_tests_cant": "boundary buffer lengths including zero", "anchors": ["tm_small_vector.h: print_bool, scan_bool"]}
{"id": "C88", "title": "Reallocation keeps the contents", "statement": "reallocating a live block of a stack allocator returns a block holding the old contents up to the smaller of both sizes, or fails leaving the old block as it was; no other live block changes.", "quantifier": "every history that frees in reverse order, every block and size away from the top of size_t", "why_tests_cant": "histories; copies between overlapping places", "anchors": ["tm_allocator.h: StackAllocator::reallocate_bytes"]}
{"id": "C89", "title": "The stack allocator guard restores the allocator", "statement": "when a guard ends, the allocator is in exactly the state it had when the guard was created, and blocks live at that time are valid again.", "quantifier": "every sequence of calls in between", "why_tests_cant": "arbitrary calls in between, including resizing and clearing", "anchors": ["tm_allocator.h: StackAllocatorGuard, StackAllocator::get_state, set_state"]}
{"id": "C90", "title": "Monotonic allocator hands out disjoint, aligned blocks", "statement": "every successful allocation lies inside one mapping of the allocator, has the requested alignment and does not overlap any earlier block; failure of a mapping or of the bookkeeping array loses nothing.", "quantifier": "every sequence of allocations, from creation on, and every pattern of failures", "why_tests_cant": "histories over many mappings and failures", "anchors": ["tm_allocator.h: MonotonicAllocator::allocate_bytes"]}
{"id": "C91", "title": "Elements of the generational id allocator do not touch each other or the bookkeeping", "statement": "the storage of an element is behind the header of its slot, in front of the next slot, and aligned for the element.", "quantifier": "every element size and alignment", "why_tests_cant": "combinations of sizes and alignments", "anchors": ["tm_allocator.h: FixedSizeGenerationalIdAllocator, data_from_id"]}
{"id": "C92", "title": "Iterating over generational ids visits the live elements", "statement": "begin, ++ and end visit exactly the live elements, in order of their slots, and stop.", "quantifier": "every create/destroy history", "why_tests_cant": "histories with gaps in any place", "anchors": ["tm_allocator.h: FixedSizeGenerationalIdAllocator::begin, end, iterator::operator++"]}
{"id": "C93", "title": "small_vector shrink_to_fit keeps the elements", "statement": "shrink_to_fit keeps the elements and leaves a capacity equal to the size, or the inline capacity if the vector is empty; on allocation failure nothing changes.", "quantifier": "every vector state, element type and allocation failure pattern", "why_tests_cant": "inline and heap storage, trivial and non-trivial elements, failures", "anchors": ["tm_small_vector.h: shrink_to_fit"]}
{"id": "C94", "title": "small_vector copies and moves", "statement": "a vector constructed or assigned from another one has its elements; the source of a move is empty afterwards; no block is leaked; failure does not lose elements silently.", "quantifier": "every pair of vectors, inline capacity and allocation failure pattern", "why_tests_cant": "combinations of inline and heap storage, sizes and failures", "anchors": ["tm_small_vector.h: small_vector(const small_vector&), small_vector(small_vector&&), operator="]}
{"id": "C95", "title": "Reports of floating point scanning", "statement": "scanning a decimal literal reports its length and no error, whatever follows; an exponent out of range is reported as such, with the same length, and leaves the output alone; a text that does not start with a literal is refused with length 0; the null-terminated and the range functions agree.", "quantifier": "every text, also not a literal", "why_tests_cant": "all continuations of a text; exponents of any number of digits", "anchors": ["tm_conversion.h: scan_double, scan_double_n"]}
{"id": "C96", "title": "Floating point scanning has no undefined behaviour", "statement": "scanning any text neither fails an assertion nor reads outside the table of powers of ten.", "quantifier": "every text", "why_tests_cant": "numbers of digits and exponents at the limits", "anchors": ["tm_conversion.h: scan_double, scan_double_n, str_Pow10"]}
{"id": "C97", "title": "Exactly the JSON texts are accepted", "statement": "building a document from a buffer reports no error if and only if the buffer holds a JSON text (RFC 8259, unpaired surrogate escapes excluded), extended by a trailing comma, '=' for ':', a plus sign or hexadecimal integers exactly when the corresponding flag is set; the text determines the value.", "quantifier": "every buffer, every combination of these four flags (the flags for comments, single quotes, multi-line strings and leading/trailing points not set)", "why_tests_cant": "unbounded nesting and arbitrary malformed texts", "anchors": ["tm_json.h: jsonAllocateDocument, jsonMakeDocument, jsonNextTokenImplicit, jsonIsValidUntilEof"]}
{"id": "C98", "title": "A JSON document represents the text", "statement": "the document of a JSON text has the structure of the text: the members of objects with their names in order, the elements of arrays in order with correct counts, the type and text of numbers and literals, and the unescaped strings.", "quantifier": "every JSON text", "why_tests_cant": "unbounded nesting, all combinations of values, escapes in all places", "anchors": ["tm_json.h: jsonAllocateDocument, jsonMakeDocument, jsonReadObject, jsonReadArray"]}
{"id": "C99", "title": "Building a JSON document is memory safe for every input", "statement": "for any bytes in the buffer, building a document reads nothing outside the buffer, writes nothing outside the memory it allocated, fails no assertion and ends.", "quantifier": "every buffer, every pool", "why_tests_cant": "arbitrary malformed input; the number of members counted first and written later must agree", "anchors": ["tm_json.h: jsonMakeDocument, jsonReadObject, jsonReadArray, jsonSkipCurrent, readNumber, readQuotedString"]}
{"id": "C100", "title": "Unescaping JSON strings", "statement": "copying the text of a string yields the characters it stands for, encoded as UTF-8, surrogate pairs combined; nothing is written beyond the given buffer.", "quantifier": "every string, every buffer size", "why_tests_cant": "escape sequences in every position and combination", "anchors": ["tm_json.h: jsonCopyUnescapedString"]}
{"id": "C101", "title": "Memory a JSON document needs", "statement": "a pool with 48 bytes for each member, 32 for each element, 7 for each object and array for alignment and twice the length of each string suffices, which is at most 32 times the length of the text; if the pool is too small this is reported as being out of memory and nothing is lost silently.", "quantifier": "every JSON text, every pool", "why_tests_cant": "sizes at the boundary for arbitrary shapes", "anchors": ["tm_json.h: jsonMakeDocument, jsonAllocateDocument, jsonAllocate, jsonAllocateUnescapedString"]}
{"id": "C102", "title": "Skipping a JSON value", "statement": "jsonSkipCurrent, called after an opening bracket or the name of a member, succeeds and leaves the reader right behind the value.", "quantifier": "every value, every text after it", "why_tests_cant": "brackets and quotes in strings at any depth", "anchors": ["tm_json.h: jsonSkipCurrent"]}
{"id": "C103", "title": "The context stack of the JSON reader", "statement": "the stack behaves like a plain stack of contexts although runs are compressed; it is never overrun, no assertion fails, and a push only fails if at least as many contexts are open as the stack has entries.", "quantifier": "every sequence of tokens, every capacity", "why_tests_cant": "runs longer than the counter of an entry, alternating contexts", "anchors": ["tm_json.h: jsonNextToken, jsonPushContext, jsonPopContext"]}
{"id": "C104", "title": "The JSON token stream", "statement": "repeated calls of jsonNextToken on a JSON text report start and end of objects and arrays, names and values in the order of the text, with their type and text, and then the end; a text that is not JSON leads to an error.", "quantifier": "every text, every nesting depth up to the number of entries of the context stack", "why_tests_cant": "unbounded nesting and length", "anchors": ["tm_json.h: jsonNextToken, jsonNextTokenImplicit"]}
{"id": "C105", "title": "Command lines are read as getopt_long would", "statement": "the calls of tmcli_next report the options and free arguments of the command line in order, each with the argument given by '=', in the same word or by the next word; names are matched exactly and in full, the first matching option counts; words after a standalone -- remain; lines of no such form, or with invalid arguments or options given too often, are errors.", "quantifier": "every table of options, every command line", "why_tests_cant": "the combinations of clusters, attached, separate and missing arguments are unbounded", "anchors": ["tm_cli.h: tmcli_next, tmcli_get_remaining_args"]}
{"id": "C106", "title": "Required options and limits", "statement": "validation succeeds exactly if parsing did and every required option was given; an option given more often than its limit is an error, an option within it is not.", "quantifier": "every table of up to 128 options, every command line", "why_tests_cant": "bit positions of all options, arbitrary repetition", "anchors": ["tm_cli.h: tmcli_validate, tmcli_next, tmcli_get_flag_pair"]}
{"id": "C107", "title": "Counters and outputs of options", "statement": "after parsing, an object used for flags holds its old bits and those of the options given, one used for assignments the value of the last such option, counters their old value plus the number of occurrences times the value (modulo 2^32).", "quantifier": "every table, every command line, every initial value", "why_tests_cant": "objects shared by several options, arbitrary order and repetition", "anchors": ["tm_cli.h: tmcli_next"]}
{"id": "C108", "title": "Validators of option arguments", "statement": "CLI_ARGUMENT_UINT accepts exactly non-empty digit sequences, CLI_ARGUMENT_INT those and their negations, CLI_ARGUMENT_FLOAT exactly the decimal numbers without superfluous leading zero, with optional fraction and exponent.", "quantifier": "every string", "why_tests_cant": "unbounded strings", "anchors": ["tm_cli.h: CLI_ARGUMENT_INT, CLI_ARGUMENT_UINT, CLI_ARGUMENT_FLOAT"]}
{"id": "C109", "title": "Parsing a command line is safe and ends", "statement": "for every table that tmcli_make_parser accepts and every command line, the loop around tmcli_next ends, fails no assertion and reads no null pointer.", "quantifier": "every table accepted, every command line", "why_tests_cant": "arbitrary words, missing names", "anchors": ["tm_cli.h: tmcli_make_parser_ex, tmcli_next, tmcli_validate"]}
{"id": "C110", "title": "Text of an XML document", "statement": "unescaping yields the characters the text stands for: every character unchanged, every predefined entity and character reference replaced by its character; text that contains '<', an unfinished reference, \"]]>\", a character not allowed in XML or bytes that are not UTF-8 is rejected.", "quantifier": "every text, every buffer that is large enough", "why_tests_cant": "references in all places and combinations, all code points", "anchors": ["tm_xml.h: tmxml_unescape_string, tmxml_unescape"]}
{"id": "C111", "title": "Buffers for XML text", "statement": "tmxml_unescape_string reads nothing outside the text, writes nothing outside the buffer, terminates what it writes, and if the buffer is too small reports a size that suffices.", "quantifier": "every text, every flags, every buffer size", "why_tests_cant": "the size where the result just does not fit, for arbitrary texts", "anchors": ["tm_xml.h: tmxml_unescape_string"]}
{"id": "C112", "title": "Whitespace options of the XML reader", "statement": "the flags remove the whitespace at the start, at the end, replace line breaks by spaces and runs of whitespace by one space, and nothing else is changed.", "quantifier": "every text, all combinations of the four flags", "why_tests_cant": "runs of any length next to any character", "anchors": ["tm_xml.h: tmxml_unescape_string, tmxml_process_character_data, tmxml_next_token"]}
{"id": "C113", "title": "The XML token stream", "statement": "repeated calls of tmxml_next_token on a well-formed document report start tags, attributes with their values, contents, CDATA sections, comments, processing instructions and end tags in document order with their text, and then the end of the document.", "quantifier": "every well-formed document", "why_tests_cant": "unbounded nesting and length", "anchors": ["tm_xml.h: tmxml_next_token"]}
{"id": "C114", "title": "Order and nesting of XML tokens", "statement": "for any input, tokens come in an order a document can have: attribute names followed by their values and only after a start tag, contents only inside of elements, one root element, never more end tags than start tags and as many at the end.", "quantifier": "every input, every number of calls", "why_tests_cant": "arbitrary malformed input", "anchors": ["tm_xml.h: tmxml_next_token"]}
{"id": "C115", "title": "The XML reader is safe for every input", "statement": "no call of tmxml_next_token fails an assertion or reads outside the text.", "quantifier": "every input, every flags, any outcome of allocations", "why_tests_cant": "arbitrary input", "anchors": ["tm_xml.h: tmxml_next_token, tmxml_unescape_current_token"]}
{"id": "C116", "title": "Reading an XML document ends", "statement": "the documented loop ends: tmxml_next_token returns true at most once for every byte of the text and once more.", "quantifier": "every input", "why_tests_cant": "arbitrary malformed input", "anchors": ["tm_xml.h: tmxml_next_token"]}
{"id": "C117", "title": "Locations of XML tokens", "statement": "line, column and offset of a token are those of its text in the document.", "quantifier": "every input, every token", "why_tests_cant": "documents with arbitrary many tokens before", "anchors": ["tm_xml.h: tmxml_next_token, tmxml_token_location"]}
{"id": "C118", "title": "The XML prolog", "statement": "tmxml_read_prolog reports version, encoding and standalone of an XML declaration and whether there is a document type, skips both, leaves documents without prolog alone, and fails for a malformed prolog; the document is then read as without prolog.", "quantifier": "every prolog, every document", "why_tests_cant": "declarations with arbitrary whitespace and quotes, nested document types", "anchors": ["tm_xml.h: tmxml_read_prolog"]}
{"id": "C119", "title": "Copies of XML text", "statement": "tmxml_copy_string returns the text followed by a terminator in memory of its own, or null if there is no memory.", "quantifier": "every text, any outcome of the allocation", "why_tests_cant": "every length", "anchors": ["tm_xml.h: tmxml_copy_string"]}
{"id": "C120", "title": "How reading an XML document ends", "statement": "when tmxml_next_token returns false, the end of the document or an error was reported before; the end is only reported when nothing is left.", "quantifier": "every input", "why_tests_cant": "arbitrary malformed input", "anchors": ["tm_xml.h: tmxml_next_token"]}
{"id": "C121", "title": "UninitializedArrayView is a bounded sequence", "statement": "push_back, pop_back, try_push_back, try_pop_back, clear, resize, assign, insert, erase and reads on a view of uninitialized memory have the effect they have on a sequence of at most capacity elements, with values that may be elements of the view, and change nothing outside its memory.", "quantifier": "every element type, capacity, history of operations, any position of the view in memory", "why_tests_cant": "arbitrary histories and sources of the elements copied", "anchors": ["tm_arrayview.h: UninitializedArrayView"]}
{"id": "C122", "title": "Misuse of UninitializedArrayView is detected", "statement": "an operation that would leave the capacity or remove elements that are not there fails an assertion; no call writes outside of the memory of the view.", "quantifier": "every view, every argument", "why_tests_cant": "sizes near 2^64, every position", "anchors": ["tm_arrayview.h: UninitializedArrayView::push_back, pop_back, grow, erase, assign, insert"]}
{"id": "C123", "title": "Parts of containers", "statement": "makeRangeView(container, start) and makeRangeView(container, start, end) are the elements from start up to end, cut at the end of the container.", "quantifier": "every container, every start and end", "why_tests_cant": "every combination of indices", "anchors": ["tm_arrayview.h: makeRangeView"]}
{"id": "C124", "title": "GridView addresses every cell once", "statement": "index and coordinates are inverse to each other, cells inside the grid have indices below its size, cells outside are refused by at and query.", "quantifier": "every width and height, every cell", "why_tests_cant": "every size", "anchors": ["tm_arrayview.h: GridView"]}
{"id": "C125", "title": "min, max, minmax and median", "statement": "for any strict weak order they select, among the arguments, the first, last and middle ones when sorted; minmax selects two different arguments.", "quantifier": "every type, every strict weak order, every argument", "why_tests_cant": "ties and orders other than <", "anchors": ["tm_utility.h: utility::min, max, minmax, median"]}
{"id": "C126", "title": "Alignment", "statement": "isPowerOfTwo holds for the powers of two only; getAlignmentOffset is the smallest offset to an aligned address.", "quantifier": "every word, every address, every power of two", "why_tests_cant": "every address", "anchors": ["tm_utility.h: isPowerOfTwo, getAlignmentOffset, isAligned"]}
{"id": "C127", "title": "swapEndian reverses the bytes", "statement": "byte i of the result is byte n-1-i of the argument; applied twice it gives the argument back.", "quantifier": "every 16, 32 and 64 bit word", "why_tests_cant": "2^64 words", "anchors": ["tm_utility.h: swapEndian"]}
{"id": "C128", "title": "mapToRange is fair", "statement": "every value is mapped into [min, max), and each result is reached by floor(2^32/n) values or one more, n = max - min.", "quantifier": "every value and range", "why_tests_cant": "2^32 values for each of 2^63 ranges", "anchors": ["tm_utility.h: mapToRange"]}
{"id": "C129", "title": "isMemoryZero", "statement": "is true if and only if all bytes are zero.", "quantifier": "every block of memory of at least one byte", "why_tests_cant": "every size and content", "anchors": ["tm_utility.h: isMemoryZero"]}
{"id": "C130", "title": "clamp and promote_as_is_to", "statement": "clamp gives the nearest value within the bounds; promote_as_is_to keeps the bits of the value and adds zeros.", "quantifier": "every value and bounds, of any integral types", "why_tests_cant": "mixed types", "anchors": ["tm_utility.h: clamp, promote_as_is_to"]}
{"id": "C131", "title": "Flags", "statement": "setFlag, clearFlag, setFlagCond and toggleFlag change the bits of the flag only; isFlagSet tests whether any is set.", "quantifier": "every word, every flag, every width", "why_tests_cant": "every combination of bits and widths", "anchors": ["tm_utility.h: setFlag, clearFlag, setFlagCond, toggleFlag, isFlagSet"]}
{"id": "C132", "title": "Comparison of floats with tolerance", "statement": "floatToleranceComparison is reflexive and symmetric and holds if and only if the distance is at most 10^-6 times the largest of 1 and the magnitudes, up to rounding; of floatEqZeroSoft, floatGtZeroSoft and floatLtZeroSoft exactly one holds.", "quantifier": "every pair of floats, infinities included", "why_tests_cant": "2^64 pairs", "anchors": ["tm_utility.h: floatToleranceComparison, floatEqZeroSoft, floatGtZeroSoft, floatLtZeroSoft"]}
{"id": "C133", "title": "Interpolation of floats", "statement": "clamp gives the nearest float within the bounds; lerp and remap reach the ends at 0 and 1; safeDivide divides whenever the divisor is not zero.", "quantifier": "every finite argument", "why_tests_cant": "2^96 arguments", "anchors": ["tm_utility.h: clamp, lerp, remap, safeDivide"]}
{"id": "C134", "title": "Triangulation cuts off ears", "statement": "triangulatePolygonEarClipping returns; each triangle consists of three successive vertices of what is left of the polygon, turns as the polygon does and has no other vertex inside, and its middle vertex is removed; it ends with two vertices left (count - 2 triangles) or when no such triangle is left.", "quantifier": "every polygon, every coordinates including NaN, every rounding", "why_tests_cant": "all polygons; which ears are found depends on rounding", "anchors": ["tm_polygon.h: triangulatePolygonEarClipping, isTriangleEar, pointInsideTriangle"]}
{"id": "C135", "title": "Triangulation and areas", "statement": "all triangles have the orientation asked for; the signed areas of the triangles and of the vertices left add up to the area of the polygon; isPolygonClockwise tells the sign of the area.", "quantifier": "every polygon with integer coordinates small enough to be exact", "why_tests_cant": "all polygons", "anchors": ["tm_polygon.h: triangulatePolygonEarClipping, isTriangleClockwise, isPolygonClockwise"]}
{"id": "C136", "title": "Evaluating a Bezier curve", "statement": "evaluateBezierForwardDifferencer gives the point of the curve at t.", "quantifier": "every curve, number of steps and t", "why_tests_cant": "forward differences accumulate; all curves and parameters", "anchors": ["tm_bezier.h: computeBezierForwardDifferencer, evaluateBezierForwardDifferencer"]}
{"id": "C137", "title": "Evaluating an easing curve at x", "statement": "evaluateBezierForwardDifferencerFromX gives the y of the polyline through the points of the curve at x, for x from 0 to 1.", "quantifier": "every easing curve, number of steps and x", "why_tests_cant": "all curves and arguments", "anchors": ["tm_bezier.h: evaluateBezierForwardDifferencerFromX"]}
{"id": "C138", "title": "Evaluation of Bezier curves returns", "statement": "both functions return, whatever the points and the argument.", "quantifier": "every float, NaN and infinities included, and number of steps", "why_tests_cant": "the step may vanish by rounding", "anchors": ["tm_bezier.h: evaluateBezierForwardDifferencer, evaluateBezierForwardDifferencerFromX"]}
{"id": "C139", "title": "resource_ptr destroys each resource once", "statement": "in every program that works with resource pointers, each resource given to one is held by exactly one, or was destroyed exactly once, or was released exactly once; when all pointers are gone each was destroyed or released.", "quantifier": "every sequence of construction, move, assignment, swap, reset, release and destruction on any number of pointers", "why_tests_cant": "all histories", "anchors": ["tm_resource_ptr.h: resource_ptr"]}
{"id": "C140", "title": "A wait returns only when the work is done", "statement": "when tma_wait_single or tma_wait_single_for reports success for a handle, the function given to tma_push_async_work was called for it and has returned.", "quantifier": "every interleaving of the calls of the main thread with any number of workers", "why_tests_cant": "all schedules; the window between a flag and its event is a few instructions", "anchors": ["tm_async.h: tma_wait_single, tma_wait_single_for, tma_impl_execute, tma_free_async_work"]}
{"id": "C141", "title": "Work runs at most once and never after its release", "statement": "each piece of work is started at most once, by one thread; it is not started after tma_free_async_work returned or withdrew it; tma_free_async_work returns only when the work is not running.", "quantifier": "every interleaving of the calls of the main thread with any number of workers", "why_tests_cant": "all schedules", "anchors": ["tm_async.h: tma_free_async_work, tma_impl_pop_slot, tma_impl_pop_force, tma_worker_procedure"]}
{"id": "C142", "title": "No dispatched work is lost", "statement": "once the threads have nothing left to do, every piece of work that was dispatched has been run, unless it was released before it began.", "quantifier": "every interleaving, any number of workers and dispatches", "why_tests_cant": "needs the ring to be full; all schedules", "anchors": ["tm_async.h: tma_impl_try_push, tma_impl_push, tma_dispatch_thread_procedure, tma_worker_procedure"]}
{"id": "C143", "title": "Calls into the thread pool return", "statement": "tma_push_async_work, tma_dispatch_async_work, tma_wait_single and tma_free_async_work return when every function given as work returns, and no assertion fails.", "quantifier": "every interleaving, any number of workers and dispatches", "why_tests_cant": "absence of deadlock over all schedules", "anchors": ["tm_async.h: tma_push_async_work, tma_dispatch_async_work, tma_wait_single, tma_free_async_work"]}
{"id": "C144", "title": "Slots of work", "statement": "tma_push_async_work never gives out the slot of a handle still in use; slots of released handles are used again before memory is allocated.", "quantifier": "every history of pushes and releases under every schedule", "why_tests_cant": "all histories", "anchors": ["tm_async.h: tma_push_async_work, tma_free_async_work"]}
{"id": "C145", "title": "Handles carry an index or an error code", "statement": "a handle made from an index is valid and gives the index back; one made from an error code is invalid and gives the code back; different indices have different handles.", "quantifier": "every index and error code of 32 bits", "why_tests_cant": "all values", "anchors": ["tm_async.h: tma_is_async_handle_valid, tma_get_error_code"]}
{"id": "C146", "title": "Formatted text is what the format string says", "statement": "snprint into a buffer that is longer than the text writes the text the format string stands for (literal parts, {{ and }}, placeholders with or without index, each value with its flags, width, precision and specifier) and a zero byte, and returns its length.", "quantifier": "every sequence of pieces, every value of every argument type, every buffer that is long enough", "why_tests_cant": "all combinations of flags, widths and values", "anchors": ["tm_print.h: snprint, tmp_snprint, tmp_print_impl"]}
{"id": "C147", "title": "snprint tells the size it needs", "statement": "whatever the length of the buffer is, snprint returns the length of the whole text.", "quantifier": "every format string and values, every buffer length, also zero", "why_tests_cant": "the return value depends on where the buffer ends within the text", "anchors": ["tm_print.h: snprint, tmp_get_print_size"]}
{"id": "C148", "title": "snprint stays inside its buffer", "statement": "snprint writes only to the given bytes, for any format string, well-formed or not.", "quantifier": "every format string, every buffer length, all values", "why_tests_cant": "memory safety on all inputs", "anchors": ["tm_print.h: snprint, tmp_print_impl"]}
{"id": "C149", "title": "Malformed format strings are reported", "statement": "snprint returns -1 when the format string has a closing brace alone, an opening brace that is not closed, or a placeholder for an argument that was not given, wherever it is and however long the buffer is.", "quantifier": "every well-formed beginning, every rest", "why_tests_cant": "all format strings", "anchors": ["tm_print.h: snprint, tmp_print_impl, tmp_print_escaped"]}
{"id": "C150", "title": "Printing to a file or a string gives the whole text", "statement": "print writes exactly the text to the file, and string_format returns it, however long it is; when memory runs out print reports that and has written the beginning of the text.", "quantifier": "every format string and values, every allocator behaviour", "why_tests_cant": "needs failures of the allocator at every point and texts of any length", "anchors": ["tm_print.h: print, string_format, tmp_print, tmp_string_format, print_memory_printer_impl"]}
{"id": "C151", "title": "Format specifiers mean what is documented", "statement": "tmp_parse_print_format of [flags][width][.precision][specifier] gives the format with these flags, width, precision and specifier, and consumes all of it.", "quantifier": "every sequence of flags, every width and precision up to INT_MAX, every specifier", "why_tests_cant": "all combinations", "anchors": ["tm_print.h: tmp_parse_print_format"]}
{"id": "C152", "title": "Clipping finds the crossings of two outlines", "statement": "the search for crossings of two polygons ends without a fault; afterwards both outlines are closed rings of their corners and the crossings, a crossing is one point shared by both rings and lies on one edge of each, no pair of edges crosses twice, and the crossings come in order along every edge.", "quantifier": "all pairs of polygons of any size, all coordinates, buffers with room for every pair of edges", "why_tests_cant": "orders and multiplicities of crossings depend on all coordinates; insertion into linked lists must hold for every history of insertions", "anchors": ["tm_polygon.h: clipPolyFindIntersections, clipPolyCreateIntersection, clipPolyTransformData"]}
{"id": "C153", "title": "Crossings are marked as entries and exits in turns", "statement": "going around an outline, crossings are marked alternately; the first one according to whether the first corner lies inside the other polygon by the even-odd rule, and to the direction asked for.", "quantifier": "all outlines with any crossings, all directions", "why_tests_cant": "the state of the pass depends on the whole ring", "anchors": ["tm_polygon.h: clipPolyMarkEntryExitPoints, clipPolyPointInsidePoly"]}
{"id": "C154", "title": "Clipping writes closed polygons along the outlines", "statement": "for crossing outlines clipPolyEmitClippedPolygons writes polygons that walk along the outlines from crossing to crossing: every crossing is passed once, exactly the corners on the side asked for are passed, no place twice, and the sizes given are those of the polygons; it needs no more room than corners and crossings.", "quantifier": "all pairs of polygons with crossings, all directions, all buffer sizes that suffice", "why_tests_cant": "walks over linked data of any shape must terminate and cover everything", "anchors": ["tm_polygon.h: clipPolyEmitClippedPolygons"]}
{"id": "C155", "title": "Clipping of polygons that do not cross", "statement": "if the outlines do not cross, clipPolyEmitClippedPolygons gives the result of the set operation asked for, in particular the inner polygon for the intersection.", "quantifier": "all pairs of polygons without crossings, all directions", "why_tests_cant": "all coordinates", "anchors": ["tm_polygon.h: clipPolyEmitClippedPolygons"]}
{"id": "C156", "title": "JSON integers are converted exactly", "statement": "jsonToInt, jsonToUInt, jsonToInt64 and jsonToUInt64 return the integer written in the text if the type can represent it and the default otherwise, also for hexadecimal integers and for texts that are no number.", "quantifier": "all texts of integers of any length, all defaults", "why_tests_cant": "unboundedly many texts; limits of four types", "anchors": ["tm_json.h: jsonToInt, jsonToUInt, jsonToInt64, jsonToUInt64, tmj_to_int, tmj_to_uint, tmj_to_int64, tmj_to_uint64"]}
{"id": "C157", "title": "Nil values and booleans", "statement": "jsonToBool recognises true and false in any case, 0 and 1, and returns the default for every other text; null, objects, arrays and whatever is not there convert to the default; members of anything but objects, and members that do not exist, are nil values, which are not null; nil objects and arrays can be used like others.", "quantifier": "all texts, all values, all names", "why_tests_cant": "all texts and values of any depth", "anchors": ["tm_json.h: jsonToBool, jsonGetInt, jsonGetUInt, jsonGetBool, jsonGetInt64, jsonGetUInt64, jsonGetMember, jsonGetObject, jsonGetArray, jsonGetEntry, jsonIsNull, jsonIsValidObject, getString"]}
{"id": "C158", "title": "Members are found whatever has been looked up before", "statement": "a lookup by name gives the member of that name, or nil if there is none, after every sequence of lookups in the object; iterators of object arrays compare as positions.", "quantifier": "all objects, all histories of lookups", "why_tests_cant": "the object remembers its last access, so the history matters", "anchors": ["tm_json.h: jsonGetMember, jsonQueryMember, jsonGetMemberCached, jsonQueryMemberCached, JsonObjectArrayIterator"]}
{"id": "C159", "title": "JSON pointers refer to what RFC 6901 says", "statement": "jsonResolveJsonPointer gives the value the pointer refers to by RFC 6901, in string and in fragment form, and the nil value if it refers to nothing or is not a pointer.", "quantifier": "all values, all pointers", "why_tests_cant": "unboundedly many values and pointers; escapes are undone in place", "anchors": ["tm_json.h: jsonResolveJsonPointer"]}
{"id": "C160", "title": "JSON pointers are resolved safely", "statement": "for every text and value jsonResolveJsonPointer stays within its buffers, reads nothing uninitialised, and frees what it has allocated exactly once, even if the allocator fails; it allocates nothing if no segment is longer than 63 bytes.", "quantifier": "all values, all texts, all behaviours of the allocator", "why_tests_cant": "failures at every allocation, texts of any length", "anchors": ["tm_json.h: jsonResolveJsonPointer"]}
{"id": "C161", "title": "JSON pointers into JSON texts", "statement": "reading a JSON text and resolving a pointer gives the value at that place of the text: its kind and content, in particular the integer written there.", "quantifier": "all JSON texts, all pointers", "why_tests_cant": "combines the reader, lookups and conversions for texts of any size", "anchors": ["tm_json.h: jsonAllocateDocument, jsonResolveJsonPointer, jsonGetInt64"]}
{"id": "C162", "title": "Printing a floating point number reports sizes and stays in the buffer", "statement": "print_double and print_float are defined for every value, every precision and all flags; the text does not depend on the buffer, it is written and its size returned if it fits into maxlen, otherwise EOVERFLOW and maxlen are returned; nothing is written behind maxlen.", "quantifier": "all doubles, all flags and precisions, all buffers and lengths", "why_tests_cant": "all doubles and buffer sizes; conversions to integers are undefined out of range", "anchors": ["tm_conversion.h: print_double, print_float, tmc_print_zero_padded_u64, print_magnitude"]}
{"id": "C163", "title": "Printing with a fixed precision", "statement": "with a precision of p digits (at most 14) print_double writes the digits before the point without leading zeros, exactly p digits behind it, and the number written differs from the value by no more than half a unit of the last digit (up to the precision of double); integers are written exactly.", "quantifier": "all doubles in the documented range, all precisions", "why_tests_cant": "all doubles; the result depends on rounding errors of several operations", "anchors": ["tm_conversion.h: print_double"]}
{"id": "C164", "title": "Printing the shortest text", "statement": "with PF_SHORTEST or a negative precision print_double writes at most 14 digits behind the point and no trailing zeros (only .0 with PF_TRAILING_ZEROES), and the number written differs from the value by no more than half a unit of the 14th digit.", "quantifier": "all doubles in the documented range, all flags", "why_tests_cant": "all doubles", "anchors": ["tm_conversion.h: print_double"]}
{"id": "C165", "title": "Printing without digits behind the point", "statement": "with precision 0 print_double writes the integer nearest to the value, halves away from zero.", "quantifier": "all doubles in the documented range", "why_tests_cant": "all doubles; fails for single values next to integers only", "anchors": ["tm_conversion.h: print_double"]}
{"id": "C166", "title": "Texts of nan, infinities and zeros", "statement": "nan and infinities are written as NAN, INF and -INF, with PF_LOWERCASE in lower case; a zero as 0 followed by the point and the zeros asked for; the sign of zero and nan is written only with PF_SIGNBIT.", "quantifier": "all flags and precisions, all buffers", "why_tests_cant": "all combinations of flags, precisions and buffer sizes", "anchors": ["tm_conversion.h: print_double, PF_SIGNBIT, PF_LOWERCASE, PF_TRAILING_ZEROES"]}
{"id": "C167", "title": "Floats survive printing and scanning", "statement": "print_float with precision 14 followed by scan_float gives the same float, as documented.", "quantifier": "all floats", "why_tests_cant": "2^32 floats, flags and buffers; errors of printing and scanning add up", "anchors": ["tm_conversion.h: print_float, scan_float"]}
{"id": "C168", "title": "The extended JSON reader reads plain JSON alike", "statement": "whatever extensions are enabled, jsonNextTokenEx and jsonAllocateDocumentEx report for every text that the plain functions accept the same tokens and a document of the same content; with no extension enabled they accept nothing else.", "quantifier": "all JSON texts, all combinations of flags", "why_tests_cant": "unboundedly many texts times 2^18 combinations of flags", "anchors": ["tm_json.h: jsonNextTokenEx, jsonMakeDocumentEx, jsonAllocateDocumentEx"]}
{"id": "C169", "title": "Keywords in any case, Infinity and NaN", "statement": "with JSON_READER_IGNORE_CASE_KEYWORDS true, false and null are values in any case; with JSON_READER_EXTENDED_FLOATS Infinity and NaN are floating point values, with a sign too; the content reported is the text.", "quantifier": "all states of the reader, all spellings, whatever follows", "why_tests_cant": "all contexts and spellings", "anchors": ["tm_json.h: jsonNextTokenEx"]}
{"id": "C170", "title": "Unquoted property names", "statement": "if enabled, an identifier is reported as the name of a property, up to its last character, wherever a name may stand.", "quantifier": "all identifiers, all states of the reader", "why_tests_cant": "identifiers of any length", "anchors": ["tm_json.h: jsonNextTokenEx, jsonParseUnquotedPropertyName"]}
{"id": "C171", "title": "Comments", "statement": "if enabled, /* */, // and # comments are reported with their content and otherwise ignored: what may follow is what could follow before, in token streams and documents; a comment without end is an error.", "quantifier": "all comments, all states of the reader", "why_tests_cant": "comments of any content at any place", "anchors": ["tm_json.h: jsonNextTokenEx, jsonParseComment, jsonReadBlockComment, jsonAllocateDocumentEx"]}
{"id": "C172", "title": "Raw strings", "statement": "if enabled, C++ and Python raw strings are values whose content is stored verbatim, wherever a value may stand and nowhere else.", "quantifier": "all raw strings, all delimiters, all states of the reader", "why_tests_cant": "contents and delimiters of any length", "anchors": ["tm_json.h: jsonParseCppRawString, jsonParsePythonRawString, jsonAllocateDocumentEx"]}
{"id": "C173", "title": "Concatenated strings", "statement": "if enabled, strings that follow each other are one value, whose stored content is the concatenation of their contents.", "quantifier": "all sequences of strings, all states of the reader", "why_tests_cant": "any number of strings of any length", "anchors": ["tm_json.h: jsonParseQuotedStringEx, jsonCopyConcatenatedString, jsonAllocateConcatenatedString"]}
{"id": "C174", "title": "The extended token reader is safe on any text", "statement": "for every sequence of bytes repeated calls of jsonNextTokenEx come to the end of the text or to an error after at most one token per byte, and nothing outside of the text is read.", "quantifier": "all byte sequences, all flags, all stack sizes", "why_tests_cant": "all inputs, valid or not", "anchors": ["tm_json.h: jsonNextTokenEx"]}
{"id": "C175", "title": "Waiting for all returns after all the work", "statement": "tma_wait_all returns TM_OK only when the work of every valid handle has ended, for any number of handles, dispatched or deferred; and in programs that use any of the waits each piece of work is done at most once and no wait reports an end that has not come.", "quantifier": "all programs, schedules, numbers of threads and handles", "why_tests_cant": "interleavings of any number of threads; more handles than the system can wait for at once", "anchors": ["tm_async.h: tma_wait_all, tma_impl_wait_all_infinite"]}
{"id": "C176", "title": "Waiting for all ends", "statement": "a call of tma_wait_all with handles that are in use and differ takes finitely many steps whatever the schedule, fails nowhere and returns TM_OK.", "quantifier": "all programs, schedules, numbers of threads and handles", "why_tests_cant": "absence of deadlocks and livelocks", "anchors": ["tm_async.h: tma_wait_all, tma_impl_wait_all_infinite"]}
{"id": "C177", "title": "Waiting for any and with a limit of time", "statement": "tma_wait_any(_for) and tma_wait_all_for return TM_OK only when the work of the named handle, or of all valid handles, has ended; a poll or timeout has no effect on later waits.", "quantifier": "all programs, schedules, numbers of threads and handles, times", "why_tests_cant": "interleavings; moments at which the time is over", "anchors": ["tm_async.h: tma_wait_any, tma_wait_any_for, tma_wait_all_for, tma_impl_wait_multiple, tma_impl_wait_multiple_chunk"]}
{"id": "C178", "title": "Reading a file", "statement": "tmu_read_file reports TM_OK only with exactly the octets of the file; without failures it succeeds for every file and tells directories and missing entries apart; the file handle is closed and the memory belongs to the result, whatever fails.", "quantifier": "all trees, paths, file sizes, failing calls, refused allocations", "why_tests_cant": "every point of failure; files of any size", "anchors": ["tm_unicode.h: tmu_read_file"]}
{"id": "C179", "title": "Reading a file as text", "statement": "tmu_read_file_as_utf8_ex returns the text of a well-formed file in UTF-8 with a terminator; the result owns the only block left, also after a failure.", "quantifier": "all files, encodings, failing calls, refused allocations", "why_tests_cant": "every point of failure", "anchors": ["tm_unicode.h: tmu_read_file_as_utf8_ex, tmu_utf8_convert_from_bytes_dynamic"]}
{"id": "C180", "title": "Writing a file", "statement": "a write that reports TM_OK has stored all of the data (with a byte order mark when asked for), touches no other entry, and without tmu_overwrite leaves an existing file as it is; what was written is read back.", "quantifier": "all trees, paths, data, flags, failing calls", "why_tests_cant": "every point of failure", "anchors": ["tm_unicode.h: tmu_write_file, tmu_write_file_ex, tmu_write_file_as_utf8, tmu_write_file_as_utf8_ex"]}
{"id": "C181", "title": "Renaming a file", "statement": "a rename that reports TM_OK has moved the file, nothing else changes; a rename that fails loses no file.", "quantifier": "all trees, paths, flags, failing calls", "why_tests_cant": "every point of failure", "anchors": ["tm_unicode.h: tmu_rename_file, tmu_rename_file_ex"]}
{"id": "C182", "title": "Creating directories", "statement": "tmu_create_directory creates a directory with everything above it, changes nothing that existed, and reports TM_OK only if the directory is there afterwards.", "quantifier": "all trees, paths, failing calls, refused allocations", "why_tests_cant": "paths of any depth; every point of failure", "anchors": ["tm_unicode.h: tmu_create_directory"]}
{"id": "C183", "title": "Directories of a file to be written", "statement": "with tmu_create_directory_tree exactly the missing directories above the file are created, then the file is written.", "quantifier": "all trees, paths and data", "why_tests_cant": "paths of any depth", "anchors": ["tm_unicode.h: tmu_write_file_ex"]}
{"id": "C184", "title": "The working directory", "statement": "tmu_current_working_directory returns the path with a slash at its end and a terminator, with room for the octets asked for; a failure leaves no memory behind.", "quantifier": "all paths, extra sizes, failing calls, refused allocations", "why_tests_cant": "paths of any length; every point of failure", "anchors": ["tm_unicode.h: tmu_current_working_directory"]}
{"id": "C185", "title": "The path of the program", "statement": "tmu_module_filename returns the whole path with a terminator, tmu_module_directory the part up to the last slash; a failure is reported and leaves no memory behind.", "quantifier": "all paths, failing calls, refused allocations", "why_tests_cant": "paths of any length; every point of failure", "anchors": ["tm_unicode.h: tmu_module_filename, tmu_module_directory"]}
{"id": "C186", "title": "Listing a directory", "statement": "reading a directory to its end gives every entry but . and .. once, in order, with is_file false exactly for directories, and keeps the error of the system.", "quantifier": "all directories", "why_tests_cant": "any number of entries", "anchors": ["tm_unicode.h: tmu_read_directory"]}
{"id": "C187", "title": "The command line in UTF-8", "statement": "tmu_utf8_command_line_from_utf16 gives every argument as a terminated string in one block, an empty string behind the last; ill-formed arguments or missing memory are reported and nothing is left allocated.", "quantifier": "all argument lists, refused allocations", "why_tests_cant": "any number of arguments of any length", "anchors": ["tm_unicode.h: tmu_utf8_command_line_from_utf16, tmu_utf8_destroy_command_line"]}
{"id": "C188", "title": "Comparing file times", "statement": "tmu_compare_file_time orders any two times.", "quantifier": "all pairs of times", "why_tests_cant": "all values of 64 bits", "anchors": ["tm_unicode.h: tmu_compare_file_time"]}
{"id": "C189", "title": "Definitions apply to whole names", "statement": "when tools/merge replaces a name that was defined with #define MERGE_..., it replaces every identifier that is this name and leaves every other identifier and all other text as it is.", "quantifier": "all texts, names and values", "why_tests_cant": "texts of any length; every neighbourhood of an occurrence", "anchors": ["tools/merge/src/main.cpp: process_definitions (347-366)"]}
{"id": "C190", "title": "#undef lines go away", "statement": "when tools/merge merges a file it removes the lines that #undef one of its definitions, and nothing else.", "quantifier": "all texts and names", "why_tests_cant": "texts of any length; any number of such lines", "anchors": ["tools/merge/src/main.cpp: erase_undef_statements (242-270)"]}
{"id": "C191", "title": "Included text is indented like the directive", "statement": "the lines of an included file are indented as the include directive is; empty lines stay empty.", "quantifier": "all outputs before the directive, all files", "why_tests_cant": "files of any number of lines, any indentation", "anchors": ["tools/merge/src/main.cpp: get_indent, indent_range (283-345)"]}
{"id": "C192", "title": "Merging changes only include directives", "statement": "if the source does not mention MERGE_ and the files do not mention MERGE_YEAR, the result of a pass is the source with some of its include directives (of files that can be read and were not merged before) replaced by the files; all other text is there unchanged and in order, the names of the merged files are reported, and a pass that merged nothing reports no change. In any other pass the directives #define MERGE_... are left out too, and the text between the directives is the source with the names defined before it replaced.", "quantifier": "all sources, directories of files and names merged before", "why_tests_cant": "sources of any length with comments, strings, directives in any order", "anchors": ["tools/merge/src/main.cpp: merge, merge_include_statement, next_token"]}
{"id": "C193", "title": "Every text can be merged", "statement": "a pass over any text ends and reads nothing outside of the text.", "quantifier": "all sources", "why_tests_cant": "sources of any length; every place where a comment, string or directive may break off", "anchors": ["tools/merge/src/main.cpp: merge, parse_define_statement, next_token"]}
{"id": "C194", "title": "Recursive merging ends", "statement": "merging recursively ends when only finitely many names can be read, after at most one round more than there are names, and no name is merged in two rounds.", "quantifier": "all sources and directories of files, including files that include each other", "why_tests_cant": "chains and cycles of includes of any length", "anchors": ["tools/merge/src/main.cpp: main (510-521), merge"]}
{"id": "C195", "title": "Every included file is merged", "statement": "each include directive whose file can be read is replaced by that file.", "quantifier": "all sources", "why_tests_cant": "any number of directives between comments, strings and other directives", "anchors": ["tools/merge/src/main.cpp: merge, merge_include_statement"]}
{"id": "C196", "title": "Generated tables report the classes of the data", "statement": "in a program that tools/unicode_gen generates, the functions for category, white space, letter case and grapheme break property give for every code point what the Unicode files say of it, and the values of an unassigned code point if the files say nothing.", "quantifier": "all sets of data, generation options and code points", "why_tests_cant": "all code points with every layout of assigned and unassigned code points; tests look at a few code points of one Unicode version", "anchors": ["tools/unicode_gen/src/main.cpp: to_flags (1104-1211), unique_ucd (1402-1579), prune_trivial_blocks (1581-1685)", "tools/unicode_gen/src/generate.cpp: print functions for stage one and two (480-709), accessors (785-810)"]}
{"id": "C197", "title": "Generated tables report the simple case mappings", "statement": "the generated entries give for every code point its simple upper, lower, title case, case folding and toggled case mapping, and the code point itself if it has none.", "quantifier": "all sets of data, generation options and code points", "why_tests_cant": "offsets of any size and sign; every layout of the tables", "anchors": ["tools/unicode_gen/src/main.cpp: 1902-1995", "tools/unicode_gen/src/generate.cpp: 303-440, 711-733"]}
{"id": "C198", "title": "Generated tables report the full case mappings", "statement": "the generated entries give for every code point the whole sequence of code points of its full upper, lower, title case, case folding and toggled case mapping.", "quantifier": "all sets of data, generation options and code points", "why_tests_cant": "any number and length of mappings that share runs", "anchors": ["tools/unicode_gen/src/main.cpp: add_unique_run (1425-1440), 1948-1969", "tools/unicode_gen/src/generate.cpp: 185-267, 735-780"]}
{"id": "C199", "title": "Pruning of stage two changes no result", "statement": "a program generated with removal of trivial blocks answers every question as the one generated without.", "quantifier": "all sets of data, options and code points", "why_tests_cant": "every sequence of entries within a block", "anchors": ["tools/unicode_gen/src/main.cpp: prune_trivial_blocks (1581-1685)", "tools/unicode_gen/src/generate.cpp: 592-692"]}
{"id": "C200", "title": "Code points without data are unassigned", "statement": "when handling of invalid code points is asked for, every code point without data is reported as unassigned, without case and mapping to itself, also beyond the last code point with data.", "quantifier": "all sets of data and code points", "why_tests_cant": "every distribution of the data over the blocks", "anchors": ["tools/unicode_gen/src/main.cpp: prune_duplicate_blocks (1497-1579)", "tools/unicode_gen/src/generate.cpp: 480-590"]}
{"id": "C201", "title": "The order of the data does not matter", "statement": "programs generated from the same data in another order give the same answers.", "quantifier": "all data and all of their permutations", "why_tests_cant": "factorially many orders", "anchors": ["tools/unicode_gen/src/main.cpp: 1902-1995"]}
{"id": "C202", "title": "Generated tables report widths", "statement": "the generated width function gives 0 for combining and control characters, 2 for wide and full width characters, 1 for others.", "quantifier": "all sets of data and code points", "why_tests_cant": "all code points", "anchors": ["tools/unicode_gen/src/main.cpp: 1914-1924", "tools/unicode_gen/src/generate.cpp: 376-440, 785-810"]}
{"id": "C203", "title": "Generated tables report decompositions", "statement": "the generated tables give for every code point its canonical and its compatibility decomposition.", "quantifier": "all sets of data and code points", "why_tests_cant": "decompositions of any length", "anchors": ["tools/unicode_gen/src/main.cpp: 1926-1946"]}
{"id": "C204", "title": "Element types fit and are as small as possible", "statement": "the element types of the generated tables hold all of their values, and no smaller type does.", "quantifier": "all sets of data", "why_tests_cant": "values at every border of the types", "anchors": ["tools/unicode_gen/src/main.cpp: value_to_size, determine_min_sizes (1687-1853)"]}
{"id": "C205", "title": "No block is stored twice", "statement": "the generated second table consists of blocks that all differ.", "quantifier": "all sets of data and options", "why_tests_cant": "any number of blocks", "anchors": ["tools/unicode_gen/src/main.cpp: prune_duplicate_blocks_impl (1497-1559)"]}
{"id": "C206", "title": "Contradicting data are rejected", "statement": "nothing is generated from data that name a code point twice or a code point above 0x10FFFF.", "quantifier": "all sets of data", "why_tests_cant": "every position of the two", "anchors": ["tools/unicode_gen/src/main.cpp: add_to_multistage_table_impl (1473-1487), 1902-1995"]}
{"id": "C207", "title": "Grapheme clusters are those of the Unicode rules", "statement": "repeated calls of to_next_grapheme_break from the start of a text stop exactly at the boundaries of Unicode Standard Annex 29 (GB1-GB13).", "quantifier": "all texts, all assignments of break properties to code points", "why_tests_cant": "texts of any length; pairing of regional indicators and emoji sequences depend on unboundedly many code points before; GraphemeBreakTest.txt has a few hundred short texts", "anchors": ["tools/unicode_gen/src/main.cpp: init_grapheme_break_transitions (2071-2137), to_next_grapheme_break (2149-2170)"]}
{"id": "C208", "title": "Every search for a grapheme break advances", "statement": "to_next_grapheme_break never reads outside of its table or the text, returns a position behind the given one and not behind the end, and repeated calls reach the end.", "quantifier": "all texts and positions within", "why_tests_cant": "texts of any length", "anchors": ["tools/unicode_gen/src/main.cpp: to_next_grapheme_break (2149-2170)"]}
{"id": "C209", "title": "Break properties are looked up correctly with every pruning", "statement": "whenever tables are generated with grapheme breaks, get_grapheme_break_property gives the property that the data have for a code point, and other for one without data.", "quantifier": "all data, generation options and code points", "why_tests_cant": "every layout of the tables", "anchors": ["tools/unicode_gen/src/main.cpp: get_grapheme_break_property (2139-2147), generate_tables (1893-2001)"]}
{"id": "C210", "title": "The transition table of tm_unicode.h is the one of the tool", "statement": "tmu_grapheme_break_transitions has the transitions that tools/unicode_gen builds.", "quantifier": "all states and properties", "why_tests_cant": "no test compares the two", "anchors": ["tm_unicode.h: 3261-3290", "tools/unicode_gen/src/main.cpp: 2071-2137", "tools/unicode_gen/src/generate.cpp: 451-478"]}
