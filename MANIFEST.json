{
 "claims": [
  {
   "property": "C01",
   "status": "proved",
   "theorems": [
    "C01_add",
    "C01_sub",
    "C01_add_u64",
    "C01_sub_u64",
    "C01_inc",
    "C01_dec",
    "C01_sub_undoes_add"
   ],
   "note": "software backend; exact for all word pairs"
  },
  {
   "property": "C02",
   "status": "proved",
   "theorems": [
    "C02_mul",
    "C02_mul_u64",
    "C02_mul_low_exact"
   ],
   "note": "software backend"
  },
  {
   "property": "C03",
   "status": "proved",
   "theorems": [
    "C03_divmod",
    "C03_divmod_u64",
    "C03_div_mod"
   ],
   "note": "long division loop proved by induction with a quotient/remainder invariant; termination is structural"
  },
  {
   "property": "C04",
   "status": "proved",
   "theorems": [
    "C04_shl",
    "C04_shr",
    "C04_shl_wide",
    "C04_shr_wide",
    "C04_and",
    "C04_or",
    "C04_xor",
    "C04_not",
    "C04_is_bit_set",
    "C04_set_bit",
    "C04_compare",
    "C04_to_bytes"
   ],
   "note": "shift amounts and bit positions below 128 as the assertions demand"
  },
  {
   "property": "C05",
   "status": "proved",
   "theorems": [
    "C05_fls",
    "C05_ffs",
    "C05_popcount",
    "C05_scan_of_zero_is_minus_one"
   ],
   "note": "positions are 0-based; popcount by induction over digit groups"
  },
  {
   "property": "C06",
   "status": "proved",
   "theorems": [
    "C06_print_is_canonical",
    "C06_canonical_exists_unique",
    "C06_digits_count",
    "C06_round_trip"
   ],
   "note": "for every base 2..36, buffer and letter case; overflow case leaves the buffer unchanged"
  },
  {
   "property": "C07",
   "status": "proved",
   "theorems": [
    "C07_scan",
    "C07_scan_n",
    "C07_from_string",
    "C07_from_string_n"
   ],
   "note": "null-terminated and length-bounded scanner, plus tmi_from_string(_n)"
  },
  {
   "property": "C08",
   "status": "partial",
   "theorems": [
    "C08_to_double_nearest_refuted",
    "C08_to_float_nearest_refuted",
    "C08_to_float_up_refuted",
    "C08_to_double_down",
    "C08_to_float_down",
    "C08_to_double_nearest_partial",
    "C08_to_float_nearest_partial",
    "C08_to_double_nearest_carry",
    "C08_to_float_nearest_carry",
    "C08_to_double_up_partial",
    "C08_to_float_up_partial"
   ],
   "note": "refuted in general: a rounding carry out of the mantissa is dropped and float UPWARD bumps exact odd mantissas; truncation proved for all values, the other modes for all values outside the characterised failing set"
  },
  {
   "property": "C09",
   "status": "partial",
   "theorems": [
    "C09_from_double",
    "C09_from_float",
    "C09_float_always_fits",
    "C09_from_double_negative_partial",
    "C09_from_double_negative_small",
    "C09_from_double_negative_refuted",
    "C09_from_float_negative_refuted",
    "C09_from_double_s_refuted"
   ],
   "note": "non-negative arguments proved; refuted for negative arguments (off by one; assertion for floats) and for the checked variant on values >= 2^128"
  },
  {
   "property": "C10",
   "status": "proved",
   "theorems": [
    "C10_find",
    "C10_count",
    "C10_insert_returns",
    "C10_remove",
    "C10_remove_index"
   ],
   "note": "abstract key/value/hash/allocator; every history of creation, successful insertion, removal by key or index; implicit growth included; iteration is C66"
  },
  {
   "property": "C11",
   "status": "partial",
   "theorems": [
    "C11_invariant",
    "C11_count_exact_partial"
   ],
   "note": "invariant for every history including failed insertions; exact count only for histories without a failed nested growth (after one the count is stale, see C12)"
  },
  {
   "property": "C12",
   "status": "partial",
   "theorems": [
    "C12_first_refusal_partial",
    "C12_sparse_partial",
    "C12_no_wrong_value_partial",
    "C12_failed_insert_loses_entries_refuted"
   ],
   "note": "refuted: a refused nested growth during rehash loses entries; proved when the first request is refused, and whenever the keys do not crowd (no 17 keys share a probe window); a wrong value is never returned"
  },
  {
   "property": "C13",
   "status": "partial",
   "theorems": [
    "C13_insert_rejects_reserved",
    "C13_reserved_never_stored",
    "C13_empty_partial",
    "C13_reserved_removed_refuted"
   ],
   "note": "insertion rejects it and it is never reported; refuted: remove of the reserved key on a non-empty map of 16 slots succeeds, decrements the count and keeps every pair"
  },
  {
   "property": "C14",
   "status": "partial",
   "theorems": [
    "C14_insert_terminates",
    "C14_failure_needs_refusal",
    "C14_sparse_succeeds_partial",
    "C14_sixteen_keys_sparse",
    "C14_seventeen_equal_hashes_refuted"
   ],
   "note": "termination and failure only on refusal in full; success when keys do not crowd (one doubling suffices); refuted: 17 keys with equal hash can never be stored, whatever the allocator grants"
  },
  {
   "property": "C15",
   "status": "proved",
   "theorems": [
    "C15_hash_is_fnv1a",
    "C15_combine_chains",
    "C15_string_hash"
   ],
   "note": "buffer hash, string hash and chaining"
  },
  {
   "property": "C16",
   "status": "proved",
   "theorems": [
    "C16_base64_roundtrip",
    "C16_base64url_roundtrip"
   ],
   "note": "both alphabets, against RFC 4648 stated on bits"
  },
  {
   "property": "C17",
   "status": "partial",
   "theorems": [
    "C17_base64_encode_partial",
    "C17_base64url_encode_partial",
    "C17_base64_decode_partial",
    "C17_base64url_decode_partial",
    "C17_exact_fit_refuted",
    "C17_sizing_refuted"
   ],
   "note": "never outside of the buffer, at most two characters under-reported, complete with more room than needed; refuted for exact-fit buffers and for sizing calls with a partial group"
  },
  {
   "property": "C18",
   "status": "partial",
   "theorems": [
    "C18_padded_partial",
    "C18_url_partial",
    "C18_rejects_malformed_refuted"
   ],
   "note": "exact set of accepted texts; refuted: a letter after the first = and a single letter in the last base64url group are accepted"
  },
  {
   "property": "C19",
   "status": "proved",
   "theorems": [
    "C19_url_roundtrip",
    "C19_url_decode"
   ],
   "note": "every input and buffer size; decoder characterised on all texts"
  },
  {
   "property": "C20",
   "status": "partial",
   "theorems": [
    "C20_find",
    "C20_find_last_partial",
    "C20_find_last_end_partial",
    "C20_find_last_empty_refuted"
   ],
   "note": "first occurrence in full; last occurrence for non-empty needles; refuted: the empty needle is found at the start by the backward search"
  },
  {
   "property": "C21",
   "status": "partial",
   "theorems": [
    "C21_find_char",
    "C21_find_char2",
    "C21_find_last_char",
    "C21_find_first_of_partial",
    "C21_find_first_not_of",
    "C21_find_last_of",
    "C21_find_last_not_of",
    "C21_empty_set_refuted"
   ],
   "note": "all character and set searches; find_first_of only for non-empty sets (refuted: an empty set stops at the first character)"
  },
  {
   "property": "C22",
   "status": "partial",
   "theorems": [
    "C22_find_char_unescaped",
    "C22_find_first_of_unescaped_partial",
    "C22_units",
    "C22_empty_set_refuted"
   ],
   "note": "character search in full, set search for non-empty sets (refuted for empty sets); units proved deterministic"
  },
  {
   "property": "C23",
   "status": "partial",
   "theorems": [
    "C23_tokens_partial",
    "C23_skip_empty_partial",
    "C23_pieces_unique",
    "C23_last_token_refuted",
    "C23_empty_delimiters_refuted"
   ],
   "note": "exactly the pieces for non-empty delimiter sets; refuted: the last piece is reported together with failure, and empty delimiter sets lose characters or never advance"
  },
  {
   "property": "C24",
   "status": "partial",
   "theorems": [
    "C24_trim_left",
    "C24_trim_right",
    "C24_trim_partial",
    "C24_trim_blank_refuted"
   ],
   "note": "trim_left and trim_right in full; trim for texts with a kept character; refuted: every non-empty blank text builds an inverted view"
  },
  {
   "property": "C25",
   "status": "proved",
   "theorems": [
    "C25_compare",
    "C25_compare_ignore_case",
    "C25_equals",
    "C25_equals_ignore_case",
    "C25_order",
    "C25_antisymmetric",
    "C25_transitive",
    "C25_ignore_case_antisymmetric",
    "C25_ignore_case_transitive"
   ],
   "note": "exact and ASCII case-insensitive; order axioms and agreement with equality"
  },
  {
   "property": "C26",
   "status": "partial",
   "theorems": [
    "C26_strnicmp_partial",
    "C26_strnicmp_refuted",
    "C26_starts_with_ignore_case_partial",
    "C26_starts_with_ignore_case_refuted"
   ],
   "note": "refuted: the n-th character is ignored and the one after it can decide; proved when the first difference is elsewhere; the exact meaning of the prefix test is proved"
  },
  {
   "property": "C27",
   "status": "partial",
   "theorems": [
    "C27_keys_partial",
    "C27_transitive_partial",
    "C27_antisymmetric",
    "C27_transitive_refuted",
    "C27_overflow_refuted"
   ],
   "note": "antisymmetry in full; natural order (so transitivity) for texts whose numbers have no leading zeros and fit an int; refuted: not transitive with leading zeros, overflow on large numbers"
  },
  {
   "property": "C28",
   "status": "proved",
   "theorems": [
    "C28_one_codepoint",
    "C28_sequences",
    "C28_injective"
   ],
   "note": "every scalar value and sequence; encoding is injective and matches Table 3-7"
  },
  {
   "property": "C29",
   "status": "proved",
   "theorems": [
    "C29_one_codepoint",
    "C29_sequences",
    "C29_injective",
    "C29_extract_exact"
   ],
   "note": "encode/extract of UTF-16, exact acceptance"
  },
  {
   "property": "C30",
   "status": "proved",
   "theorems": [
    "C30_valid_range",
    "C30_whole_text"
   ],
   "note": "longest valid prefix and whole-text validation against Table 3-7"
  },
  {
   "property": "C31",
   "status": "proved",
   "theorems": [
    "C31_valid_range",
    "C31_no_unpaired_surrogates"
   ],
   "note": "longest valid prefix; no unpaired surrogates"
  },
  {
   "property": "C32",
   "status": "partial",
   "theorems": [
    "C32_skip_invalid_refuted",
    "C32_skip_invalid_partial",
    "C32_valid_text_is_kept"
   ],
   "note": "refuted: everything after the first invalid unit can be lost; valid text is kept and the result is characterised"
  },
  {
   "property": "C33",
   "status": "partial",
   "theorems": [
    "C33_extract_refuted",
    "C33_extract_partial",
    "C33_valid_text"
   ],
   "note": "refuted: overlong forms and wrong trail octets are accepted; the accepted set is characterised exactly and is always a scalar value"
  },
  {
   "property": "C34",
   "status": "proved",
   "theorems": [
    "C34_utf8_from_utf16",
    "C34_utf16_from_utf8",
    "C34_two_calls",
    "C34_round_trip",
    "C34_dynamic",
    "C34_errors_are_reported"
   ],
   "note": "both directions, every buffer size, with and without terminator, dynamic output with allocation failure"
  },
  {
   "property": "C35",
   "status": "partial",
   "theorems": [
    "C35_replacement_refuted",
    "C35_replacement_partial"
   ],
   "note": "refuted: with replacement the loop never leaves an invalid unit; proved for valid input and for the other modes"
  },
  {
   "property": "C36",
   "status": "proved",
   "theorems": [
    "C36_within_the_buffer",
    "C36_well_formed_and_maximal"
   ],
   "note": "never outside of the buffer, whole codepoints only, maximal prefix"
  },
  {
   "property": "C37",
   "status": "partial",
   "theorems": [
    "C37_equality_refuted",
    "C37_equality_partial",
    "C37_comparison_partial",
    "C37_no_false_negatives",
    "C37_same_size"
   ],
   "note": "refuted: \"ab\" equals \"a\" but not conversely; invalid texts differ from their copies; exact characterisation on valid texts, no equality is missed"
  },
  {
   "property": "C38",
   "status": "proved",
   "theorems": [
    "C38_lookup_is_total_and_in_bounds",
    "C38_simple_folding_is_idempotent",
    "C38_full_folding_is_idempotent",
    "C38_only_codepoints"
   ],
   "note": "all codepoints through the real tables, by computation over blocks and a proof that the blocks cover"
  },
  {
   "property": "C39",
   "status": "partial",
   "theorems": [
    "C39_refuted",
    "C39_partial"
   ],
   "note": "every valid text with a mark, in every form, encoding argument, mode and buffer; refuted for a mark with nothing behind it and for a detected UTF-16LE text that starts with U+0000"
  },
  {
   "property": "C40",
   "status": "partial",
   "theorems": [
    "C40_unsigned_scan",
    "C40_unsigned_scan_n",
    "C40_refuted",
    "C40_signed_scan_partial",
    "C40_signed_scan_n_partial"
   ],
   "note": "unsigned exact; signed exact except for storing the smallest number, which negates the smallest signed value (refuted there)"
  },
  {
   "property": "C41",
   "status": "partial",
   "theorems": [
    "C41_unsigned_round_trip",
    "C41_refuted",
    "C41_signed_round_trip_partial",
    "C41_decimal_hex_agree"
   ],
   "note": "unsigned exact; signed except for the smallest number (refuted there); decimal and hexadecimal variants agree with the general ones"
  },
  {
   "property": "C42",
   "status": "proved",
   "theorems": [
    "C42_unsigned_print",
    "C42_signed_print"
   ],
   "note": "all integer print functions, with and without assertions and TMC_CHECKED_WIDTH"
  },
  {
   "property": "C43",
   "status": "proved",
   "theorems": [
    "C43_digit_counts"
   ],
   "note": "32/64 bit decimal, hexadecimal and general counts"
  },
  {
   "property": "C44",
   "status": "partial",
   "theorems": [
    "C44_refuted",
    "C44_accepts_partial",
    "C44_exactly_accepted",
    "C44_exact_with_posix_partial"
   ],
   "note": "refuted: the last letter is not compared, scan_bool_n accepts single letters and reads behind the end; scan_bool characterised exactly with the default comparison and exact with a POSIX comparison"
  },
  {
   "property": "C45",
   "status": "partial",
   "theorems": [
    "C45_refuted",
    "C45_value_partial",
    "C45_zero_partial",
    "C45_nearest_partial",
    "C45_integer_exact",
    "C45_float_partial",
    "C45_notation_refuted"
   ],
   "note": "refuted (0.5e1, 0.0512e3, many leading zeros, 19 digits, 0e309; 7e-3 and 0.007 differ); relative error at most 2^-50 for up to 18 digits on each side of the moved point in the range of normal doubles, correct rounding for up to 15 digits, exact integers, scan_float within 2^-23"
  },
  {
   "property": "C46",
   "status": "partial",
   "theorems": [
    "C46_blocks_partial",
    "C46_no_assertion_partial",
    "C46_refuted",
    "C46_fresh_realloc_refuted"
   ],
   "note": "every history whose frees are in reverse order and whose sizes stay away from the top of size_t; refuted: after a free, padding lets an older block pass for the most recent one and grow over a younger one; reallocate on a fresh allocator asserts"
  },
  {
   "property": "C47",
   "status": "partial",
   "theorems": [
    "C47_scopes_partial",
    "C47_scopes_exact_partial",
    "C47_grow_in_place_partial",
    "C47_refuted",
    "C47_resize_refuted",
    "C47_alignment_refuted"
   ],
   "note": "nested scopes whose neighbours do not decrease the alignment: same allocator up to the padding of the last scope, exact without padding; growth in place exact; refuted: padding is not given back, resizing or smaller alignments make a later free assert"
  },
  {
   "property": "C48",
   "status": "partial",
   "theorems": [
    "C48_oversized_partial",
    "C48_refuted"
   ],
   "note": "exact (null iff it does not fit) while capacity + alignment + size does not wrap; refuted near the top of size_t"
  },
  {
   "property": "C49",
   "status": "partial",
   "theorems": [
    "C49_ids_partial",
    "C49_create_partial",
    "C49_stable_partial",
    "C49_no_assertion_partial",
    "C49_refuted",
    "C49_foreign_refuted",
    "C49_empty_refuted"
   ],
   "note": "all histories with elements of at least 4 octets and all memory below 2^31 octets; refuted: 32 bit offsets alias beyond that, foreign ids resolve, an allocator of capacity 0 asserts"
  },
  {
   "property": "C50",
   "status": "partial",
   "theorems": [
    "C50_resolves_partial",
    "C50_distinct_partial",
    "C50_stale_partial",
    "C50_recycled_refuted",
    "C50_refuted",
    "C50_exhausted_refuted"
   ],
   "note": "an id resolves iff it belongs to a slot used for the first time and was not destroyed since, destroyed ids stay invalid; refuted: no recycled id ever resolves, creating after recycling asserts, ids repeat after 2^23 slots"
  },
  {
   "property": "C51",
   "status": "proved",
   "theorems": [
    "C51_guillotine_disjoint",
    "C51_guillotine_tiles"
   ],
   "note": "all histories of single/batch insertion, merge, clear, reset over a dynamic or documented-size static pack with W*H <= INT_MAX; the free and used rectangles together tile the bin"
  },
  {
   "property": "C52",
   "status": "proved",
   "theorems": [
    "C52_guillotine_area"
   ],
   "note": "used area is exact and never above the bin area"
  },
  {
   "property": "C53",
   "status": "partial",
   "theorems": [
    "C53_guillotine_placed_iff_room",
    "C53_maxrects_choice_partial"
   ],
   "note": "guillotine complete (placed iff some free rectangle admits the size); MaxRects partial: histories without an exact fit"
  },
  {
   "property": "C54",
   "status": "partial",
   "theorems": [
    "C54_static_memory_suffices",
    "C54_no_bins_refuted"
   ],
   "note": "proved for n >= 1 and every history of at most n bins; refuted for n = 0 (the documented size 0 does not allow creation)"
  },
  {
   "property": "C55",
   "status": "partial",
   "theorems": [
    "C55_maxrects_disjoint_refuted",
    "C55_maxrects_disjoint_partial"
   ],
   "note": "refuted: exact fit leaves a stale count and produces overlap; proved for every history without an exact fit in a free rectangle that is not last"
  },
  {
   "property": "C56",
   "status": "partial",
   "theorems": [
    "C56_histories_partial",
    "C56_success_partial",
    "C56_failed_assign_refuted",
    "C56_insert_nothing_refuted",
    "C56_assign_nothing_refuted",
    "C56_insert_null_range_refuted",
    "C56_emplace_own_refuted",
    "C56_failed_move_refuted"
   ],
   "note": "every history of sixteen operations over any inline size, element kind and failure pattern; refuted: a failing assign empties the vector, insert of 0 copies self-moves, assign of 0 copies and null ranges assert on empty vectors, emplace of an own element, failed move"
  },
  {
   "property": "C57",
   "status": "partial",
   "theorems": [
    "C57_lifetimes_partial",
    "C57_shrink_to_fit_refuted"
   ],
   "note": "non-trivial elements: exactly the first size slots live after every history, blocks balanced, destruction leaves nothing; refuted for shrink_to_fit (not part of the histories)"
  },
  {
   "property": "C58",
   "status": "partial",
   "theorems": [
    "C58_reserve_partial",
    "C58_reserve_refuted",
    "C58_reserve_wrap_refuted"
   ],
   "note": "whenever the request is within the capacity or exceeds the unused part; refuted: true without growth, byte count wraps"
  },
  {
   "property": "C59",
   "status": "partial",
   "theorems": [
    "C59_swap_heap_partial",
    "C59_swap_inline_partial",
    "C59_swap_refuted",
    "C59_swap_overflow_refuted"
   ],
   "note": "both on the heap, or equal capacities; refuted: capacities are exchanged but inline storage is not, writes out of bounds"
  },
  {
   "property": "C60",
   "status": "proved",
   "theorems": [
    "C60_batch_accounts"
   ],
   "note": "guillotine batch insertion from every reachable state"
  },
  {
   "property": "C61",
   "status": "partial",
   "theorems": [
    "C61_guillotine_choice_optimal",
    "C61_maxrects_choice_optimal_partial"
   ],
   "note": "guillotine in full; MaxRects partial: states reached without exact fit"
  },
  {
   "property": "C62",
   "status": "partial",
   "theorems": [
    "C62_maxrects_complete_partial",
    "C62_guillotine_incomplete_refuted"
   ],
   "note": "MaxRects partial: states reached without exact fit; guillotine incompleteness exhibited"
  },
  {
   "property": "C63",
   "status": "partial",
   "theorems": [
    "C63_maxrects_use_after_realloc_refuted",
    "C63_maxrects_total_partial"
   ],
   "note": "refuted: reallocation inside the split loop leaves a dangling pointer; proved when capacity is at least five times the current free count and no exact fit"
  },
  {
   "property": "C64",
   "status": "partial",
   "theorems": [
    "C64_clear_partial",
    "C64_clear_after_reset_refuted",
    "C64_fit_keeps_packing",
    "C64_clear_after_fit_refuted"
   ],
   "note": "clear gives an empty pack of the creation size (not of the size given to reset: refuted); fit keeps the packing, clear after fitting a full pack has no free rectangle (refuted)"
  },
  {
   "property": "C65",
   "status": "partial",
   "theorems": [
    "C65_destroy_reachable",
    "C65_destroy_failed_partial",
    "C65_destroy_failed_refuted"
   ],
   "note": "every reachable map; refuted when only the values array could not be allocated at creation (keys freed twice)"
  },
  {
   "property": "C66",
   "status": "proved",
   "theorems": [
    "C66_iteration"
   ],
   "note": "every reachable map"
  },
  {
   "property": "C67",
   "status": "partial",
   "theorems": [
    "C67_find_char",
    "C67_find_char2",
    "C67_find_last_char",
    "C67_find",
    "C67_find_last",
    "C67_find_first_of",
    "C67_find_first_not_of",
    "C67_find_last_of_partial",
    "C67_find_last_not_of_partial",
    "C67_find_char_unescaped_partial",
    "C67_find_first_of_unescaped",
    "C67_starts_with",
    "C67_next_token",
    "C67_next_token_skip_empty",
    "C67_compare",
    "C67_stricmp",
    "C67_compare_ignore_case_partial",
    "C67_refuted"
   ],
   "note": "agreement in full for find, find_char(2), find_last_char, find_last, find_first_not_of, starts_with, tokenizers, find_first_of_unescaped, compare, stricmp; refuted: find_last_of reads before an empty string and answers the start without match, find_char_unescaped reads past an empty string, compare_ignore_case_ansi has the opposite sign"
  },
  {
   "property": "C68",
   "status": "proved",
   "theorems": [
    "C68_word_end",
    "C68_word_start"
   ],
   "note": "with arbitrary whitespace and separator sets"
  },
  {
   "property": "C69",
   "status": "proved",
   "theorems": [
    "C69_reverse",
    "C69_memrchr"
   ],
   "note": "strnrev on any part of a buffer; memrchr for byte values"
  },
  {
   "property": "C70",
   "status": "proved",
   "theorems": [
    "C70_starts_with",
    "C70_ends_with",
    "C70_starts_with_ignore_case",
    "C70_ends_with_ignore_case"
   ],
   "note": "all four length based tests"
  },
  {
   "property": "C71",
   "status": "proved",
   "theorems": [
    "C71_find_char",
    "C71_find",
    "C71_find_z"
   ],
   "note": "length based and null-terminated text search, length based character search"
  },
  {
   "property": "C72",
   "status": "partial",
   "theorems": [
    "C72_whitespace_refuted",
    "C72_whitespace_partial",
    "C72_what_is_missed"
   ],
   "note": "refuted: tab, LF, VT, CR, U+0085, U+00A0, U+2029, U+202F are missed; exact set proved"
  },
  {
   "property": "C73",
   "status": "partial",
   "theorems": [
    "C73_letters_refuted",
    "C73_letters_partial",
    "C73_cased_letters",
    "C73_surrogates_and_private_use"
   ],
   "note": "refuted: only the first and last ideograph / syllable of each range is a letter; cased codepoints, surrogates and private use proved"
  },
  {
   "property": "C74",
   "status": "proved",
   "theorems": [
    "C74_grapheme_break_classes"
   ],
   "note": "all codepoints"
  },
  {
   "property": "C75",
   "status": "proved",
   "theorems": [
    "C75_ascii"
   ],
   "note": "all codepoints below 128"
  },
  {
   "property": "C76",
   "status": "proved",
   "theorems": [
    "C76_buffer_sizes"
   ],
   "note": "both bounds, reached by concrete codepoints"
  },
  {
   "property": "C77",
   "status": "proved",
   "theorems": [
    "C77_skip_utf16",
    "C77_skip_utf8",
    "C77_kept_is_unique"
   ],
   "note": "both directions; the kept sequences are unique"
  },
  {
   "property": "C78",
   "status": "proved",
   "theorems": [
    "C78_equals",
    "C78_compare",
    "C78_codepoint_order"
   ],
   "note": "any two texts in one memory"
  },
  {
   "property": "C79",
   "status": "proved",
   "theorems": [
    "C79_count_valid",
    "C79_count_any"
   ],
   "note": "valid and arbitrary texts"
  },
  {
   "property": "C80",
   "status": "proved",
   "theorems": [
    "C80_case_fold",
    "C80_idempotent"
   ],
   "note": "arbitrary octets and buffer sizes"
  },
  {
   "property": "C81",
   "status": "partial",
   "theorems": [
    "C81_natural_order_refuted",
    "C81_endless_refuted",
    "C81_natural_order_partial",
    "C81_symbols_exist"
   ],
   "note": "refuted: wrap at 2^32, int overflow, tie of 0 with U+10FFFF, endless loop on overlong digits, dependence on addresses; natural order proved for numbers up to 2^31 - 0x110000"
  },
  {
   "property": "C82",
   "status": "proved",
   "theorems": [
    "C82_valid_text"
   ],
   "note": "all five forms; texts starting with U+FEFF are C39"
  },
  {
   "property": "C83",
   "status": "partial",
   "theorems": [
    "C83_refuted",
    "C83_buffer_partial",
    "C83_utf16_partial",
    "C83_inplace_partial"
   ],
   "note": "exact for the caller buffer in UTF-8 and UTF-32, and in UTF-16 unless an unpaired lead surrogate is followed by another unit (refuted there, exact behaviour proved); in place: skip keeps the longest valid prefix, error exact, replace refuted (wrong size, memmove out of bounds)"
  },
  {
   "property": "C84",
   "status": "partial",
   "theorems": [
    "C84_refuted",
    "C84_other_forms_partial",
    "C84_utf8_partial"
   ],
   "note": "refuted: input freed but still referenced after a refused allocation, input shifted on EINVAL behind a mark; otherwise proved for every allocator"
  },
  {
   "property": "C85",
   "status": "partial",
   "theorems": [
    "C85_decimal_width",
    "C85_refuted",
    "C85_width_partial"
   ],
   "note": "decimal functions exact; refuted for the others when the width is too large (or 0 in hexadecimal); in bounds and too small widths proved"
  },
  {
   "property": "C86",
   "status": "proved",
   "theorems": [
    "C86_hex_bytes",
    "C86_hex_bytes_injective"
   ],
   "note": "every byte sequence and buffer"
  },
  {
   "property": "C87",
   "status": "partial",
   "theorems": [
    "C87_refuted",
    "C87_print_bool_partial",
    "C87_bool_round_trip"
   ],
   "note": "refuted for buffers of size 0 (assertion); otherwise proved, with round trip"
  },
  {
   "property": "C88",
   "status": "proved",
   "theorems": [
    "C88_realloc_contents"
   ],
   "note": "histories that free in reverse order, sizes away from the top of size_t"
  },
  {
   "property": "C89",
   "status": "proved",
   "theorems": [
    "C89_guard_restores"
   ],
   "note": "every sequence of calls in between"
  },
  {
   "property": "C90",
   "status": "partial",
   "theorems": [
    "C90_monotonic_partial",
    "C90_no_assertion_partial",
    "C90_refuted"
   ],
   "note": "from an initialised first block on, every pattern of failures; refuted from the constructor: the first block is read uninitialised"
  },
  {
   "property": "C91",
   "status": "partial",
   "theorems": [
    "C91_element_storage_partial",
    "C91_refuted"
   ],
   "note": "element sizes that are a multiple of the alignment and of 4; refuted: one octet elements lie in the next header"
  },
  {
   "property": "C92",
   "status": "partial",
   "theorems": [
    "C92_next_partial",
    "C92_begin_partial",
    "C92_end_partial",
    "C92_refuted"
   ],
   "note": "increment from any slot but the last, begin unless the only slot is vacant; refuted: leaving the last slot reads memory that holds no element"
  },
  {
   "property": "C93",
   "status": "partial",
   "theorems": [
    "C93_shrink_to_fit_partial",
    "C93_shrink_to_fit_inline_refuted",
    "C93_shrink_to_fit_loss_refuted"
   ],
   "note": "empty vectors, no allocator, trivial elements on the heap with a granted realloc; refuted otherwise"
  },
  {
   "property": "C94",
   "status": "partial",
   "theorems": [
    "C94_copy_construct_partial",
    "C94_move_construct_partial",
    "C94_copy_assign_partial",
    "C94_move_assign_partial",
    "C94_copy_move_refuted",
    "C94_lost_buffer_refuted"
   ],
   "note": "elements arrive unless memory is refused, nothing leaks; refuted: silent loss without memory, lost inline buffer without allocator"
  },
  {
   "property": "C95",
   "status": "partial",
   "theorems": [
    "C95_literal",
    "C95_refuted",
    "C95_no_literal_partial",
    "C95_same"
   ],
   "note": "all literals and all other texts; refuted: a point without digits is accepted as 0"
  },
  {
   "property": "C96",
   "status": "partial",
   "theorems": [
    "C96_refuted",
    "C96_defined_partial"
   ],
   "note": "refuted: 1e511 (assertion), 512 fraction digits (table overrun); exact characterisation of the literals concerned"
  },
  {
   "property": "C97",
   "status": "proved",
   "theorems": [
    "C97_exact",
    "C97_strict",
    "C97_sound",
    "C97_unambiguous"
   ],
   "note": "both directions for every buffer with 32*length below 2^64; grammar proved unambiguous"
  },
  {
   "property": "C98",
   "status": "partial",
   "theorems": [
    "C98_content_partial",
    "C98_stored_partial",
    "C98_root_integer_refuted",
    "C98_final_escape_refuted"
   ],
   "note": "all texts whose strings do not end with a two-character escape and whose root is not an integer touching the end of the buffer; refuted in those two cases (what is stored then is stated)"
  },
  {
   "property": "C99",
   "status": "partial",
   "theorems": [
    "C99_in_bounds_partial",
    "C99_open_exponent_refuted",
    "C99_comment_refuted"
   ],
   "note": "every buffer that does not end inside an exponent, flags as in C97; refuted: \"1e\" reads past the end, with comments enabled a bracket in a comment overruns the array"
  },
  {
   "property": "C100",
   "status": "partial",
   "theorems": [
    "C100_unescape_partial",
    "C100_in_bounds_partial",
    "C100_unique",
    "C100_final_escape_refuted",
    "C100_short_buffer_refuted"
   ],
   "note": "buffers at least as long as the string; refuted: final two-character escape copied as its letter, shorter buffers overrun"
  },
  {
   "property": "C101",
   "status": "partial",
   "theorems": [
    "C101_sufficient_partial",
    "C101_bound",
    "C101_masked_refuted",
    "C101_lost_string_refuted"
   ],
   "note": "the bound suffices and is respected; refuted: lack of memory reported as unexpected token, strings lost silently"
  },
  {
   "property": "C102",
   "status": "partial",
   "theorems": [
    "C102_skip_partial",
    "C102_skip_member_partial",
    "C102_comment_refuted"
   ],
   "note": "flags as in C97; refuted with comments enabled"
  },
  {
   "property": "C103",
   "status": "proved",
   "theorems": [
    "C103_push",
    "C103_pop",
    "C103_next_token"
   ],
   "note": "every reachable stack, every token"
  },
  {
   "property": "C104",
   "status": "partial",
   "theorems": [
    "C104_stream_partial",
    "C104_root_integer_refuted",
    "C104_two_roots_refuted"
   ],
   "note": "JSON texts whose root is not an integer touching the end; refuted: integer at the end has empty text, several root strings accepted"
  },
  {
   "property": "C105",
   "status": "partial",
   "theorems": [
    "C105_exact_partial",
    "C105_usual",
    "C105_flag_word_refuted",
    "C105_attached_word_refuted"
   ],
   "note": "exact for the rule that an option without an argument in the same word is not followed by a plain word; refuted: -v input.txt and -oa.out input.txt are rejected; accepted lines mean what the usual rules say"
  },
  {
   "property": "C106",
   "status": "partial",
   "theorems": [
    "C106_required",
    "C106_limits_partial",
    "C106_uncounted_refuted"
   ],
   "note": "required options proved; limits for options with limit at most one, none, or a counter of their own starting at 0; refuted: no counter, no limit"
  },
  {
   "property": "C107",
   "status": "proved",
   "theorems": [
    "C107_flags",
    "C107_assign",
    "C107_counts"
   ],
   "note": "objects used in one way only (flags, assignment, counting)"
  },
  {
   "property": "C108",
   "status": "proved",
   "theorems": [
    "C108_uint",
    "C108_int",
    "C108_float"
   ],
   "note": "all strings"
  },
  {
   "property": "C109",
   "status": "partial",
   "theorems": [
    "C109_total_partial",
    "C109_no_long_name_refuted",
    "C109_empty_short_name_refuted"
   ],
   "note": "tables in which every option has a long name and no short name is empty; refuted otherwise"
  },
  {
   "property": "C110",
   "status": "partial",
   "theorems": [
    "C110_unescape_partial",
    "C110_character_data_partial",
    "C110_rejected_partial",
    "C110_reference_modulo_refuted",
    "C110_encoding_refuted",
    "C110_long_reference_refuted"
   ],
   "note": "texts with references of up to eight digits, no whitespace flags; refuted: references modulo 2^32, overlong UTF-8 accepted, longer references rejected"
  },
  {
   "property": "C111",
   "status": "partial",
   "theorems": [
    "C111_memory_partial",
    "C111_sizes_partial",
    "C111_needed_size_refuted",
    "C111_overread_refuted",
    "C111_terminator_refuted"
   ],
   "note": "memory: text with a readable byte behind it, or no newline flag, or reduced spaces; sizes: results of single bytes; refuted: needed size too small, reads behind the text, no terminator for text of spaces"
  },
  {
   "property": "C112",
   "status": "partial",
   "theorems": [
    "C112_flags_partial",
    "C112_defined",
    "C112_reference_refuted",
    "C112_carriage_return_refuted",
    "C112_control_refuted",
    "C112_token_partial"
   ],
   "note": "text without references, brackets and control characters, without carriage returns if only one of the two flags is set; refuted for each of these"
  },
  {
   "property": "C113",
   "status": "partial",
   "theorems": [
    "C113_tokens_partial",
    "C113_empty_element_refuted",
    "C113_close_name_refuted",
    "C113_comment_refuted",
    "C113_bracket_refuted"
   ],
   "note": "documents without the constructs that are refuted (empty elements with attributes, \"&\" in comments, \"]]>\" in attributes, long values with characters of several bytes), default flags"
  },
  {
   "property": "C114",
   "status": "partial",
   "theorems": [
    "C114_order_partial",
    "C114_balance_partial",
    "C114_stray_refuted"
   ],
   "note": "up to the first error token, stray end tag excepted (refuted)"
  },
  {
   "property": "C115",
   "status": "partial",
   "theorems": [
    "C115_defined_partial",
    "C115_assertion_refuted"
   ],
   "note": "documents shorter than 64 bytes, or ASCII without character references and not with the newline flag alone; refuted: assertion fails for 63 letters and a character of two bytes"
  },
  {
   "property": "C116",
   "status": "partial",
   "theorems": [
    "C116_bound_partial",
    "C116_ends_partial",
    "C116_stray_refuted",
    "C116_comment_refuted"
   ],
   "note": "without error token or stray end tag; refuted: a stray end tag and a malformed comment behind the root are reported forever"
  },
  {
   "property": "C117",
   "status": "partial",
   "theorems": [
    "C117_place_partial",
    "C117_offset_refuted",
    "C117_column_refuted"
   ],
   "note": "line right, offset too small by one for each attribute value before; refuted: offset, column"
  },
  {
   "property": "C118",
   "status": "partial",
   "theorems": [
    "C118_declaration_partial",
    "C118_doctype_partial",
    "C118_only_doctype_partial",
    "C118_absent_partial",
    "C118_standalone_refuted",
    "C118_garbage_refuted",
    "C118_instruction_refuted"
   ],
   "note": "well-formed prologs with standalone not \"no\"; refuted: standalone=\"no\" rejected, garbage accepted, other processing instructions"
  },
  {
   "property": "C119",
   "status": "partial",
   "theorems": [
    "C119_copy_partial",
    "C119_memory",
    "C119_terminator_refuted"
   ],
   "note": "the bytes are copied, empty text is terminated; refuted: no terminator otherwise"
  },
  {
   "property": "C120",
   "status": "partial",
   "theorems": [
    "C120_end_partial",
    "C120_silent_refuted"
   ],
   "note": "the error may be recorded in the reader without having been reported; refuted: \"<a></a\" ends silently"
  },
  {
   "property": "C121",
   "status": "partial",
   "theorems": [
    "C121_step_partial",
    "C121_history_partial",
    "C121_read",
    "C121_try_push",
    "C121_adjacent_refuted",
    "C121_counter_refuted"
   ],
   "note": "ranges that are copied lie outside of the memory of the view and an assigned one does not end where the view begins (refuted); fewer than 2^31 values inserted at once (refuted otherwise)"
  },
  {
   "property": "C122",
   "status": "partial",
   "theorems": [
    "C122_guarded_partial",
    "C122_pop_refuted",
    "C122_grow_refuted",
    "C122_erase_refuted",
    "C122_assign_refuted",
    "C122_insert_own_range_refuted"
   ],
   "note": "operations without position or source; refuted: pop_back on an empty view, grow by 2^64-1, erase(end()), overlapping ranges, ranges of own elements"
  },
  {
   "property": "C123",
   "status": "proved",
   "theorems": [
    "C123_from",
    "C123_range"
   ],
   "note": ""
  },
  {
   "property": "C124",
   "status": "proved",
   "theorems": [
    "C124_index",
    "C124_coordinates",
    "C124_outside"
   ],
   "note": ""
  },
  {
   "property": "C125",
   "status": "partial",
   "theorems": [
    "C125_two",
    "C125_three",
    "C125_minmax",
    "C125_median",
    "C125_comp_partial",
    "C125_comp_refuted"
   ],
   "note": "minmax of three with a functor only if the functor is operator < (refuted otherwise); median with a functor does not compile (text)"
  },
  {
   "property": "C126",
   "status": "proved",
   "theorems": [
    "C126_power",
    "C126_offset"
   ],
   "note": ""
  },
  {
   "property": "C127",
   "status": "proved",
   "theorems": [
    "C127_swap16",
    "C127_swap32",
    "C127_swap64",
    "C127_involution"
   ],
   "note": ""
  },
  {
   "property": "C128",
   "status": "partial",
   "theorems": [
    "C128_range_partial",
    "C128_fair_partial",
    "C128_range_32_partial",
    "C128_range_refuted"
   ],
   "note": "max - min below 2^31, 32 bit version for values that are not negative; refuted otherwise"
  },
  {
   "property": "C129",
   "status": "proved",
   "theorems": [
    "C129_zero"
   ],
   "note": ""
  },
  {
   "property": "C130",
   "status": "partial",
   "theorems": [
    "C130_clamp_partial",
    "C130_clamp_refuted",
    "C130_clamp_mixed_partial",
    "C130_promote"
   ],
   "note": "arguments of one type, or values that are not negative; refuted: clamp(-1, 0u, 10u) is 10"
  },
  {
   "property": "C131",
   "status": "partial",
   "theorems": [
    "C131_flags_partial",
    "C131_flags_refuted"
   ],
   "note": "flags and flag of one width; refuted: clearing an unsigned 32 bit flag in a 64 bit word clears the upper half"
  },
  {
   "property": "C132",
   "status": "partial",
   "theorems": [
    "C132_tolerance_partial",
    "C132_symmetric",
    "C132_reflexive",
    "C132_tolerance_refuted",
    "C132_soft_refuted"
   ],
   "note": "finite numbers, up to one part in a million; refuted: infinity is close to every number, zero is less than zero, none of the three holds at the tolerance itself"
  },
  {
   "property": "C133",
   "status": "partial",
   "theorems": [
    "C133_clamp",
    "C133_start_partial",
    "C133_end_partial",
    "C133_end_refuted",
    "C133_divide_refuted"
   ],
   "note": "lerp: at 0, and at 1 if the difference is exact; refuted: lerp(1, 10^8, 1) is 0, safeDivide(1, 2^-149) is infinite"
  },
  {
   "property": "C134",
   "status": "partial",
   "theorems": [
    "C134_triangulation_partial",
    "C134_degenerate",
    "C134_large_begin_refuted",
    "C134_no_room_refuted"
   ],
   "note": "at most 65536 vertices, begin included (refuted: indices wrap), room for 3(count - 2) indices (refuted: the assertion fails); that a simple polygon always has an ear is not proved"
  },
  {
   "property": "C135",
   "status": "partial",
   "theorems": [
    "C135_areas",
    "C135_orientation",
    "C135_large_refuted"
   ],
   "note": "integer coordinates of at most 1024; refuted: with coordinates of 8192 isPolygonClockwise may be wrong"
  },
  {
   "property": "C136",
   "status": "partial",
   "theorems": [
    "C136_grid_partial",
    "C136_chord_partial",
    "C136_between_refuted",
    "C136_past_end_refuted"
   ],
   "note": "exact arithmetic; at the multiples of the step size the point is on the curve, in between on the wrong chord (refuted: on a line with 4 steps t = 0.1 gives 0.4); refuted: t > 1 gives a point beyond the end"
  },
  {
   "property": "C137",
   "status": "partial",
   "theorems": [
    "C137_from_x",
    "C137_outside_refuted"
   ],
   "note": "exact arithmetic; refuted: outside of 0 to 1 the value is extrapolated"
  },
  {
   "property": "C138",
   "status": "partial",
   "theorems": [
    "C138_returns",
    "C138_many_steps_refuted"
   ],
   "note": "up to 2^21 steps; refuted: with 2^25 steps it does not return"
  },
  {
   "property": "C139",
   "status": "partial",
   "theorems": [
    "C139_each_once",
    "C139_destroyed_once_partial",
    "C139_reset_own_refuted"
   ],
   "note": "the resources given are different; refuted: p.reset(p.get()) destroys twice"
  },
  {
   "property": "C140",
   "status": "partial",
   "theorems": [
    "C140_wait_after_work_partial",
    "C140_wait_before_frees_partial",
    "C140_timed_wait_refuted",
    "C140_late_event_refuted"
   ],
   "note": "any schedule without timed waits and without work issued while the event of a freed slot is still to be set; refuted: after a timeout the next wait succeeds, a late SetEvent ends the wait for the next work of the slot"
  },
  {
   "property": "C141",
   "status": "partial",
   "theorems": [
    "C141_once_partial",
    "C141_running_partial",
    "C141_twice_refuted",
    "C141_release_refuted"
   ],
   "note": "same schedules; refuted: after a timed wait and release the next work runs twice; with assertions, releasing queued work fails one"
  },
  {
   "property": "C142",
   "status": "partial",
   "theorems": [
    "C142_nothing_lost_partial",
    "C142_overflow_refuted"
   ],
   "note": "same schedules, at most as many dispatches as the ring has entries; refuted: with 257 dispatches the dispatch thread ends and the work is never run"
  },
  {
   "property": "C143",
   "status": "partial",
   "theorems": [
    "C143_bounded",
    "C143_calls_return_partial",
    "C143_completes_partial",
    "C143_no_failure_partial",
    "C143_deferred_wait_refuted"
   ],
   "note": "same restrictions; refuted: waiting for deferred work reads ring[-1]"
  },
  {
   "property": "C144",
   "status": "partial",
   "theorems": [
    "C144_slot_not_in_use_partial",
    "C144_reuse_refuted"
   ],
   "note": "no slot in use is given out (schedules as in C140); refuted: slots are not used again once 256 were given out"
  },
  {
   "property": "C145",
   "status": "proved",
   "theorems": [
    "C145_error_code",
    "C145_index",
    "C145_distinct"
   ],
   "note": ""
  },
  {
   "property": "C146",
   "status": "partial",
   "theorems": [
    "C146_snprint_renders_partial",
    "C146_padding_refuted",
    "C146_brace_refuted",
    "C146_values_refuted"
   ],
   "note": "at most 16 arguments, no \"}}\" between a placeholder and the one before it, texts, characters and booleans not padded, bases 8, 10 and 16, not INT_MIN; refuted: padding of texts is lost, \"}}{}\" is undefined, {:b} prints decimal, INT_MIN overflows"
  },
  {
   "property": "C147",
   "status": "partial",
   "theorems": [
    "C147_necessary_size_partial",
    "C147_negative_refuted"
   ],
   "note": "undecorated numbers, no padding; refuted: -123 into two bytes gives 3"
  },
  {
   "property": "C148",
   "status": "partial",
   "theorems": [
    "C148_inside_buffer_partial",
    "C148_padding_refuted"
   ],
   "note": "format strings without \":\" and \"}}\", undecorated values; refuted: {:20} into 10 bytes writes past the end"
  },
  {
   "property": "C149",
   "status": "partial",
   "theorems": [
    "C149_lone_brace_partial",
    "C149_unclosed_partial",
    "C149_no_argument_partial",
    "C149_inside_refuted"
   ],
   "note": "after well-formed pieces with undecorated values; refuted: the inside of a placeholder is not checked, indices wrap"
  },
  {
   "property": "C150",
   "status": "partial",
   "theorems": [
    "C150_print_partial",
    "C150_short_partial",
    "C150_string_partial",
    "C150_padding_refuted",
    "C150_negative_refuted"
   ],
   "note": "undecorated values of any length, or any decoration when the text is below 200 bytes; refuted: {:300} overruns the buffer on the stack, a negative number with one byte left fails an assertion"
  },
  {
   "property": "C151",
   "status": "partial",
   "theorems": [
    "C151_parse_format_partial",
    "C151_length_refuted"
   ],
   "note": "the specifiers are followed by a brace; refuted: followed by digits, the width is lost"
  },
  {
   "property": "C152",
   "status": "partial",
   "theorems": [
    "C152_floats_asymmetric",
    "C152_crossings_partial",
    "C152_endless_refuted"
   ],
   "note": "any arithmetic with asymmetric <; when the search ends; refuted: it does not always end in binary32 (coordinates around 5000)"
  },
  {
   "property": "C153",
   "status": "proved",
   "theorems": [
    "C153_entries"
   ],
   "note": ""
  },
  {
   "property": "C154",
   "status": "partial",
   "theorems": [
    "C154_clip_partial",
    "C154_odd_refuted"
   ],
   "note": "even number of crossings; refuted: pushing corners can give an odd number and then the out of memory assertion fails"
  },
  {
   "property": "C155",
   "status": "partial",
   "theorems": [
    "C155_apart",
    "C155_union_refuted"
   ],
   "note": "intersection; refuted: union of polygons that lie apart is empty"
  },
  {
   "property": "C156",
   "status": "partial",
   "theorems": [
    "C156_int64",
    "C156_uint64",
    "C156_int_partial",
    "C156_uint_partial",
    "C156_truncated_refuted",
    "C156_hexadecimal_refuted",
    "C156_hexadecimal_assertion_refuted",
    "C156_no_number_refuted"
   ],
   "note": "full for the 64 bit versions; 32 bit: integers that fit 64 but not 32 bits excluded; refuted: those are truncated, hexadecimal integers lose their last two digits or abort, texts that are no number give 0. strtol and strtoul are modelled by their description in C11"
  },
  {
   "property": "C157",
   "status": "partial",
   "theorems": [
    "C157_bool",
    "C157_defaults",
    "C157_missing",
    "C157_nil_array_refuted"
   ],
   "note": "float and double conversions are not modelled; refuted: indexing a nil array violates an assertion"
  },
  {
   "property": "C158",
   "status": "partial",
   "theorems": [
    "C158_lookup",
    "C158_history",
    "C158_duplicates_refuted",
    "C158_iterator_refuted"
   ],
   "note": "refuted: with duplicate names the history decides; == of the iterator is !="
  },
  {
   "property": "C159",
   "status": "partial",
   "theorems": [
    "C159_resolve_partial",
    "C159_nowhere_partial",
    "C159_fragment_partial",
    "C159_digit_name_refuted",
    "C159_large_index_refuted",
    "C159_loose_index_refuted",
    "C159_leading_text_refuted",
    "C159_encoded_tilde_refuted"
   ],
   "note": "distinct names that do not begin with a digit, indices below 2^64 in proper form, encoded bytes of fragments are not slash, tilde or digits; refuted: without these"
  },
  {
   "property": "C160",
   "status": "proved",
   "theorems": [
    "C160_safe",
    "C160_no_allocation"
   ],
   "note": ""
  },
  {
   "property": "C161",
   "status": "partial",
   "theorems": [
    "C161_text_partial",
    "C161_integer_partial",
    "C161_escaped_name_refuted"
   ],
   "note": "names without escapes, distinct, not beginning with a digit; refuted: names with escapes are not found"
  },
  {
   "property": "C162",
   "status": "partial",
   "theorems": [
    "C162_refuted",
    "C162_partial"
   ],
   "note": "nan, infinities and numbers below 2^56; refuted: numbers from 2^64 on and some smaller ones are converted to uint64_t out of range"
  },
  {
   "property": "C163",
   "status": "partial",
   "theorems": [
    "C163_refuted",
    "C163_fixed_partial",
    "C163_integer_partial"
   ],
   "note": "numbers below 2^56 that do not round up to the next integer (carry_free); integers below 2^56; refuted: 0.99 with 1 digit is printed as 1.10"
  },
  {
   "property": "C164",
   "status": "partial",
   "theorems": [
    "C164_refuted",
    "C164_shortest_partial"
   ],
   "note": "numbers below 2^56 that do not round up to the next integer (carry_free); refuted"
  },
  {
   "property": "C165",
   "status": "partial",
   "theorems": [
    "C165_refuted",
    "C165_nearest_partial"
   ],
   "note": "v + 0.5 and v + 1 are doubles, or 2^53 <= v < 2^56; refuted: the largest double below 1 is printed as 2"
  },
  {
   "property": "C166",
   "status": "proved",
   "theorems": [
    "C166_special"
   ],
   "note": ""
  },
  {
   "property": "C167",
   "status": "partial",
   "theorems": [
    "C167_refuted",
    "C167_float_partial"
   ],
   "note": "floats from 2^-21 to 2^56 in absolute value; refuted outside"
  },
  {
   "property": "C168",
   "status": "partial",
   "theorems": [
    "C168_tokens_partial",
    "C168_stream_partial",
    "C168_documents",
    "C168_content_partial",
    "C168_memory_partial",
    "C168_trailing_refuted",
    "C168_assertion_refuted"
   ],
   "note": "documents: full for acceptance; content for texts that do not end in a root integer; escaped line breaks, concatenated strings and a differing hexadecimal flag excluded; refuted: with no flag set a left over string is accepted or fails an assertion"
  },
  {
   "property": "C169",
   "status": "proved",
   "theorems": [
    "C169_any_case",
    "C169_float_names"
   ],
   "note": "single calls of jsonNextTokenEx in any state"
  },
  {
   "property": "C170",
   "status": "proved",
   "theorems": [
    "C170_name"
   ],
   "note": "single calls of jsonNextTokenEx in any state"
  },
  {
   "property": "C171",
   "status": "partial",
   "theorems": [
    "C171_block",
    "C171_line",
    "C171_unterminated_refuted",
    "C171_count_refuted"
   ],
   "note": "single calls of jsonNextTokenEx in any state; refuted: comments without end, documents with two kinds of comments"
  },
  {
   "property": "C172",
   "status": "partial",
   "theorems": [
    "C172_cpp_partial",
    "C172_python_partial",
    "C172_stored",
    "C172_delimiter_refuted",
    "C172_comma_refuted",
    "C172_backslash_refuted",
    "C172_out_of_bounds_refuted"
   ],
   "note": "empty delimiter; Python raw strings with valid escapes and double quotes; refuted: delimiters, missing commas, backslashes, reading outside"
  },
  {
   "property": "C173",
   "status": "partial",
   "theorems": [
    "C173_token_partial",
    "C173_stored_partial",
    "C173_three_refuted",
    "C173_escape_refuted",
    "C173_terminator_refuted",
    "C173_out_of_bounds_refuted"
   ],
   "note": "whitespace only behind the first string; stored content for strings without escapes; refuted without"
  },
  {
   "property": "C174",
   "status": "partial",
   "theorems": [
    "C174_stream_partial",
    "C174_token_partial",
    "C174_raw_refuted"
   ],
   "note": "without escaped line breaks, C++ raw strings, concatenated strings, leading and trailing points, and texts with an open exponent at the end; refuted for raw strings (and C99 for exponents)"
  },
  {
   "property": "C175",
   "status": "partial",
   "theorems": [
    "C175_all_ended_partial",
    "C175_history_partial"
   ],
   "note": "programs without timed waits on single handles and without new work while the event of a freed slot may still be set (as C140)"
  },
  {
   "property": "C176",
   "status": "partial",
   "theorems": [
    "C176_bounded_partial",
    "C176_returns_partial",
    "C176_twice_refuted"
   ],
   "note": "as C175, and at most as many dispatches as the ring has entries; refuted for a handle given twice"
  },
  {
   "property": "C177",
   "status": "partial",
   "theorems": [
    "C177_found_ended_partial",
    "C177_poll_all_reads_refuted",
    "C177_poll_all_refuted",
    "C177_assertion_refuted",
    "C177_timed_many_refuted",
    "C177_any_many_refuted"
   ],
   "note": "as C175; waiting for any without limit for at most 64 handles, polling for all for exactly 64 handles, for all with a limit without assertions; refuted for the rest"
  },
  {
   "property": "C178",
   "status": "proved",
   "theorems": [
    "C178_read_file"
   ],
   "note": ""
  },
  {
   "property": "C179",
   "status": "partial",
   "theorems": [
    "C179_leak_refuted",
    "C179_double_free_refuted",
    "C179_utf8_partial",
    "C179_other_forms_partial"
   ],
   "note": "well-formed UTF-8 with every request for memory granted, and every text in UTF-16 or UTF-32 with any memory (but a lead surrogate followed by something else), no failing call; refuted for a failing read (leak) and a refused terminator (double free)"
  },
  {
   "property": "C180",
   "status": "partial",
   "theorems": [
    "C180_lost_refuted",
    "C180_mark_refuted",
    "C180_write_partial",
    "C180_round_trip"
   ],
   "note": "failures that show up on closing the file may lose data; refuted for these and for the byte order mark; tmu_atomic_write always fails"
  },
  {
   "property": "C181",
   "status": "partial",
   "theorems": [
    "C181_lost_refuted",
    "C181_self_refuted",
    "C181_rename_partial"
   ],
   "note": "with tmu_overwrite a failing rename may lose the file under the new name; refuted there and for a file renamed to itself"
  },
  {
   "property": "C182",
   "status": "partial",
   "theorems": [
    "C182_absolute_refuted",
    "C182_file_refuted",
    "C182_create_partial"
   ],
   "note": "relative paths without files on the way; refuted for absolute paths, files of that name, and the text ~/"
  },
  {
   "property": "C183",
   "status": "partial",
   "theorems": [
    "C183_refuted",
    "C183_tree_partial"
   ],
   "note": "relative paths, names without slash, backslash, colon, tilde; no failing call; refuted for names with such characters"
  },
  {
   "property": "C184",
   "status": "partial",
   "theorems": [
    "C184_full_refuted",
    "C184_leak_refuted",
    "C184_cwd_partial"
   ],
   "note": "paths whose length plus one is no multiple of 200, or that end with a slash, or extra room; refuted for the others and for memory after a failure"
  },
  {
   "property": "C185",
   "status": "partial",
   "theorems": [
    "C185_refuted",
    "C185_file_partial",
    "C185_directory_partial"
   ],
   "note": "the first readlink succeeds; refuted otherwise (free of a stack buffer)"
  },
  {
   "property": "C186",
   "status": "partial",
   "theorems": [
    "C186_kind_refuted",
    "C186_listing_partial"
   ],
   "note": "is_file for fifos, devices with characters, directories, files and links; refuted for sockets and block devices"
  },
  {
   "property": "C187",
   "status": "proved",
   "theorems": [
    "C187_command_line",
    "C187_ill_formed"
   ],
   "note": ""
  },
  {
   "property": "C188",
   "status": "partial",
   "theorems": [
    "C188_refuted",
    "C188_partial"
   ],
   "note": "times less than 2^63 apart; refuted otherwise (not transitive)"
  },
  {
   "property": "C189",
   "status": "partial",
   "theorems": [
    "C189_whole_words_partial",
    "C189_whole_words_refuted"
   ],
   "note": "occurrences that touch no underscore; refuted otherwise (an underscore ends a name)"
  },
  {
   "property": "C190",
   "status": "partial",
   "theorems": [
    "C190_undef_removed_partial",
    "C190_absent_kept",
    "C190_undef_removed_refuted",
    "C190_two_undefs_refuted"
   ],
   "note": "one such line: it goes away together with the line break before it; refuted: the lines around it are joined, two such lines take the line before with them"
  },
  {
   "property": "C191",
   "status": "partial",
   "theorems": [
    "C191_indented_like_directive_partial",
    "C191_lines_moved",
    "C191_indented_like_directive_refuted"
   ],
   "note": "directives behind a line break and tabs or fours of spaces; refuted for other indentations and for the first character of the text"
  },
  {
   "property": "C192",
   "status": "proved",
   "theorems": [
    "C192_only_includes",
    "C192_with_definitions"
   ],
   "note": ""
  },
  {
   "property": "C193",
   "status": "partial",
   "theorems": [
    "C193_total_partial",
    "C193_total_refuted"
   ],
   "note": "texts without MERGE_, or whose last line is complete, not blank and without MERGE_; refuted otherwise"
  },
  {
   "property": "C194",
   "status": "proved",
   "theorems": [
    "C194_rounds_end",
    "C194_no_name_twice"
   ],
   "note": ""
  },
  {
   "property": "C195",
   "status": "partial",
   "theorems": [
    "C195_includes_expanded_partial",
    "C195_includes_expanded_refuted",
    "C195_empty_definition_refuted",
    "C195_other_words_refuted"
   ],
   "note": "directives at the beginning of a line, between complete comments, complete strings, other directives and text without quotes, slashes and #; refuted: quote in a character constant, definition without value, beginnings of the word include"
  },
  {
   "property": "C196",
   "status": "partial",
   "theorems": [
    "C196_class_partial",
    "C196_refuted",
    "C196_pruned_partial"
   ],
   "note": "without prune_stage_two, widths only together with grapheme breaks, code points that the tables reach; with prune_stage_two (C196_pruned_partial) for code points within stage one in blocks not of the form x y x...x y, if the program without it is generated too; refuted for such blocks"
  },
  {
   "property": "C197",
   "status": "partial",
   "theorems": [
    "C197_simple_partial",
    "C197_refuted",
    "C197_pruned_partial"
   ],
   "note": "as C196, code points up to 0x10FFFF, mapped values below 2^32; refuted for widths without grapheme breaks (members shifted)"
  },
  {
   "property": "C198",
   "status": "partial",
   "theorems": [
    "C198_full_partial",
    "C198_pruned_partial"
   ],
   "note": "as C196, mappings that are proper_full (UgSpec.v)"
  },
  {
   "property": "C199",
   "status": "partial",
   "theorems": [
    "C199_prune_partial",
    "C199_refuted"
   ],
   "note": "both programs are generated, blocks that are not of the form x y x...x y, code points within stage one; refuted for such blocks"
  },
  {
   "property": "C200",
   "status": "partial",
   "theorems": [
    "C200_unassigned_partial",
    "C200_refuted"
   ],
   "note": "as C196 and C198; beyond the last block with data only if some block below has no data, refuted otherwise"
  },
  {
   "property": "C201",
   "status": "partial",
   "theorems": [
    "C201_order_partial"
   ],
   "note": "as C196 and C197, without prune_stage_two"
  },
  {
   "property": "C202",
   "status": "partial",
   "theorems": [
    "C202_width_partial",
    "C202_refuted"
   ],
   "note": "only that the result is always 0, without prune_stage_two and with grapheme breaks; refuted: widths are never written"
  },
  {
   "property": "C203",
   "status": "partial",
   "theorems": [
    "C203_decomposition_partial",
    "C203_refuted"
   ],
   "note": "as C196, only the first code point of a decomposition; refuted: the others are lost"
  },
  {
   "property": "C204",
   "status": "partial",
   "theorems": [
    "C204_types_partial",
    "C204_used_partial"
   ],
   "note": "only the tables of stage one and two, each when its pruning is off; members of the entries and runs are missing"
  },
  {
   "property": "C205",
   "status": "proved",
   "theorems": [
    "C205_distinct"
   ],
   "note": ""
  },
  {
   "property": "C206",
   "status": "proved",
   "theorems": [
    "C206_rejects"
   ],
   "note": ""
  },
  {
   "property": "C207",
   "status": "partial",
   "theorems": [
    "C207_boundaries_partial",
    "C207_plain_partial",
    "C207_refuted"
   ],
   "note": "exact: there are further boundaries before a mark that follows an emoji with joiner, refuted there"
  },
  {
   "property": "C208",
   "status": "proved",
   "theorems": [
    "C208_advances",
    "C208_end"
   ],
   "note": ""
  },
  {
   "property": "C209",
   "status": "proved",
   "theorems": [
    "C209_property"
   ],
   "note": ""
  },
  {
   "property": "C210",
   "status": "proved",
   "theorems": [
    "C210_table",
    "C210_written"
   ],
   "note": ""
  }
 ]
}