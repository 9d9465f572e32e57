{
 "claims": [
  {
   "property": "C01",
   "status": "proved",
   "theorems": [
    "C01_roundtrip",
    "C01_read_one"
   ],
   "note": ""
  },
  {
   "property": "C02",
   "status": "proved",
   "theorems": [
    "C02_formulas",
    "C02_encoder",
    "C02_array",
    "C02_leading_byte"
   ],
   "note": "both length formulas proved equal for all 32 bit values; agreement with the encoder for all characters below 2^31 (above, the encoder is undefined: C03)"
  },
  {
   "property": "C03",
   "status": "partial",
   "theorems": [
    "C03_upper_half_refuted"
   ],
   "note": "False of the code: the encoder shifts by 36 bits"
  },
  {
   "property": "C04",
   "status": "proved",
   "theorems": [
    "C04_string_round_trip"
   ],
   "note": "all texts below 2^31 bytes, target string with any history, any stream flags"
  },
  {
   "property": "C05",
   "status": "proved",
   "theorems": [
    "C05_string_size",
    "C05_memblock_size",
    "C05_container_size"
   ],
   "note": ""
  },
  {
   "property": "C06",
   "status": "partial",
   "theorems": [
    "C06_container_partial",
    "C06_vector_partial",
    "C06_container_refuted"
   ],
   "note": "False for 8-byte elements in a buffer not aligned to 8 (ostream aligns addresses, istream positions); proved for all element sequences otherwise, as sequences and into vectors with any history"
  },
  {
   "property": "C07",
   "status": "proved",
   "theorems": [
    "C07_istream_bounds",
    "C07_ostream_bounds"
   ],
   "note": ""
  },
  {
   "property": "C08",
   "status": "partial",
   "theorems": [
    "C08_read_strz_partial",
    "C08_unterminated",
    "C08_read_strz_refuted"
   ],
   "note": "False of the code: without a terminator the position advances by one even past the end, and later reads are undefined. Proved when a terminator is present."
  },
  {
   "property": "C09",
   "status": "proved",
   "theorems": [
    "C09_lower_bound",
    "C09_upper_bound",
    "C09_equal_range",
    "C09_binary_search"
   ],
   "note": ""
  },
  {
   "property": "C10",
   "status": "partial",
   "theorems": [
    "C10_binary_search_comp_refuted",
    "C10_binary_search_comp_partial"
   ],
   "note": "The full claim is false of the code (C10_..._refuted: upredalgo.h:227 tests comp(*found,value)); the _partial theorem states what it computes for every sorted range."
  },
  {
   "property": "C11",
   "status": "partial",
   "theorems": [
    "C11_set_partial",
    "C11_set_char_refuted",
    "C11_sized_constructor_refuted"
   ],
   "note": "proved for every element type of two bytes or more, up to 2^31 bytes; set<char> refuted (C21), sized constructor refuted; any strict weak order"
  },
  {
   "property": "C12",
   "status": "partial",
   "theorems": [
    "C12_multiset_partial",
    "C12_multiset_short_refuted"
   ],
   "note": "proved for element sizes divisible by 4, up to 2^31 bytes; erase of 2-byte elements refuted; any strict weak order"
  },
  {
   "property": "C13",
   "status": "proved",
   "theorems": [
    "C13_map"
   ],
   "note": "all histories up to 2^31 bytes of pairs (beyond that C35); any strict weak order"
  },
  {
   "property": "C14",
   "status": "partial",
   "theorems": [
    "C14_multimap_partial",
    "C14_multimap_short_refuted"
   ],
   "note": "proved for pair sizes divisible by 4, up to 2^31 bytes; erase of 2-byte pairs refuted; any strict weak order"
  },
  {
   "property": "C15",
   "status": "proved",
   "theorems": [
    "C15_make_heap",
    "C15_push_heap",
    "C15_pop_heap",
    "C15_sort_heap",
    "C15_is_heap"
   ],
   "note": ""
  },
  {
   "property": "C16",
   "status": "proved",
   "theorems": [
    "C16_priority_queue"
   ],
   "note": ""
  },
  {
   "property": "C17",
   "status": "partial",
   "theorems": [
    "C17_priority_queue_comparator_refuted"
   ],
   "note": "False of the code: pop() uses operator< (uheap.h:145). C16 proves the property for the default comparator."
  },
  {
   "property": "C18",
   "status": "proved",
   "theorems": [
    "C18_stable_sort",
    "C18_partial_sort_copy"
   ],
   "note": "The generic code; the overloads that pointers select are C87 and C88."
  },
  {
   "property": "C19",
   "status": "proved",
   "theorems": [
    "C19_stable_partition"
   ],
   "note": "The generic code; the overloads that pointers select are C87 and C88."
  },
  {
   "property": "C20",
   "status": "proved",
   "theorems": [
    "C20_reverse",
    "C20_rotate",
    "C20_swap_ranges",
    "C20_random_shuffle"
   ],
   "note": ""
  },
  {
   "property": "C21",
   "status": "partial",
   "theorems": [
    "C21_copy_n",
    "C21_fill",
    "C21_copy_backward_refuted",
    "C21_rotate_refuted",
    "C21_rotate_crash_refuted",
    "C21_copy_backward_crash_refuted",
    "C21_copy_backward_partial",
    "C21_rotate_aligned_partial",
    "C21_rotate_any_partial",
    "C21_rotate_memmove"
   ],
   "note": "False of the code on x86: copy_backward_fast corrupts or crashes on short misaligned ranges, and so does rotate_fast, which string::insert/erase and memlink use. Proved for copy_n, fill_n, and rotation in the good cases (all 4-aligned ranges) and for the memmove build."
  },
  {
   "property": "C22",
   "status": "proved",
   "theorems": [
    "C22_merge",
    "C22_inplace_merge"
   ],
   "note": ""
  },
  {
   "property": "C23",
   "status": "partial",
   "theorems": [
    "C23_merge_stable_refuted",
    "C23_merge_order_partial"
   ],
   "note": "False of the code: on ties the second range goes first; the _partial theorem gives the exact order for all inputs."
  },
  {
   "property": "C24",
   "status": "proved",
   "theorems": [
    "C24_set_union",
    "C24_set_intersection",
    "C24_set_difference",
    "C24_set_symmetric_difference",
    "C24_includes"
   ],
   "note": ""
  },
  {
   "property": "C25",
   "status": "proved",
   "theorems": [
    "C25_next_permutation",
    "C25_prev_permutation"
   ],
   "note": ""
  },
  {
   "property": "C26",
   "status": "proved",
   "theorems": [
    "C26_remove_if",
    "C26_remove",
    "C26_unique",
    "C26_unique_copy",
    "C26_copy_if",
    "C26_remove_copy_if",
    "C26_remove_copy",
    "C26_replace",
    "C26_replace_if",
    "C26_transform",
    "C26_transform2",
    "C26_reverse_copy",
    "C26_rotate_copy"
   ],
   "note": ""
  },
  {
   "property": "C27",
   "status": "proved",
   "theorems": [
    "C27_find",
    "C27_find_if",
    "C27_adjacent_find",
    "C27_mismatch",
    "C27_equal",
    "C27_search",
    "C27_search_n",
    "C27_find_first_of",
    "C27_count",
    "C27_count_if",
    "C27_max_element",
    "C27_min_element",
    "C27_minmax_element"
   ],
   "note": ""
  },
  {
   "property": "C28",
   "status": "partial",
   "theorems": [
    "C28_find_end_refuted",
    "C28_find_end_partial"
   ],
   "note": "False of the code: an occurrence at the start of the range is missed. Proved for all other positions; missing exactly position 0 (and the empty pattern)."
  },
  {
   "property": "C29",
   "status": "partial",
   "theorems": [
    "C29_lexicographical_compare",
    "C29_lex_strict_weak",
    "C29_lex_strict_total",
    "C29_is_sorted",
    "C29_string_compare_partial",
    "C29_string_order",
    "C29_string_compare_refuted"
   ],
   "note": "sequences: proved; strings: proved below 2^31 bytes, refuted from 2^31 on (length difference converted to int)"
  },
  {
   "property": "C30",
   "status": "proved",
   "theorems": [
    "C30_queue_fifo"
   ],
   "note": "Proved for all histories over any number of queues (copies excluded: C31); restriction: twice the elements fit 2^31 bytes (C35)."
  },
  {
   "property": "C31",
   "status": "partial",
   "theorems": [
    "C31_queue_copy_partial",
    "C31_queue_copy_refuted"
   ],
   "note": "False of the code: the copy constructor copies the popped elements still in the vector but resets _front, so they are delivered again. Proved when nothing was popped from the source, or it is empty."
  },
  {
   "property": "C32",
   "status": "proved",
   "theorems": [
    "C32_bits",
    "C32_to_value",
    "C32_set_one"
   ],
   "note": ""
  },
  {
   "property": "C33",
   "status": "partial",
   "theorems": [
    "C33_count_partial",
    "C33_count_refuted",
    "C33_none_refuted"
   ],
   "note": "False of the code when Size is not a multiple of 32: set() and flip() touch the unused bits, which count, any and none include. Proved for histories that leave them alone."
  },
  {
   "property": "C34",
   "status": "partial",
   "theorems": [
    "C34_memblock_partial",
    "C34_link_overread_refuted",
    "C34_reserve_small_refuted",
    "C34_insert_refuted"
   ],
   "note": "proved for every history over any number of blocks with sizes up to 2^31; refuted: copy-on-write of a link reads one byte past it, reserve below the size of a linked block, byte moves of insert (C21)"
  },
  {
   "property": "C35",
   "status": "partial",
   "theorems": [
    "C35_reserve_partial",
    "C35_reserve_string_partial",
    "C35_reserve_refuted",
    "C35_reserve_loses_refuted",
    "C35_reserve_wrap_refuted"
   ],
   "note": "False of the code above 2^31 (NextPow2 wraps to 1) and for string::reserve(SIZE_MAX); proved for all other n and every block"
  },
  {
   "property": "C36",
   "status": "partial",
   "theorems": [
    "C36_terminated_partial",
    "C36_shrink_refuted",
    "C36_reserve_refuted",
    "C36_moved_refuted"
   ],
   "note": "proved for all histories of 29 operations within the stated preconditions; refuted: shrink_to_fit, reserve on a moved-from string, c_str() of a moved-from string"
  },
  {
   "property": "C37",
   "status": "partial",
   "theorems": [
    "C37_contents_partial",
    "C37_insert_string_refuted",
    "C37_self_assign_refuted",
    "C37_self_append_refuted",
    "C37_erase_beyond_refuted",
    "C37_insert_moves_refuted",
    "C37_npos_refuted"
   ],
   "note": "proved for all histories within preconditions (distinct arguments, below 2^31, erase starting inside, byte moves that C21 gets right); refuted: insert(pos, string), assign/append of itself, erase beyond the end, insert hitting C21; a length of SIZE_MAX (npos of the standard library) with a position inside the string wraps, and substr writes through a null pointer"
  },
  {
   "property": "C38",
   "status": "partial",
   "theorems": [
    "C38_find_char",
    "C38_find_partial",
    "C38_find_first_of_partial",
    "C38_find_first_not_of_partial",
    "C38_char_overloads",
    "C38_counted_partial",
    "C38_find_empty_refuted"
   ],
   "note": "proved; strings below 2^31 bytes; refuted for the empty pattern (npos)"
  },
  {
   "property": "C39",
   "status": "partial",
   "theorems": [
    "C39_rfind_char_partial",
    "C39_find_last_of_partial",
    "C39_find_last_not_of_partial",
    "C39_char_overloads_partial",
    "C39_counted_partial",
    "C39_rfind_partial",
    "C39_rfind_refuted",
    "C39_rfind_pos_refuted",
    "C39_rfind_empty_refuted",
    "C39_empty_string_refuted"
   ],
   "note": "byte and set searches proved for non-empty strings; rfind of a string refuted (misses starts 0 and 1, matches ending after pos, empty pattern); empty string refuted (reads out of bounds)"
  },
  {
   "property": "C40",
   "status": "proved",
   "theorems": [
    "C40_accumulate",
    "C40_iota",
    "C40_inner_product",
    "C40_partial_sum",
    "C40_partial_sum_safe",
    "C40_power"
   ],
   "note": ""
  },
  {
   "property": "C41",
   "status": "partial",
   "theorems": [
    "C41_adjacent_difference_refuted",
    "C41_adjacent_difference_short_partial"
   ],
   "note": "False of the code: unumeric.h adjacent_difference never advances first, so it writes past the output for every range of two or more elements (undefined behaviour for every input). The _partial theorem covers ranges of at most one element."
  },
  {
   "property": "C42",
   "status": "partial",
   "theorems": [
    "C42_power_op_refuted",
    "C42_power_op_partial"
   ],
   "note": "False of the code: power(x,n,op) starts from the integer 1 rather than op's identity, so even n is wrong when 1 is not a left identity of op. The _partial theorem covers every odd n and every op with 1 as left identity."
  },
  {
   "property": "C43",
   "status": "partial",
   "theorems": [
    "C43_align_down",
    "C43_align",
    "C43_div_ru",
    "C43_gcd",
    "C43_lcm",
    "C43_first_bit",
    "C43_next_pow2_partial",
    "C43_next_pow2_refuted",
    "C43_bswap",
    "C43_rol_partial",
    "C43_rol_zero_refuted",
    "C43_pack_type",
    "C43_pack_type_bits",
    "C43_pack_signed_refuted",
    "C43_min_max_abs_sign"
   ],
   "note": "NextPow2(1)=2, Rol/Ror by 0 (undefined shift) and pack_type of a negative value refute parts; the rest proved for all values."
  },
  {
   "property": "C44",
   "status": "proved",
   "theorems": [
    "C44_popcount32",
    "C44_popcount64"
   ],
   "note": ""
  },
  {
   "property": "C45",
   "status": "proved",
   "theorems": [
    "C45_ratio",
    "C45_ratio_add",
    "C45_ratio_subtract",
    "C45_ratio_multiply",
    "C45_ratio_divide",
    "C45_ratio_equal",
    "C45_ratio_less",
    "C45_ratio_less_equal"
   ],
   "note": ""
  },
  {
   "property": "C46",
   "status": "partial",
   "theorems": [
    "C46_transpose",
    "C46_transpose_twice",
    "C46_identity",
    "C46_identity_rectangle_refuted",
    "C46_row_column",
    "C46_product",
    "C46_vector_product",
    "C46_identity_product",
    "C46_product_assoc",
    "C46_transpose_product",
    "C46_float_transform_partial",
    "C46_float_product_partial",
    "C46_float_refuted",
    "C46_float_product_refuted",
    "C46_float_identity_partial"
   ],
   "note": "Proved for every dimension and element type (associativity and identity for commutative rings) in the generic code. False of the code for matrix<4,4,float> on x86: the SSE transform shuffles with $0x66 instead of $0x55, so columns 0 and 2 use element 2 in place of element 1. Non-square load_identity also sets elements off the diagonal. Float rounding is not modelled."
  },
  {
   "property": "C47",
   "status": "proved",
   "theorems": [
    "C47_shared_ptr",
    "C47_deleted_once"
   ],
   "note": "Every history over any number of variables; the count wraps at 2^64 owners, hence the hypothesis. Move assignment swaps (umemory.h:194), so the old object lives on in the moved-from pointer: the specification counts that as an owner. Copy assignment (umemory.h:195) does not compile and is not modelled. bad_alloc in shared_ptr (p) is not modelled."
  },
  {
   "property": "C48",
   "status": "partial",
   "theorems": [
    "C48_unique_partial",
    "C48_deleted_once",
    "C48_unique_array_refuted",
    "C48_auto_self_reset",
    "C48_unique_resource",
    "C48_resource_disposed_once"
   ],
   "note": "Holds for auto_ptr, unique_ptr, unique_resource, scope_exit. Refuted for unique_ptr<T[]> with assertions on: reset asserts p != _p without the exception for null that unique_ptr has, so moving a null pointer into a null one aborts."
  },
  {
   "property": "C49",
   "status": "proved",
   "theorems": [
    "C49_write",
    "C49_write_completes",
    "C49_read",
    "C49_read_completes",
    "C49_interruptions_invisible"
   ],
   "note": "For every schedule; a schedule that ends is a system call that never returns."
  },
  {
   "property": "C50",
   "status": "partial",
   "theorems": [
    "C50_ofstream_partial",
    "C50_completes",
    "C50_exceptions_refuted"
   ],
   "note": "Proved for every history and schedule when the stream does not throw on errors (the default). False with exceptions(failbit): bytes accepted before the error are written again. Blocks limited to 2^30 bytes; text of a formatted number is given."
  },
  {
   "property": "C51",
   "status": "partial",
   "theorems": [
    "C51_ostringstream",
    "C51_literal_refuted",
    "C51_linked_refuted",
    "C51_linked_new"
   ],
   "note": "Proved for every history from a default-constructed stream. False for ostringstream(\"literal\") (writes to the literal) and for a linked stream after str() (stale copy)."
  },
  {
   "property": "C52",
   "status": "partial",
   "theorems": [
    "C52_format_fits",
    "C52_format_partial",
    "C52_reversed_partial",
    "C52_width_refuted",
    "C52_width_zero_refuted",
    "C52_precision_refuted",
    "C52_flags_refuted"
   ],
   "note": "False of the code in general: ostringstream::fmtstring (sostream.cc:35-67) writes the digits of width and precision reversed (setw(12) asks for 21, setw(10) for zero padding to 1) and puts the flags after the width. Proved: the format always fits its 16-byte buffer, and it is the intended conversion exactly for widths/precisions that read the same in both directions without flags after a width; and the exact reversed meaning in general. What the C library then prints is not modelled."
  },
  {
   "property": "C53",
   "status": "partial",
   "theorems": [
    "C53_lines",
    "C53_gcount",
    "C53_reads_partial",
    "C53_words_partial",
    "C53_quoted_partial",
    "C53_tokens_partial",
    "C53_escape_refuted",
    "C53_get_zero_refuted",
    "C53_last_refuted"
   ],
   "note": "Proved for every text, delimiter set (fewer than 15) and sequence of requests: lines (with gcount), words of plain characters, characters into arrays; and for every sequence of words and quoted strings with escapes, separated by any delimiters (C53_tokens_partial). Refuted: an escaped backslash makes the next character escaped too (sistream.cc:158-167); get(p,0) writes a byte; the last unterminated line or word is read with failbit set."
  },
  {
   "property": "C54",
   "status": "partial",
   "theorems": [
    "C54_vector_partial",
    "C54_vector_any_size_partial",
    "C54_vector_no_moves",
    "C54_vector_char_refuted",
    "C54_vector_char_wrong_refuted"
   ],
   "note": "False of the code on x86 for element sizes that are not multiples of 4 (C21): inserting into vector<char> corrupts or crashes. Proved for every history over elements of size 4k, and for any size when insert/erase are not used or their byte moves avoid the faulty cases; total size at most 2^31 bytes (beyond: C35)."
  },
  {
   "property": "C55",
   "status": "partial",
   "theorems": [
    "C55_list_partial",
    "C55_merge_sorted",
    "C55_list_char_refuted",
    "C55_remove_own_refuted"
   ],
   "note": "all operations including sort (of qsort only the ISO C contract is assumed); False for list<char> insertion and remove(l.front())"
  },
  {
   "property": "C56",
   "status": "proved",
   "theorems": [
    "C56_equality",
    "C56_write_read",
    "C56_read_link"
   ],
   "note": "equality for all blocks; write/read round trip between any two blocks of any history, and into links to the caller's memory"
  },
  {
   "property": "C57",
   "status": "partial",
   "theorems": [
    "C57_linked_memory_partial",
    "C57_replace_refuted",
    "C57_at_refuted",
    "C57_literal_refuted"
   ],
   "note": "proved for histories that do not write in place to linked strings; refuted for equal-length replace and at()=. Memory blocks: C34's theorem"
  },
  {
   "property": "C58",
   "status": "partial",
   "theorems": [
    "C58_push_back_own_partial",
    "C58_push_back_own_refuted",
    "C58_insert_own_refuted"
   ],
   "note": "False of the code: the reference is read after the storage was reallocated or shifted. The _partial theorem covers push_back within capacity."
  },
  {
   "property": "C59",
   "status": "partial",
   "theorems": [
    "C59_no_leak_partial",
    "C59_link_refuted",
    "C59_string_no_leak_partial"
   ],
   "note": "proved with sizes up to 2^31 for memory blocks and strings; without the restriction on link it is refuted"
  },
  {
   "property": "C60",
   "status": "proved",
   "theorems": [
    "C60_length",
    "C60_wiat"
   ],
   "note": ""
  },
  {
   "property": "C61",
   "status": "partial",
   "theorems": [
    "C61_nested_partial",
    "C61_pair_in_pair_refuted",
    "C61_map_string_u64_refuted",
    "C61_nested_u64_refuted",
    "C61_map_u64_string_refuted"
   ],
   "note": "Strings have alignment 1 (uspecial.h:236). False for a pair whose half with the greater alignment is itself a pair without a half of alignment 4 (pair<pair<string,uint8_t>,uint8_t>), for pairs with 8-byte integers and for nested containers of them (four witnesses); proved for all storable types, nested to any depth, including tuples and arrays nested anywhere"
  },
  {
   "property": "C62",
   "status": "partial",
   "theorems": [
    "C62_string_read_partial",
    "C62_lead_fe_refuted",
    "C62_empty_refuted"
   ],
   "note": "False for lead bytes FE/FF (shift overflow) and for quiet streams at their end (uninitialised length); proved otherwise"
  },
  {
   "property": "C63",
   "status": "partial",
   "theorems": [
    "C63_equal_partial",
    "C63_equal_refuted"
   ],
   "note": "False of the code for the same reason as C33; one direction holds for all histories, the other for tidy ones"
  },
  {
   "property": "C64",
   "status": "partial",
   "theorems": [
    "C64_at_range",
    "C64_set_range_partial",
    "C64_set_range_refuted"
   ],
   "note": "at is right; set only adds bits (refuted), right if the range was zero. Ranges ending at a word boundary fail the assertion."
  },
  {
   "property": "C65",
   "status": "proved",
   "theorems": [
    "C65_stack_lifo"
   ],
   "note": "Proved for all histories, total size at most 2^31 bytes (C35)."
  },
  {
   "property": "C66",
   "status": "proved",
   "theorems": [
    "C66_queue_retains"
   ],
   "note": "Proved for all histories without copies (C31)."
  },
  {
   "property": "C67",
   "status": "partial",
   "theorems": [
    "C67_queue_equal_partial",
    "C67_queue_equal_refuted"
   ],
   "note": "False of the code: equality compares the vectors including the popped elements and _front. Proved when neither queue has been popped since its construction."
  },
  {
   "property": "C68",
   "status": "partial",
   "theorems": [
    "C68_vector_equality_partial",
    "C68_vector_equality_refuted"
   ],
   "note": "False of the code for elements with several representations of one value (vector<string>): equality compares the raw bytes. Proved for element types with one representation per value."
  },
  {
   "property": "C69",
   "status": "partial",
   "theorems": [
    "C69_tuple_of",
    "C69_tuple_assign",
    "C69_arithmetic",
    "C69_comparison",
    "C69_swap",
    "C69_array_init_refuted",
    "C69_array_init_partial"
   ],
   "note": "Proved except: array op= initialiser list reads N elements of a shorter list."
  },
  {
   "property": "C70",
   "status": "partial",
   "theorems": [
    "C70_packed_modular",
    "C70_packed_double",
    "C70_packed_unsigned",
    "C70_packed_signed_partial",
    "C70_psubs_refuted",
    "C70_pavg_refuted",
    "C70_unary_refuted"
   ],
   "note": "False of the code: generic psubs of signed elements does not saturate upwards, signed pavg is wrong in both versions, the one-operand operations discard their results. Proved: modular and bit operations for all types, everything for unsigned types, the MMX saturating/min/max operations for signed types. The three-operand versions do not compile when instantiated; float lanes are not modelled."
  },
  {
   "property": "C71",
   "status": "partial",
   "theorems": [
    "C71_concurrent_release_refuted",
    "C71_use_after_delete_refuted",
    "C71_never_early_partial",
    "C71_serial_partial"
   ],
   "note": "Refuted: --refs and the test for zero are two atomic operations (uatomic.h:73 returns a reference, 68 loads from it), so two threads can both see zero. Proved for every schedule: never deleted early, never leaked; and for the schedules without two overlapping releases: no undefined behaviour."
  },
  {
   "property": "C72",
   "status": "partial",
   "theorems": [
    "C72_flush_delivers_partial",
    "C72_error_refuted",
    "C72_would_block_refuted"
   ],
   "note": "Delivery proved; the error part is false: the file's error never reaches the stream state and flush doubles the buffer until bad_alloc."
  },
  {
   "property": "C73",
   "status": "partial",
   "theorems": [
    "C73_read",
    "C73_readsome_partial",
    "C73_readsome_zero_refuted"
   ],
   "note": "read proved; readsome proved for n > 0; readsome(p,0) sets eof|fail in the middle of the file."
  },
  {
   "property": "C74",
   "status": "partial",
   "theorems": [
    "C74_peek_partial",
    "C74_peek_refuted",
    "C74_ignore_partial",
    "C74_gcount_refuted",
    "C74_bool_partial",
    "C74_bool_refuted"
   ],
   "note": "get/ungetc/peek proved at every position before the end, ignore for every n and delimiter, bool before a delimiter. Refuted: at the end peek() steps back and get() gives 0, not EOF (read() falls back on get(p,1,0)); gcount() after ignore(); bool at the end of the text leaves its last character."
  },
  {
   "property": "C75",
   "status": "partial",
   "theorems": [
    "C75_numbers_partial",
    "C75_casts",
    "C75_unsigned_refuted",
    "C75_octal_refuted",
    "C75_malformed_refuted",
    "C75_overread_refuted"
   ],
   "note": "Proved for all sequences of integers in the range of long separated by default delimiters with a terminating NUL after the text, and for the conversions to the narrower types. Refuted: unsigned long >= 2^63 is clamped; 010 is octal; text that is no number is read as 0 with the stream good and not moved; strtol reads beyond a view that is not NUL-terminated. Floating point is not modelled."
  },
  {
   "property": "C76",
   "status": "partial",
   "theorems": [
    "C76_reads_partial",
    "C76_lines",
    "C76_read_refuted",
    "C76_number_refuted"
   ],
   "note": "Lines, words and characters proved for every content, buffer size and schedule without errors. Refuted: read(p,n) with unread bytes in the buffer overwrites them (ofstream.cc:141 br = oldPos); a number at the end of a portion is replaced by what follows."
  },
  {
   "property": "C77",
   "status": "partial",
   "theorems": [
    "C77_duration_cast_value",
    "C77_duration_cast_partial",
    "C77_duration_cast_refuted",
    "C77_implicit_conversion",
    "C77_no_lossy_conversion",
    "C77_units",
    "C77_round_trip",
    "C77_monotone",
    "C77_divide"
   ],
   "note": "Proved for every pair of units one of which is a multiple of the other, and as partial correctness for all; false in general: count*num overflows although the result is representable (weeks to months). Floating point representations are not modelled."
  },
  {
   "property": "C78",
   "status": "proved",
   "theorems": [
    "C78_add",
    "C78_subtract",
    "C78_compare",
    "C78_decrement",
    "C78_multiply",
    "C78_integer_round_trip"
   ],
   "note": "Stated for seconds within +-2^62, where sums cannot overflow."
  },
  {
   "property": "C79",
   "status": "proved",
   "theorems": [
    "C79_to_fraction",
    "C79_to_multiple",
    "C79_steady_clock",
    "C79_from_seconds"
   ],
   "note": "Units between (such as 1.5 s) are C81."
  },
  {
   "property": "C80",
   "status": "partial",
   "theorems": [
    "C80_increment_partial",
    "C80_increment_refuted",
    "C80_multiply_refuted",
    "C80_divide_partial",
    "C80_divide_refuted",
    "C80_negate_partial",
    "C80_negate_refuted"
   ],
   "note": "False of the code: ++ does not carry at 999999999 ns (uchrono.h:193 tests >), / adds the remainder of the seconds undivided (uchrono.h:235), unary - leaves a negative nanosecond part, * overflows early. The _partial theorems state the inputs on which each is right."
  },
  {
   "property": "C81",
   "status": "partial",
   "theorems": [
    "C81_to_other_refuted",
    "C81_from_integer_partial",
    "C81_from_integer_refuted"
   ],
   "note": "False of the code for negative counts, counts whose nanosecond product overflows, units finer than a nanosecond, and targets such as 1.5 s; _partial: non-negative counts of units of whole nanoseconds without overflow."
  },
  {
   "property": "C82",
   "status": "proved",
   "theorems": [
    "C82_reverse_walk",
    "C82_reverse_read",
    "C82_reverse_write",
    "C82_reverse_move",
    "C82_reverse_index",
    "C82_reverse_compare",
    "C82_move_walk",
    "C82_move_step",
    "C82_index_walk",
    "C82_index_read",
    "C82_index_move"
   ],
   "note": "iterators are positions in an array; a position outside [0, size] is undefined behaviour"
  },
  {
   "property": "C83",
   "status": "partial",
   "theorems": [
    "C83_difference_refuted",
    "C83_reverse_refuted",
    "C83_lower_bound_refuted",
    "C83_move_offset_refuted",
    "C83_move_begin_refuted"
   ],
   "note": "violated: the differences have the wrong sign, reverse() over reverse iterators does nothing, lower_bound over them is undefined, and + and - of move_iterator are exchanged"
  },
  {
   "property": "C84",
   "status": "proved",
   "theorems": [
    "C84_back_inserter",
    "C84_front_inserter",
    "C84_inserter"
   ],
   "note": "element size a multiple of 4 (the byte mover for others is C54's subject); below 2^31 bytes, enough memory"
  },
  {
   "property": "C85",
   "status": "proved",
   "theorems": [
    "C85_sort",
    "C85_nth_element"
   ],
   "note": "the C library's qsort is universally quantified over functions meeting the ISO C contract (QsortSpec.v)"
  },
  {
   "property": "C86",
   "status": "partial",
   "theorems": [
    "C86_function_pointer_refuted",
    "C86_stateful_refuted",
    "C86_stability_refuted"
   ],
   "note": "violated: the argument is ignored and a default constructed object used instead; a function pointer is then indeterminate; not stable for some conforming qsort"
  },
  {
   "property": "C87",
   "status": "proved",
   "theorems": [
    "C87_stable_sort",
    "C87_stable_partition"
   ],
   "note": "the pointer overload of rotate runs the byte-level model of C21; proved equal to the generic code for these sizes"
  },
  {
   "property": "C88",
   "status": "partial",
   "theorems": [
    "C88_stable_sort_char_refuted",
    "C88_stable_partition_short_refuted",
    "C88_partial_sort_copy_refuted"
   ],
   "note": "violated: stable_sort of four chars a c d b crashes at every aligned address, stable_partition of shorts and partial_sort_copy into chars or shorts crash"
  },
  {
   "property": "C89",
   "status": "proved",
   "theorems": [
    "C89_fill_16_32"
   ],
   "note": "the bound holds for every array in a position independent program; beyond it see C90"
  },
  {
   "property": "C90",
   "status": "partial",
   "theorems": [
    "C90_fill_refuted"
   ],
   "note": "violated: count %= 32 counts elements although a block is 32 bytes, so up to 24 elements past the end are overwritten"
  },
  {
   "property": "C91",
   "status": "proved",
   "theorems": [
    "C91_container_algorithms",
    "C91_sorted_searches"
   ],
   "note": "element sizes divisible by four, sizes up to 2^31 bytes, enough memory; arguments are not references into the vector (C55)"
  },
  {
   "property": "C92",
   "status": "proved",
   "theorems": [
    "C92_format",
    "C92_format_result"
   ],
   "note": "C92_format is the history theorem, C92_format_result the call (return value, bytes, terminator). The excluded cases are C93."
  },
  {
   "property": "C93",
   "status": "partial",
   "theorems": [
    "C93_empty_refuted",
    "C93_reserved_refuted",
    "C93_error_refuted"
   ],
   "note": "Refuted three ways. An empty text on a string without own storage (a new string, or one linked to a literal): resize(0) allocates nothing, so 0 >= capacity() forever. A string that reserved more than 2^30 bytes: capacity() = 2^31 is a negative int, so rv >= wcap forever. A failing conversion: rv = -1, resize(size_t(-1)) wraps in reserve and the terminator is written at data()[-1]."
  },
  {
   "property": "C94",
   "status": "proved",
   "theorems": [
    "C94_range",
    "C94_one_byte",
    "C94_suffix",
    "C94_zeros",
    "C94_value"
   ],
   "note": "C94_one_byte: every step is injective in the running value (a rotation by 7 plus a constant) and in the byte."
  },
  {
   "property": "C95",
   "status": "proved",
   "theorems": [
    "C95_open_modes",
    "C95_names"
   ],
   "note": "Proved for every integer mode; flags are those of Linux on x86. Modes without in or out are in C97."
  },
  {
   "property": "C96",
   "status": "proved",
   "theorems": [
    "C96_descriptors_own",
    "C96_descriptors_accounted",
    "C96_failed_open"
   ],
   "note": "Proved. The two conditions on the schedule are the ones C97 shows to be needed. The kernel gives the lowest free number, as POSIX asks."
  },
  {
   "property": "C97",
   "status": "partial",
   "theorems": [
    "C97_eintr_refuted",
    "C97_throw_refuted",
    "C97_name_refuted",
    "C97_ate_refuted",
    "C97_neither_refuted"
   ],
   "note": "Refuted, each part. On Linux close(2) interrupted by a signal has already released the descriptor, so the retry closes what another thread opened meanwhile. With exceptions on, a failed close while reopening leaks the new descriptor and leaves the old, released number to be closed again. Reopening clears the new name. ate becomes O_APPEND, so writing after seek(0) goes to the end. app or ate alone gives access mode 3, with which neither reading nor writing is possible."
  },
  {
   "property": "C98",
   "status": "proved",
   "theorems": [
    "C98_round_trip",
    "C98_write_crash",
    "C98_read_all"
   ],
   "note": "Proved. A crash is of the process, not of the machine. The cases excluded are in C99."
  },
  {
   "property": "C99",
   "status": "partial",
   "theorems": [
    "C99_again_refuted",
    "C99_atomic_refuted",
    "C99_string_refuted",
    "C99_linked_refuted"
   ],
   "note": "Refuted, each part: fstream::write returns a short count on EAGAIN without setting a state bit and write_file ignores the count; the file is truncated before it is written; memblock::read_file calls memblock::resize, which is not virtual, so a string gets no terminator; reserve() on a linked block keeps a size larger than the storage until the final resize, which an exception skips."
  },
  {
   "property": "C100",
   "status": "proved",
   "theorems": [
    "C100_exception_round_trip"
   ],
   "note": "Proved for total sizes below 2^32. The type name in stream_bounds_exception is written as a pointer value, so it has a meaning only in the process that wrote it."
  },
  {
   "property": "C101",
   "status": "partial",
   "theorems": [
    "C101_damaged_partial",
    "C101_frames_refuted",
    "C101_size_refuted"
   ],
   "note": "Proved with exceptions on, streams below 4 GB and a frame count of at most 64. Refuted otherwise: the count is not checked against the array of 64 frames, and with exceptions off a text size of 2^32-1 wraps the size of the allocation to 0."
  },
  {
   "property": "C102",
   "status": "proved",
   "theorems": [
    "C102_backtrace_text"
   ],
   "note": "Proved; names without zero bytes and newlines, the text below 4 GB. What happens with other descriptions is in C103."
  },
  {
   "property": "C103",
   "status": "partial",
   "theorems": [
    "C103_plus_refuted",
    "C103_long_name_refuted"
   ],
   "note": "Refuted. With a '+' before the '(' (for example a program in /usr/g++/) the length of the name is negative and is converted to an unsigned size; a name that demangles to more than 255 characters makes __cxa_demangle reallocate a local array."
  },
  {
   "property": "C104",
   "status": "proved",
   "theorems": [
    "C104_copy",
    "C104_no_leak",
    "C104_blocks"
   ],
   "note": "Proved. Assignment and exceptions without symbols are in C105."
  },
  {
   "property": "C105",
   "status": "partial",
   "theorems": [
    "C105_no_memory_refuted",
    "C105_no_symbols_refuted",
    "C105_leak_refuted"
   ],
   "note": "Refuted: operator= passes _symbols, which is null when malloc failed or there is no execinfo.h, to strdup; and does not free the old block."
  },
  {
   "property": "C106",
   "status": "proved",
   "theorems": [
    "C106_bad_alloc"
   ],
   "note": "Proved. The element sizes and the 2^31 bytes limit are those of C54."
  },
  {
   "property": "C107",
   "status": "proved",
   "theorems": [
    "C107_throwing_elements",
    "C107_no_leak"
   ],
   "note": "Proved. push_back, insert and leaks are in C108."
  },
  {
   "property": "C108",
   "status": "partial",
   "theorems": [
    "C108_push_back_refuted",
    "C108_insert_refuted",
    "C108_resize_refuted",
    "C108_constructor_refuted"
   ],
   "note": "Refuted: append_hole and insert_hole change the size before the element is constructed, so afterwards the vector contains a hole that its destructor destroys; resize and the constructors do not destroy what they have constructed."
  },
  {
   "property": "C109",
   "status": "proved",
   "theorems": [
    "C109_calls_are_atomic",
    "C109_operators",
    "C109_no_lost_update",
    "C109_tickets"
   ],
   "note": "Linearizability for all interleavings of any programs of calls; sums and tickets as corollaries. The gcc builtins are taken with the contract of the gcc manual; one memory seen by all threads."
  },
  {
   "property": "C110",
   "status": "proved",
   "theorems": [
    "C110_cas_loop_is_atomic",
    "C110_lock_free"
   ],
   "note": "Linearizability with arbitrary spurious failures; bound on the number of turns for every schedule without spurious failures."
  },
  {
   "property": "C111",
   "status": "proved",
   "theorems": [
    "C111_mutual_exclusion",
    "C111_sections_are_atomic",
    "C111_no_deadlock"
   ],
   "note": "Default memory order (seq_cst): one memory seen by all threads."
  },
  {
   "property": "C112",
   "status": "partial",
   "theorems": [
    "C112_increment_values_refuted"
   ],
   "note": "False of the code: the operators return the object, and its conversion to T loads it again (uatomic.h:68-78)."
  },
  {
   "property": "C113",
   "status": "partial",
   "theorems": [
    "C113_one_order_refuted"
   ],
   "note": "False of the code: the one order is also passed as failure order, for which the builtin forbids release and acq_rel."
  },
  {
   "property": "C114",
   "status": "proved",
   "theorems": [
    "C114_memblock_bad_alloc",
    "C114_no_leak"
   ],
   "note": "For the histories of C34 (same restrictions on positions, sizes up to 2^31 and the byte moves of C21)."
  },
  {
   "property": "C115",
   "status": "proved",
   "theorems": [
    "C115_string_bad_alloc"
   ],
   "note": "For the histories of C36/C37 (same restrictions)."
  },
  {
   "property": "C116",
   "status": "partial",
   "theorems": [
    "C116_assign_fill_refuted"
   ],
   "note": "False of the code: it clears the string before append asks for memory. C115 states what is left: an empty string."
  },
  {
   "property": "C117",
   "status": "proved",
   "theorems": [
    "C117_bytes",
    "C117_characters",
    "C117_position"
   ],
   "note": "History refinement on bytes and on characters; the byte-move hypothesis is the one of C37 (C21)."
  },
  {
   "property": "C118",
   "status": "partial",
   "theorems": [
    "C118_insert_moves_refuted",
    "C118_upper_half_refuted"
   ],
   "note": "Two refutations."
  },
  {
   "property": "C119",
   "status": "proved",
   "theorems": [
    "C119_sort_greater",
    "C119_sort_by_member",
    "C119_sort_pairs",
    "C119_find_by_member",
    "C119_sort_pointers",
    "C119_compare",
    "C119_relations",
    "C119_equality"
   ],
   "note": "proved; pointers are functions into memory, null pointers not modelled"
  },
  {
   "property": "C120",
   "status": "proved",
   "theorems": [
    "C120_pair_less",
    "C120_pair_total",
    "C120_sort_pairs",
    "C120_swap"
   ],
   "note": "proved"
  },
  {
   "property": "C121",
   "status": "partial",
   "theorems": [
    "C121_pair_order_refuted"
   ],
   "note": "refuted by a computed example"
  },
  {
   "property": "C122",
   "status": "proved",
   "theorems": [
    "C122_bound_predicates",
    "C122_find_by_member",
    "C122_compose"
   ],
   "note": "proved"
  },
  {
   "property": "C123",
   "status": "proved",
   "theorems": [
    "C123_make_pair"
   ],
   "note": "proved for a model of overload resolution over argument categories"
  },
  {
   "property": "C124",
   "status": "partial",
   "theorems": [
    "C124_make_pair_refuted"
   ],
   "note": "refuted for every variable and value"
  },
  {
   "property": "C125",
   "status": "proved",
   "theorems": [
    "C125_words",
    "C125_file_words",
    "C125_numbers"
   ],
   "note": "Texts without quotes and escapes; up to 14 delimiters as the array has room for; numbers in the long range (others are clamped by strtol)."
  },
  {
   "property": "C126",
   "status": "partial",
   "theorems": [
    "C126_words_refuted",
    "C126_numbers_refuted"
   ],
   "note": "The theorems give what is visited instead: all but the last item."
  },
  {
   "property": "C127",
   "status": "proved",
   "theorems": [
    "C127_copy",
    "C127_steps"
   ],
   "note": "Little-endian integers of any width; buffers under 2^62 bytes."
  },
  {
   "property": "C128",
   "status": "partial",
   "theorems": [
    "C128_end_refuted"
   ],
   "note": ""
  },
  {
   "property": "C129",
   "status": "partial",
   "theorems": [
    "C129_difference_refuted"
   ],
   "note": ""
  },
  {
   "property": "C130",
   "status": "proved",
   "theorems": [
    "C130_random_access",
    "C130_clear",
    "C130_readback"
   ],
   "note": "A regular file used by nobody else, not opened with O_APPEND; offsets do not overflow."
  },
  {
   "property": "C131",
   "status": "proved",
   "theorems": [
    "C131_positioned"
   ],
   "note": "No write fails or returns 0, exceptions off (the default), seeks not to before the beginning, not O_APPEND; memory may run out (bad_alloc)."
  },
  {
   "property": "C132",
   "status": "proved",
   "theorems": [
    "C132_positioned_reads"
   ],
   "note": "Words without quotes or escapes; numbers are C133."
  },
  {
   "property": "C133",
   "status": "partial",
   "theorems": [
    "C133_eof_refuted",
    "C133_cur_refuted",
    "C133_number_refuted"
   ],
   "note": "The eof theorem is for every file without a line end; the others are instances."
  },
  {
   "property": "C134",
   "status": "proved",
   "theorems": [
    "C134_putback"
   ],
   "note": "Directly after reading a character; otherwise C137. Words without quotes or escapes."
  },
  {
   "property": "C135",
   "status": "proved",
   "theorems": [
    "C135_istream",
    "C135_ostream"
   ],
   "note": "Buffers and offsets under 2^61."
  },
  {
   "property": "C136",
   "status": "partial",
   "theorems": [
    "C136_end_refuted"
   ],
   "note": "For all non-empty buffers under 2^61 bytes."
  },
  {
   "property": "C137",
   "status": "partial",
   "theorems": [
    "C137_putback_refuted"
   ],
   "note": "An instance."
  },
  {
   "property": "C138",
   "status": "proved",
   "theorems": [
    "C138_seq",
    "C138_lookup",
    "C138_edit",
    "C138_no_duplicates",
    "C138_derived"
   ],
   "note": "Proved for the template programs read as functions on type terms. The class hierarchy is a parameter of which only the order laws are assumed. Seq is proved for lists that do not end in NullType (its default arguments cannot tell)."
  },
  {
   "property": "C139",
   "status": "partial",
   "theorems": [
    "C139_nested_refuted"
   ],
   "note": "Refuted on concrete lists."
  },
  {
   "property": "C140",
   "status": "proved",
   "theorems": [
    "C140_qualifiers",
    "C140_arrays",
    "C140_references",
    "C140_void_references",
    "C140_decay",
    "C140_categories",
    "C140_composite",
    "C140_make_signed"
   ],
   "note": "Template pattern matching is modelled by functions over type terms; what 'T const' means for arrays, references and functions is the language's and modelled as such. Unions are not modelled (is_class is the compiler's __is_class)."
  },
  {
   "property": "C141",
   "status": "partial",
   "theorems": [
    "C141_signed_refuted",
    "C141_member_refuted",
    "C141_pointer_refuted",
    "C141_make_signed_refuted",
    "C141_type_traits_refuted"
   ],
   "note": "Refuted at the types named."
  },
  {
   "property": "C142",
   "status": "proved",
   "theorems": [
    "C142_limits",
    "C142_type_traits",
    "C142_qualifiers"
   ],
   "note": "x86-64 Linux sizes."
  },
  {
   "property": "C143",
   "status": "partial",
   "theorems": [
    "C143_wchar_refuted",
    "C143_digits_refuted",
    "C143_digits10_refuted",
    "C143_bool_refuted"
   ],
   "note": "Refuted; digits for every signed type, digits10 for every integer type."
  },
  {
   "property": "C144",
   "status": "proved",
   "theorems": [
    "C144_integers",
    "C144_array",
    "C144_bitset",
    "C144_long4",
    "C144_align",
    "C144_skip"
   ],
   "note": "Proved for one-dimensional element lists; an array of arrays is a nested TArr. Element types with the alignment problems of C61/C145 are excluded by 'storable'."
  },
  {
   "property": "C145",
   "status": "partial",
   "theorems": [
    "C145_array_u64_refuted"
   ],
   "note": "Violated: the alignment reported for an array is 4 whatever its elements need, so the element is written at offset 4 and the alignment assert fails; a tuple of the same element works."
  },
  {
   "property": "C146",
   "status": "proved",
   "theorems": [
    "C146_write",
    "C146_read",
    "C146_between",
    "C146_relay"
   ],
   "note": "The buffers of the two streams are assumed not to overlap."
  },
  {
   "property": "C147",
   "status": "partial",
   "theorems": [
    "C147_lost_refuted"
   ],
   "note": "Violated for every such pair of streams: write() refuses, and the input is then moved to its end unconditionally."
  },
  {
   "property": "C148",
   "status": "proved",
   "theorems": [
    "C148_insert",
    "C148_erase"
   ],
   "note": "The contents of the inserted gap are whatever was at the end of the buffer. Other offsets run into the rotation defect (C149_odd_refuted)."
  },
  {
   "property": "C149",
   "status": "partial",
   "theorems": [
    "C149_insert_refuted",
    "C149_beyond_refuted",
    "C149_erase_refuted",
    "C149_behind_refuted",
    "C149_odd_refuted"
   ],
   "note": "Violated: only start+n <= end is asserted; pos+n may pass the end (remaining() wraps, the next write is out of bounds), pos-n may wrap below 0, and erasing unwritten bytes takes n bytes from the written ones."
  },
  {
   "property": "C150",
   "status": "proved",
   "theorems": [
    "C150_memory",
    "C150_file"
   ],
   "note": "Both stream classes."
  },
  {
   "property": "C151",
   "status": "proved",
   "theorems": [
    "C151_read",
    "C151_roundtrip"
   ],
   "note": ""
  },
  {
   "property": "C152",
   "status": "proved",
   "theorems": [
    "C152_read",
    "C152_roundtrip",
    "C152_cut"
   ],
   "note": "Streams over memory; C153 is about files."
  },
  {
   "property": "C153",
   "status": "partial",
   "theorems": [
    "C153_refuted"
   ],
   "note": "Refuted: when the first portion ends inside a character, asking for the rest replaces the bytes of the first portion in the buffer."
  },
  {
   "property": "C154",
   "status": "proved",
   "theorems": [
    "C154_text"
   ],
   "note": "Default formatting flags; memory assumed sufficient."
  },
  {
   "property": "C155",
   "status": "proved",
   "theorems": [
    "C155_different",
    "C155_followed"
   ],
   "note": "C156 is about types with strings."
  },
  {
   "property": "C156",
   "status": "partial",
   "theorems": [
    "C156_refuted"
   ],
   "note": "Refuted: strings are written without quotes or escapes."
  },
  {
   "property": "C157",
   "status": "proved",
   "theorems": [
    "C157_sessions",
    "C157_constructed"
   ],
   "note": "Exceptions are off (the default of ofstream)."
  },
  {
   "property": "C158",
   "status": "proved",
   "theorems": [
    "C158_destructor"
   ],
   "note": ""
  },
  {
   "property": "C159",
   "status": "proved",
   "theorems": [
    "C159_failed_open"
   ],
   "note": ""
  },
  {
   "property": "C160",
   "status": "partial",
   "theorems": [
    "C160_reopen_refuted",
    "C160_unopened_refuted",
    "C160_close_error_refuted",
    "C160_close_keeps_refuted",
    "C160_low_descriptor_refuted",
    "C160_flush_unopened_refuted"
   ],
   "note": "False on all counts: see the five refutations."
  },
  {
   "property": "C161",
   "status": "proved",
   "theorems": [
    "C161_files"
   ],
   "note": ""
  },
  {
   "property": "C162",
   "status": "partial",
   "theorems": [
    "C162_reopen_refuted",
    "C162_old_bytes_first",
    "C162_close_refuted",
    "C162_closed_reads_nothing"
   ],
   "note": "False: the unread bytes in the buffer are delivered first (C162_old_bytes_first says exactly which) and also after close()."
  },
  {
   "property": "C163",
   "status": "partial",
   "theorems": [
    "C163_sync_value_refuted"
   ],
   "note": "False: it returns -good(), i.e. -1 exactly when the stream is good, and discards what was read ahead."
  },
  {
   "property": "C164",
   "status": "proved",
   "theorems": [
    "C164_equal",
    "C164_null",
    "C164_order",
    "C164_character"
   ],
   "note": ""
  },
  {
   "property": "C165",
   "status": "partial",
   "theorems": [
    "C165_addresses_refuted",
    "C165_null_address_refuted",
    "C165_wrong_refuted",
    "C165_null_refuted"
   ],
   "note": "False: both operators compile to a comparison of the two addresses; < and > read through a null pointer."
  },
  {
   "property": "C166",
   "status": "proved",
   "theorems": [
    "C166_plus",
    "C166_cplus"
   ],
   "note": ""
  },
  {
   "property": "C167",
   "status": "proved",
   "theorems": [
    "C167_value",
    "C167_to_string",
    "C167_round_trip",
    "C167_prefix"
   ],
   "note": "strtol and strtoul are modelled after ISO C. Floating point is not modelled."
  },
  {
   "property": "C168",
   "status": "partial",
   "theorems": [
    "C168_stoi_refuted",
    "C168_range_refuted",
    "C168_no_number_refuted",
    "C168_negative_refuted"
   ],
   "note": "False: the value is clamped, truncated, negated or 0, silently."
  },
  {
   "property": "C169",
   "status": "proved",
   "theorems": [
    "C169_compare",
    "C169_copy",
    "C169_copyto"
   ],
   "note": ""
  },
  {
   "property": "C170",
   "status": "partial",
   "theorems": [
    "C170_copyto_refuted",
    "C170_compare_refuted"
   ],
   "note": "False for n = 0 and 1, and for the length SIZE_MAX."
  },
  {
   "property": "C171",
   "status": "proved",
   "theorems": [
    "C171_compare",
    "C171_arithmetic",
    "C171_scale",
    "C171_time_point",
    "C171_cast_monotone",
    "C171_extremes"
   ],
   "note": ""
  },
  {
   "property": "C172",
   "status": "partial",
   "theorems": [
    "C172_other_order_refuted",
    "C172_overflow_refuted"
   ],
   "note": "False: with the coarser unit on the left it does not compile, and a long duration compared with one of a finer unit overflows."
  },
  {
   "property": "C173",
   "status": "proved",
   "theorems": [
    "C173_time_text",
    "C173_distinct",
    "C173_duration_text",
    "C173_units_distinct",
    "C173_named_units"
   ],
   "note": "printf is modelled after ISO C; the stream has its default settings."
  },
  {
   "property": "C174",
   "status": "partial",
   "theorems": [
    "C174_negative_refuted",
    "C174_sign_refuted",
    "C174_min_refuted",
    "C174_min_is"
   ],
   "note": "False for every negative time with a fraction; min() is nearly a second above the least time."
  },
  {
   "property": "C175",
   "status": "proved",
   "theorems": [
    "C175_mappings",
    "C175_errors",
    "C175_nonblock",
    "C175_clear"
   ],
   "note": ""
  },
  {
   "property": "C176",
   "status": "partial",
   "theorems": [
    "C176_read_only_refuted",
    "C176_bad_link_refuted",
    "C176_lost_mapping_refuted",
    "C176_terminate_refuted"
   ],
   "note": "False on all counts."
  },
  {
   "property": "C177",
   "status": "proved",
   "theorems": [
    "C177_last_wins",
    "C177_exclusive",
    "C177_conversion",
    "C177_settings",
    "C177_old_flags"
   ],
   "note": ""
  },
  {
   "property": "C178",
   "status": "partial",
   "theorems": [
    "C178_setf_result_refuted",
    "C178_mask_refuted",
    "C178_no_effect_refuted"
   ],
   "note": "False on all counts."
  },
  {
   "property": "C179",
   "status": "proved",
   "theorems": [
    "C179_one_owner",
    "C179_next_call"
   ],
   "note": "x86, where xchgl is one step; sequentially consistent memory."
  },
  {
   "property": "C180",
   "status": "partial",
   "theorems": [
    "C180_not_atomic_refuted"
   ],
   "note": "False: the version for processors other than x86 is a load and a store."
  },
  {
   "property": "C181",
   "status": "proved",
   "theorems": [
    "C181_linked",
    "C181_link_and_drop",
    "C181_array_untouched",
    "C181_out_of_memory",
    "C181_releases_owned"
   ],
   "note": "Built-in element types (destroy does nothing for them). The array is larger than the linked part; see C182 for the case without a byte to spare, and for reserve of less than the linked size."
  },
  {
   "property": "C182",
   "status": "partial",
   "theorems": [
    "C182_pop_back_refuted",
    "C182_erase_refuted",
    "C182_released_twice_refuted",
    "C182_reserve_refuted",
    "C182_whole_array_refuted"
   ],
   "note": "All four fail. pop_back and erase destroy the caller's objects; after push_back the vector destroys bitwise copies of objects the caller still has; reserve (1) on a linked vector of three ints leaves size() 3 over a four byte block; a vector linked to the whole of an array reads one byte behind it when it first grows."
  },
  {
   "property": "C183",
   "status": "proved",
   "theorems": [
    "C183_sets",
    "C183_maps",
    "C183_own_elements",
    "C183_own_pairs",
    "C183_own_multiset_erase"
   ],
   "note": "The order of the elements in the specification means nothing; the k-th element is the one with k smaller ones."
  },
  {
   "property": "C184",
   "status": "partial",
   "theorems": [
    "C184_multiset_own_partial",
    "C184_multiset_own_refuted",
    "C184_multimap_own_refuted"
   ],
   "note": "False whenever the insertion reallocates: the reference dangles. True while the capacity suffices (the position is always behind the element)."
  },
  {
   "property": "C185",
   "status": "proved",
   "theorems": [
    "C185_position",
    "C185_difference"
   ],
   "note": "For b at a longer character see C186."
  },
  {
   "property": "C186",
   "status": "partial",
   "theorems": [
    "C186_difference_refuted"
   ],
   "note": "False: one too many whenever b is at a character of more than one byte and a is before it."
  },
  {
   "property": "C187",
   "status": "proved",
   "theorems": [
    "C187_any_bytes",
    "C187_stray_bytes"
   ],
   "note": "FE and FF: C188."
  },
  {
   "property": "C188",
   "status": "partial",
   "theorems": [
    "C188_fe_refuted",
    "C188_truncated_refuted",
    "C188_stream_cut_refuted"
   ],
   "note": "False: FE or FF starts a sequence of 7 or 8 bytes whose value does not fit into a wchar_t (signed shift overflow), and a character cut off by the end of the string is not visited at all."
  },
  {
   "property": "C189",
   "status": "proved",
   "theorems": [
    "C189_read",
    "C189_steps"
   ],
   "note": "With exceptions on, reaching the end throws (C128)."
  },
  {
   "property": "C190",
   "status": "proved",
   "theorems": [
    "C190_all",
    "C190_short"
   ],
   "note": "Positions are multiples of the width when assertions are on."
  },
  {
   "property": "C191",
   "status": "proved",
   "theorems": [
    "C191_write",
    "C191_roundtrip"
   ],
   "note": "Characters from 2^31 on: C03."
  },
  {
   "property": "C192",
   "status": "proved",
   "theorems": [
    "C192_for_each",
    "C192_generate",
    "C192_transform",
    "C192_transform2",
    "C192_accumulate",
    "C192_order"
   ],
   "note": "The function object does not touch the arrays except through its argument."
  },
  {
   "property": "C193",
   "status": "proved",
   "theorems": [
    "C193_count_find",
    "C193_filters"
   ],
   "note": "replace_copy_if has no return statement (undefined)."
  },
  {
   "property": "C194",
   "status": "proved",
   "theorems": [
    "C194_copy",
    "C194_move",
    "C194_fill",
    "C194_default_value",
    "C194_destroy"
   ],
   "note": "Pod types: default construction gives zero bytes and cannot throw."
  },
  {
   "property": "C195",
   "status": "partial",
   "theorems": [
    "C195_not_undone_refuted",
    "C195_recoverable_partial"
   ],
   "note": "False: the objects stay alive and the caller cannot tell how many there are. A caller who does know can destroy them (C195_recoverable_partial)."
  },
  {
   "property": "C196",
   "status": "partial",
   "theorems": [
    "C196_without_lookup_partial",
    "C196_multiset_without_find_partial",
    "C196_set_refuted",
    "C196_multiset_refuted"
   ],
   "note": "False for find and set::erase(v), which ask operator== (uset.h:49, umultiset.h:51): with an order that ignores case insert(\"A\") refuses because \"a\" is there, find(\"A\") is end() and erase(\"A\") does nothing. Everything else is right (the _partial theorems). map and multimap use Comp throughout (C13, C14)."
  },
  {
   "property": "C197",
   "status": "proved",
   "theorems": [
    "C197_set",
    "C197_map"
   ],
   "note": "pop_back, front and back need a container that is not empty."
  },
  {
   "property": "C198",
   "status": "proved",
   "theorems": [
    "C198_find_data"
   ],
   "note": ""
  },
  {
   "property": "C199",
   "status": "partial",
   "theorems": [
    "C199_sized_refuted",
    "C199_store_refuted"
   ],
   "note": "False: set(n) holds n equal default elements (n >= 2) and count() says n; begin() of a non-const set gives a plain T*, front(), back(), at() and operator[] plain references, so a store puts it out of order; then find misses elements that are there."
  },
  {
   "property": "C200",
   "status": "partial",
   "theorems": [
    "C200_own_storage_partial",
    "C200_assign_owns_partial",
    "C200_append_owns_partial",
    "C200_array_written_refuted",
    "C200_array_gone_refuted"
   ],
   "note": "True of every string that has its own storage, in particular after assign (p, n) and append (the _partial theorems). False of string (const char*) and of copies of such a string: they link to the array, so the text changes with the array and reading it after the array is gone is undefined."
  },
  {
   "property": "C201",
   "status": "proved",
   "theorems": [
    "C201_exactly_once",
    "C201_finally",
    "C201_reverse_order",
    "C201_no_terminate"
   ],
   "note": "The loops have fixed counts and the programs no conditions: a run of a program with conditions is a run of one without. The order of destruction is the language's."
  },
  {
   "property": "C202",
   "status": "partial",
   "theorems": [
    "C202_destructor_refuted",
    "C202_reset_refuted"
   ],
   "note": "False: the condition is noexcept (declval<F>()), which asks whether making an F throws, not whether calling one does, and is always true; the program ends in std::terminate."
  },
  {
   "property": "C203",
   "status": "proved",
   "theorems": [
    "C203_results",
    "C203_copies",
    "C203_swap",
    "C203_registers"
   ],
   "note": "Each asm statement is a list of instructions of a small machine plus its clobber list."
  },
  {
   "property": "C204",
   "status": "partial",
   "theorems": [
    "C204_packop_refuted",
    "C204_identity_refuted",
    "C204_identity_lanes_refuted",
    "C204_identity_partial"
   ],
   "note": "Refuted, with the identity proved for a register holding 1 0 0 0."
  },
  {
   "property": "C205",
   "status": "partial",
   "theorems": [
    "C205_fill_refuted",
    "C205_product_refuted",
    "C205_fill_partial",
    "C205_product_partial",
    "C205_matrix_partial",
    "C205_columns_partial",
    "C205_values_refuted"
   ],
   "note": "Refuted; the fill with quiet gaps is proved by induction on the number of blocks."
  },
  {
   "property": "C206",
   "status": "proved",
   "theorems": [
    "C206_fill",
    "C206_replace_by_own",
    "C206_replace_if_by_own",
    "C206_new_object",
    "C206_vector",
    "C206_vector_insert",
    "C206_vector_prefix"
   ],
   "note": "Unlinked vectors; element sizes that are multiples of 4 for insert (see C21, C54)."
  },
  {
   "property": "C207",
   "status": "partial",
   "theorems": [
    "C207_compound_refuted",
    "C207_normalise_refuted",
    "C207_compound_partial",
    "C207_replace_refuted",
    "C207_resize_refuted",
    "C207_assign_refuted",
    "C207_assign_range_refuted",
    "C207_insert_refuted",
    "C207_insert_moved_refuted"
   ],
   "note": "Exact results are proved for every case; C207_compound_partial says exactly when compound assignment is right. What is missing is the claim itself, which is false."
  },
  {
   "property": "C208",
   "status": "proved",
   "theorems": [
    "C208_message",
    "C208_caller_format",
    "C208_per_cent",
    "C208_copy_throws",
    "C208_no_memory",
    "C208_no_argument",
    "C208_copy",
    "C208_copy_exists",
    "C208_system",
    "C208_file"
   ],
   "note": "That string::format yields the text of its format is C92; strerror is an arbitrary function."
  },
  {
   "property": "C209",
   "status": "partial",
   "theorems": [
    "C209_operation_refuted",
    "C209_overwritten_refuted",
    "C209_what_refuted",
    "C209_format_refuted"
   ],
   "note": "Exact results for every argument; the read failure for a concrete exception."
  },
  {
   "property": "C210",
   "status": "proved",
   "theorems": [
    "C210_alloc",
    "C210_bounds"
   ],
   "note": "__cxa_demangle is an arbitrary function; printf as in XTextModel."
  },
  {
   "property": "C211",
   "status": "partial",
   "theorems": [
    "C211_alloc_refuted",
    "C211_offset_refuted",
    "C211_long_type_refuted"
   ],
   "note": "Exact wrong values for every size."
  },
  {
   "property": "C212",
   "status": "proved",
   "theorems": [
    "C212_equality",
    "C212_value",
    "C212_equivalent",
    "C212_standard",
    "C212_distinct"
   ],
   "note": "errno numbers of Linux, x86."
  },
  {
   "property": "C213",
   "status": "partial",
   "theorems": [
    "C213_not_supported_refuted",
    "C213_category_refuted"
   ],
   "note": ""
  },
  {
   "property": "C214",
   "status": "proved",
   "theorems": [
    "C214_min_max",
    "C214_clamp",
    "C214_minmax_two",
    "C214_minmax_list",
    "C214_vector_element",
    "C214_mixed_types"
   ],
   "note": "minmax(a,b,comp) of two variables does not compile: an identical overload is deleted."
  },
  {
   "property": "C215",
   "status": "partial",
   "theorems": [
    "C215_narrow_refuted",
    "C215_sign_refuted",
    "C215_ties_refuted"
   ],
   "note": ""
  },
  {
   "property": "C216",
   "status": "proved",
   "theorems": [
    "C216_nearest",
    "C216_round",
    "C216_pround",
    "C216_pround4"
   ],
   "note": "Infinities and NaN are not modelled; default rounding mode."
  },
  {
   "property": "C217",
   "status": "partial",
   "theorems": [
    "C217_unsigned_refuted",
    "C217_double_refuted",
    "C217_double_overflow_refuted",
    "C217_round_partial"
   ],
   "note": ""
  },
  {
   "property": "C218",
   "status": "proved",
   "theorems": [
    "C218_move_later"
   ],
   "note": "Element sizes that are multiples of four (others: C55)."
  },
  {
   "property": "C219",
   "status": "partial",
   "theorems": [
    "C219_merge_refuted",
    "C219_move_earlier_refuted",
    "C219_splice_refuted"
   ],
   "note": ""
  },
  {
   "property": "C220",
   "status": "proved",
   "theorems": [
    "C220_programs"
   ],
   "note": "Element sizes that are multiples of four (others: C55). Sources of the two-vector operations are distinct from the target except where stated (own ranges: C181 ff.)."
  },
  {
   "property": "C221",
   "status": "proved",
   "theorems": [
    "C221_blocks",
    "C221_strings",
    "C221_vectors",
    "C221_growth"
   ],
   "note": ""
  },
  {
   "property": "C222",
   "status": "partial",
   "theorems": [
    "C222_characters_refuted",
    "C222_linear_refuted",
    "C222_reserved_partial"
   ],
   "note": ""
  },
  {
   "property": "C223",
   "status": "proved",
   "theorems": [
    "C223_program",
    "C223_complete",
    "C223_at_once",
    "C223_only_reachable"
   ],
   "note": ""
  },
  {
   "property": "C224",
   "status": "partial",
   "theorems": [
    "C224_move_refuted",
    "C224_lost_for_good",
    "C224_pop_refuted",
    "C224_cycle_refuted"
   ],
   "note": "umemory.h:194: operator= (shared_ptr&&) swaps, so the moved-from pointer keeps the old object; popping a list by head = move(head->next) leaks the node."
  },
  {
   "property": "C225",
   "status": "proved",
   "theorems": [
    "C225_search",
    "C225_find_first_of",
    "C225_lexicographical_compare",
    "C225_includes",
    "C225_set_operations"
   ],
   "note": ""
  },
  {
   "property": "C226",
   "status": "partial",
   "theorems": [
    "C226_found_refuted",
    "C226_sets_refuted"
   ],
   "note": "ualgo.h:488-588: the default comparison is equal_to/less of the first range's value type, so the elements of the second range (or the value of search_n) are narrowed first: find_first_of on bytes {66,65} with ints {321} finds the 65."
  },
  {
   "property": "C227",
   "status": "proved",
   "theorems": [
    "C227_run",
    "C227_as_if_absent"
   ],
   "note": ""
  },
  {
   "property": "C228",
   "status": "partial",
   "theorems": [
    "C228_leaked_refuted"
   ],
   "note": "umemory.h:177, 187, 211: when new container(p) throws, p is not deleted; make_shared leaks the object it just made."
  },
  {
   "property": "C229",
   "status": "partial",
   "theorems": [
    "C229_shared_partial",
    "C229_unique_partial",
    "C229_auto_refuted"
   ],
   "note": "umemory.h:54: auto_ptr::operator< returns p._p < _p, so a < b holds when a's address is the higher."
  },
  {
   "property": "C230",
   "status": "proved",
   "theorems": [
    "C230_product",
    "C230_clobbers"
   ],
   "note": ""
  },
  {
   "property": "C231",
   "status": "proved",
   "theorems": [
    "C231_c_string",
    "C231_text"
   ],
   "note": ""
  },
  {
   "property": "C232",
   "status": "partial",
   "theorems": [
    "C232_moved_refuted"
   ],
   "note": "ustring.h:221 and memblock.h:53: the move constructor leaves s with a null pointer, not linked to \"\"; ustring.h:277 asserts end(), so (char*) s aborts, and (const char*) s is null."
  },
  {
   "property": "C233",
   "status": "proved",
   "theorems": [
    "C233_new",
    "C233_assign",
    "C233_swap",
    "C233_op"
   ],
   "note": ""
  },
  {
   "property": "C234",
   "status": "proved",
   "theorems": [
    "C234_seek_and_str"
   ],
   "note": ""
  },
  {
   "property": "C235",
   "status": "partial",
   "theorems": [
    "C235_seek_back_refuted",
    "C235_str_changes_refuted",
    "C235_end_refuted"
   ],
   "note": "sostream.h:70-71: flush() resizes the buffer to pos(), so str() after seekp (0) is \"\" and the byte there is overwritten with 0; sostream.cc:121-139 and 160-171: vformat() asks overflow() for one byte more than the text, so seekp (0, ios_base::end) goes one place too far."
  },
  {
   "property": "C236",
   "status": "proved",
   "theorems": [
    "C236_set_str"
   ],
   "note": ""
  },
  {
   "property": "C237",
   "status": "proved",
   "theorems": [
    "C237_memory_text"
   ],
   "note": ""
  },
  {
   "property": "C238",
   "status": "partial",
   "theorems": [
    "C238_eof_stays_refuted"
   ],
   "note": "mistream.h:181-206: seek () and seekg () set only the position; eofbit and failbit set by a read at the end (mistream.cc:69 istream::underflow) stay, good () is false with characters remaining."
  },
  {
   "property": "C239",
   "status": "partial",
   "theorems": [
    "C239_str_partial",
    "C239_str_refuted",
    "C239_end_refuted"
   ],
   "note": "sistream.h:55: str () links the result to the stream's memory; ustring.h:268-272: operator const_pointer asserts that the byte after the text is 0. With a stream over a memory block without terminator the assert fails or the read is out of bounds."
  },
  {
   "property": "C240",
   "status": "partial",
   "theorems": [
    "C240_writes_refuted",
    "C240_gone_refuted",
    "C240_text_refuted"
   ],
   "note": "sostream.h:19-88 with memlink.h:44: the implicit copy constructor copies the view (pointer and size) of the original and deep-copies _buffer without relinking the view to it. os2 (os1); os2 << 'x' writes to os1's buffer; after ~os1 to freed memory. The string copy takes only _buffer.size () bytes, which str () and flush () had set to an earlier position."
  },
  {
   "property": "C241",
   "status": "partial",
   "theorems": [
    "C241_swap_refuted",
    "C241_both_refuted"
   ],
   "note": "mostream.h:80: swap () exchanges the memlink and _pos; ostringstream does not override it, so _buffer, _flags and the state stay where they were."
  },
  {
   "property": "C242",
   "status": "partial",
   "theorems": [
    "C242_closes_refuted",
    "C242_second_refuted",
    "C242_other_refuted"
   ],
   "note": "fstream.h:23-68 declares a destructor that closes, but neither forbids nor defines copying: fstream g (f) shares _fd; both destructors close it (fstream.cc:48-54), the second one asserts or closes a stranger's descriptor. ofstream and ifstream contain an fstream and copy it likewise."
  },
  {
   "property": "C243",
   "status": "proved",
   "theorems": [
    "C243_moved"
   ],
   "note": ""
  },
  {
   "property": "C244",
   "status": "partial",
   "theorems": [
    "C244_moved_from_refuted"
   ],
   "note": "memlink.h:44: memlink has a copy constructor and so no move constructor; the implicit move of ostringstream leaves the view and position of the source as they were, while _buffer (ustring.h:221) is taken from it."
  },
  {
   "property": "C245",
   "status": "partial",
   "theorems": [
    "C245_twice_refuted",
    "C245_garbage_refuted",
    "C245_every_text_refuted"
   ],
   "note": "ofstream.h:18-43 declares a virtual destructor that flushes, but no copy constructor: a copy of cout with \"hi\" pending prints it twice; with a number pending the second flush prints a zero byte and the first digit, because ostream::erase (mistream.cc:119) of the copy rotated the original's buffer."
  },
  {
   "property": "C246",
   "status": "proved",
   "theorems": [
    "C246_names"
   ],
   "note": ""
  },
  {
   "property": "C247",
   "status": "partial",
   "theorems": [
    "C247_empty_refuted"
   ],
   "note": "strmsize.h:88: min(uoff_t(v),uoff_t(nNames-1)) with nNames 0 is v itself: Names[v] is read from an empty table."
  }
 ]
}