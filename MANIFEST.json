{
 "claims": [
  {
   "property": "C01",
   "status": "proved",
   "theorems": [
    "C01_builder",
    "C01_builder_bits"
   ],
   "note": "Any number of builders, any std::vector growth. Sizes below 2^64-63; append to itself excluded; reserve in the middle of a word excluded (C41_refuted)."
  },
  {
   "property": "C02",
   "status": "proved",
   "theorems": [
    "C02_range"
   ],
   "note": ""
  },
  {
   "property": "C03",
   "status": "proved",
   "theorems": [
    "C03_get_bits",
    "C03_get_bits_strict",
    "C03_get_word",
    "C03_get_word56"
   ],
   "note": "get_word56 wherever its 8 byte load is in bounds."
  },
  {
   "property": "C04",
   "status": "proved",
   "theorems": [
    "C04_predecessor",
    "C04_successor"
   ],
   "note": ""
  },
  {
   "property": "C05",
   "status": "partial",
   "theorems": [
    "C05_enumerator_partial",
    "C05_refuted",
    "C05_exact_refuted",
    "C05_zero_word"
   ],
   "note": "Holds for every call history except skip_zeros directly after take(64), where it is refuted: take(64) leaves the consumed word in m_buf. C05_exact_refuted says exactly what is returned then and afterwards; C05_zero_word shows that nothing goes wrong when the word taken was zero."
  },
  {
   "property": "C06",
   "status": "partial",
   "theorems": [
    "C06_unary_enumerator_partial",
    "C06_refuted",
    "C06_exact_refuted",
    "C06_off_by_one_refuted"
   ],
   "note": "Holds for every call history except skip0 directly after next, where it is refuted: the one just consumed is counted as a zero. C06_exact_refuted gives the exact results of all histories, including those."
  },
  {
   "property": "C07",
   "status": "proved",
   "theorems": [
    "C07_popcount",
    "C07_byte_counts",
    "C07_bytes_sum"
   ],
   "note": ""
  },
  {
   "property": "C08",
   "status": "proved",
   "theorems": [
    "C08_select_in_word",
    "C08_select_in_word_precondition",
    "C08_table"
   ],
   "note": "Both builds (popcnt instruction and portable); below-precondition theorem states the assert fires otherwise."
  },
  {
   "property": "C09",
   "status": "proved",
   "theorems": [
    "C09_reverse"
   ],
   "note": ""
  },
  {
   "property": "C10",
   "status": "proved",
   "theorems": [
    "C10_msb",
    "C10_lsb",
    "C10_zero",
    "C10_bit_position",
    "C10_same_msb"
   ],
   "note": ""
  },
  {
   "property": "C11",
   "status": "partial",
   "theorems": [
    "C11_leq_step_8_partial",
    "C11_uleq_step_8_partial",
    "C11_zcompare_step_8",
    "C11_uleq_step_9",
    "C11_leq_step_8_refuted",
    "C11_uleq_step_8_refuted",
    "C11_leq_exact_refuted",
    "C11_uleq_exact_refuted",
    "C11_uleq_step_9_all"
   ],
   "note": "zcompare_step_8 and uleq_step_9 are proved for all words. Refuted: leq_step_8 and uleq_step_8 are proved in lanes whose top bits agree; in the other lanes their exact results are proved, and exactly when these differ from the comparison of signed and of unsigned bytes."
  },
  {
   "property": "C12",
   "status": "proved",
   "theorems": [
    "C12_rank"
   ],
   "note": "Both hint flags."
  },
  {
   "property": "C13",
   "status": "proved",
   "theorems": [
    "C13_select"
   ],
   "note": "Both hint flags."
  },
  {
   "property": "C14",
   "status": "proved",
   "theorems": [
    "C14_inverse"
   ],
   "note": ""
  },
  {
   "property": "C15",
   "status": "proved",
   "theorems": [
    "C15_darray",
    "C15_classes"
   ],
   "note": "For vectors of fewer than 2^63 bits (positions are stored as int64_t)."
  },
  {
   "property": "C16",
   "status": "proved",
   "theorems": [
    "C16_darray64"
   ],
   "note": ""
  },
  {
   "property": "C17",
   "status": "proved",
   "theorems": [
    "C17_select",
    "C17_bits"
   ],
   "note": "Any builder(n, m) with n < 2^64, m < 2^61 (n < 2^62 if m = 0) and any non-decreasing sequence of at most m values <= n; and any bit_vector_builder holding fewer than 2^61 bits (including rank and operator[] on it)."
  },
  {
   "property": "C18",
   "status": "proved",
   "theorems": [
    "C18_rank"
   ],
   "note": "rank(pos) for pos < size() always, for pos = size() when the value size() was not pushed (C49 shows the exception); membership, predecessor1 and successor1 whenever the answer exists."
  },
  {
   "property": "C19",
   "status": "proved",
   "theorems": [
    "C19_delta"
   ],
   "note": ""
  },
  {
   "property": "C20",
   "status": "proved",
   "theorems": [
    "C20_enumerator"
   ],
   "note": "Every start i < num_ones() and every number of calls up to the end. Starting at num_ones() trips an assertion in darray select unless num_ones() = 0."
  },
  {
   "property": "C21",
   "status": "proved",
   "theorems": [
    "C21_list"
   ],
   "note": "Sum below 2^64 - 1, fewer than 2^61 integers."
  },
  {
   "property": "C22",
   "status": "proved",
   "theorems": [
    "C22_compressed_list"
   ],
   "note": "Fewer than 2^57 integers, so that the code bits are indexable."
  },
  {
   "property": "C23",
   "status": "proved",
   "theorems": [
    "C23_gamma_vector"
   ],
   "note": "Fewer than 2^57 integers, so that the code bits are indexable."
  },
  {
   "property": "C24",
   "status": "proved",
   "theorems": [
    "C24_gamma_bit_vector"
   ],
   "note": "Fewer than 2^57 integers, so that the code bits are indexable; any sequence of next and skip calls staying inside the list."
  },
  {
   "property": "C25",
   "status": "proved",
   "theorems": [
    "C25_vbyte"
   ],
   "note": ""
  },
  {
   "property": "C26",
   "status": "proved",
   "theorems": [
    "C26_nibble_vector"
   ],
   "note": ""
  },
  {
   "property": "C27",
   "status": "partial",
   "theorems": [
    "C27_nat_int_iff_partial",
    "C27_int_nat_iff_partial",
    "C27_high_refuted",
    "C27_values",
    "C27_int_nat_partial",
    "C27_nat_int_partial",
    "C27_overflow_refuted",
    "C27_wrap_refuted"
   ],
   "note": "Refuted: int2nat overflows a signed multiplication for |x| >= 2^62, so no number from 2^63 - 1 on comes back from nat2int, and nat2int(2^64-1) is 0. Proved inverse exactly for -2^62 < x < 2^62 and n < 2^63 - 1 (C27_nat_int_iff_partial, C27_int_nat_iff_partial), with all values of both functions."
  },
  {
   "property": "C28",
   "status": "proved",
   "theorems": [
    "C28_find_close",
    "C28_unique"
   ],
   "note": "Also for sequences that leave parentheses open. Shift by 64 at word boundaries may give any value; see C42."
  },
  {
   "property": "C29",
   "status": "proved",
   "theorems": [
    "C29_find_open",
    "C29_unique"
   ],
   "note": "As C28."
  },
  {
   "property": "C30",
   "status": "proved",
   "theorems": [
    "C30_enclose"
   ],
   "note": "As C28."
  },
  {
   "property": "C31",
   "status": "proved",
   "theorems": [
    "C31_inverse"
   ],
   "note": "As C28."
  },
  {
   "property": "C32",
   "status": "proved",
   "theorems": [
    "C32_excess"
   ],
   "note": "For the sequences the constructor accepts: no prefix has a negative excess."
  },
  {
   "property": "C33",
   "status": "partial",
   "theorems": [
    "C33_excess_rmq_partial",
    "C33_overflow_refuted"
   ],
   "note": "Proved for every balanced sequence and for every other accepted sequence whose depth stays below 2^31-64 (size below 2^31, signed char). Refuted beyond: padding a word overflows excess_t when the depth comes within 64 of 2^31."
  },
  {
   "property": "C34",
   "status": "proved",
   "theorems": [
    "C34_rmq"
   ],
   "note": "Any element type and strict weak order; platforms where plain char is signed (see C51); 2n+2 < 2^31. All assertions of rmq hold."
  },
  {
   "property": "C35",
   "status": "proved",
   "theorems": [
    "C35_topk",
    "C35_ranking_unique",
    "C35_comparator"
   ],
   "note": "Any value type whose < is a strict weak order and whose == is its incomparability; any std::push_heap/pop_heap meeting the standard; 2n+2 < 2^31, char signed. All assertions hold. The order of the entries is unique."
  },
  {
   "property": "C36",
   "status": "proved",
   "theorems": [
    "C36_roundtrip",
    "C36_members",
    "C36_bits",
    "C36_built_bits",
    "C36_built_trees",
    "C36_built_ef",
    "C36_built_gamma",
    "C36_vectors"
   ],
   "note": "Any structure whose members are values of their C++ types and whose image is below 2^64 bytes; for the structures the constructors build this needs no assumption (C36_built_*); misaligned reads allowed (see C52). Mapped vectors are read at once, as with the warmup flag."
  },
  {
   "property": "C37",
   "status": "proved",
   "theorems": [
    "C37_size_of"
   ],
   "note": "Same structures as C36."
  },
  {
   "property": "C38",
   "status": "proved",
   "theorems": [
    "C38_buffer_lines"
   ],
   "note": "Positions are offsets; that the address m_end + 1 is formed after a last line without newline is not counted as undefined behaviour."
  },
  {
   "property": "C39",
   "status": "partial",
   "theorems": [
    "C39_last_line_refuted",
    "C39_getline_partial",
    "C39_eof_partial",
    "C39_tail_refuted",
    "C39_tail_doubled_refuted"
   ],
   "note": "Refuted: a last line without newline is returned with its last chunk doubled. Proved for every newline-terminated line and at the end of the file; the result for an unterminated last line of any length is determined."
  },
  {
   "property": "C40",
   "status": "partial",
   "theorems": [
    "C40_last_line_refuted",
    "C40_lines_partial",
    "C40_lines_refuted"
   ],
   "note": "Refuted: an empty string is visited first. Proved: after it, exactly the lines of every newline-terminated file, in order; a last line without newline follows with its last chunk doubled."
  },
  {
   "property": "C41",
   "status": "partial",
   "theorems": [
    "C41_builder_memory_partial",
    "C41_refuted",
    "C41_exact_refuted",
    "C41_portable",
    "C41_histories_refuted"
   ],
   "note": "Holds for every call history in which reserve is not called with a partly filled last word; refuted otherwise (m_cur_word dangles after the reallocation). C41_exact_refuted gives the exact threshold: a reserve beyond the capacity with a partly filled last word makes the next push_back or append_bits undefined, any smaller one changes nothing. C41_portable describes exactly the histories that are defined for every allocation policy; C41_histories_refuted shows that all others are undefined when std::vector allocates just what it needs."
  },
  {
   "property": "C42",
   "status": "partial",
   "theorems": [
    "C42_get_bits_refuted",
    "C42_find_close_refuted",
    "C42_find_open_refuted",
    "C42_bit_vector_partial",
    "C42_bp_vector_partial"
   ],
   "note": "Refuted: get_bits(pos, 64), find_close at positions 63 mod 64 and find_open at positions 0 mod 64 evaluate a shift by 64. For bit_vector and bp_vector every other in-contract query has a defined outcome (C42_*_partial); for the remaining structures C12 to C24 and C33 to C35 give the value of each query, hence a defined outcome."
  },
  {
   "property": "C43",
   "status": "partial",
   "theorems": [
    "C43_cartesian_refuted",
    "C43_sizes_partial",
    "C43_gamma_refuted",
    "C43_lists_refuted",
    "C43_topk_partial"
   ],
   "note": "Refuted: default gamma_vector, gamma_bit_vector and elias_fano_compressed_list report size 2^64-1 (and elias_fano_list sum 2^64-1). So does a default cartesian_tree. Proved for bit_vector, rs_bit_vector, elias_fano, elias_fano_list, nibble_vector, topk_vector."
  },
  {
   "property": "C44",
   "status": "partial",
   "theorems": [
    "C44_long_refuted",
    "C44_witness_refuted"
   ],
   "note": "Refuted: every sequence of 2^31 to 2^32-1 parentheses trips an assertion in build_min_tree, whatever its depth; witness of depth 1. Proved below 2^31 (C28)."
  },
  {
   "property": "C45",
   "status": "proved",
   "theorems": [
    "C45_history",
    "C45_all_released",
    "C45_dead"
   ],
   "note": "Histories over any number of vectors with constructors, destruction, swap, clear, steal, assign and mapping; self-assignment is excluded (C53). Allocation does not fail; mapped files stay mapped."
  },
  {
   "property": "C46",
   "status": "proved",
   "theorems": [
    "C46_rs_space",
    "C46_ef_space",
    "C46_vbyte_space"
   ],
   "note": "elias_fano low bits: l per value pushed."
  },
  {
   "property": "C47",
   "status": "proved",
   "theorems": [
    "C47_lane_comparisons"
   ],
   "note": "The lanes bp_vector compares have both top bits clear."
  },
  {
   "property": "C48",
   "status": "partial",
   "theorems": [
    "C48_empty_range_partial",
    "C48_refuted"
   ],
   "note": "Refuted for the default-constructed vector (num_ones reads before its empty array); proved for the one built from the empty range."
  },
  {
   "property": "C49",
   "status": "partial",
   "theorems": [
    "C49_rank_at_size_refuted",
    "C49_exact_refuted"
   ],
   "note": "Refuted, and exactly: rank(size()) is wrong precisely when the value size() was pushed (C49_exact_refuted); witness: 1, 4 in elias_fano_builder(4, 2)."
  },
  {
   "property": "C50",
   "status": "partial",
   "theorems": [
    "C50_next_at_end_refuted",
    "C50_gamma_vector_refuted",
    "C50_gamma_bit_vector_refuted"
   ],
   "note": "Refuted for every list: the assertion admits m_idx = size(), and next() at the end always reads outside the high bit vector."
  },
  {
   "property": "C51",
   "status": "partial",
   "theorems": [
    "C51_char_refuted"
   ],
   "note": "Refuted: m_fwd_exc is an array of plain char; with unsigned char excess_rmq misses the minimum."
  },
  {
   "property": "C52",
   "status": "partial",
   "theorems": [
    "C52_exact_refuted",
    "C52_darray_refuted",
    "C52_elias_fano_refuted",
    "C52_bp_vector_refuted",
    "C52_trees_refuted",
    "C52_gamma_vector_refuted",
    "C52_gamma_bit_vector_refuted",
    "C52_ef_compressed_refuted",
    "C52_witnesses_refuted",
    "C52_aligned_partial"
   ],
   "note": "Refuted: elias_fano_compressed_list is always misaligned after the one-byte m_l; darray, elias_fano, elias_fano_list, gamma_vector, gamma_bit_vector, bp_vector, cartesian_tree and topk_vector are misaligned exactly when a 16-bit array does not fill whole words, and the theorems give the condition on the input. Proved for bit_vector, rs_bit_vector, darray64 and nibble_vector."
  },
  {
   "property": "C53",
   "status": "partial",
   "theorems": [
    "C53_self_refuted",
    "C53_iterators_refuted"
   ],
   "note": "Refuted: assigning a vector to itself empties it, and assigning part of an owned vector to itself reads released memory, since assign clears first. For every other source C45_history gives the property."
  },
  {
   "property": "C54",
   "status": "proved",
   "theorems": [
    "C54_rs_hints",
    "C54_darray",
    "C54_darray64",
    "C54_bp"
   ],
   "note": "The bound on hints is for rs_bit_vector of any length for which build succeeds."
  },
  {
   "property": "C55",
   "status": "proved",
   "theorems": [
    "C55_swap",
    "C55_dispose"
   ],
   "note": "cartesian_tree is represented by its bp_vector and elias_fano_list by its elias_fano; swap of mappable_vector is in C45 and of the builders in C01."
  },
  {
   "property": "C56",
   "status": "proved",
   "theorems": [
    "C56_enumerate"
   ],
   "note": "The specialisations for the gamma vectors are in C23 and C24."
  },
  {
   "property": "C57",
   "status": "partial",
   "theorems": [
    "C57_long_refuted",
    "C57_witness_refuted",
    "C57_short_partial",
    "C57_middle_partial"
   ],
   "note": "Refuted: a builder of 64 bits or more writes past its vector (C57_long_refuted), and 40 set bits give a wrong result (C57_witness_refuted). Proved up to 32 bits; from 33 to 63 bits the exact result is determined (right bits, stray bits behind the end)."
  },
  {
   "property": "C58",
   "status": "partial",
   "theorems": [
    "C58_truncated_refuted"
   ],
   "note": "Refuted: the mapping reads past the end for every proper prefix of every frozen image."
  },
  {
   "property": "C59",
   "status": "partial",
   "theorems": [
    "C59_gamma_vector_refuted",
    "C59_gamma_bit_vector_refuted",
    "C59_compressed_list_refuted",
    "C59_list_refuted"
   ],
   "note": "Refuted: 2^64 - 1 (and 2^64 - 2 for gamma_bit_vector) fails an assertion; the bounds in C21 to C24 leave out nothing else except by length and sum."
  },
  {
   "property": "C60",
   "status": "partial",
   "theorems": [
    "C60_wrap_refuted",
    "C60_exact_partial"
   ],
   "note": "Refuted: the result is 0 when a + b > 2^64. Proved for all other arguments."
  },
  {
   "property": "C61",
   "status": "partial",
   "theorems": [
    "C61_empty_refuted",
    "C61_nonempty_partial"
   ],
   "note": "Refuted for the empty sequence, where m_internal_nodes is never set. Proved for all other sequences."
  },
  {
   "property": "C62",
   "status": "partial",
   "theorems": [
    "C62_no_answer_partial",
    "C62_successor0_refuted",
    "C62_elias_fano_partial"
   ],
   "note": "Refuted for successor0, which returns size() unless the last word is full. Proved for predecessor0, predecessor1, successor1 and for elias_fano."
  },
  {
   "property": "C63",
   "status": "partial",
   "theorems": [
    "C63_broadword_partial",
    "C63_builder_partial",
    "C63_set_bits_refuted",
    "C63_append_bits_refuted",
    "C63_set_refuted",
    "C63_bit_vector_partial",
    "C63_get_bits_partial",
    "C63_get_bits_refuted",
    "C63_get_word56_refuted",
    "C63_rs_bit_vector_partial",
    "C63_darray_partial",
    "C63_darray64_partial",
    "C63_elias_fano_partial",
    "C63_elias_fano_builder_partial",
    "C63_lists_partial",
    "C63_nibble_vector_partial",
    "C63_bp_vector_partial",
    "C63_find_open_refuted",
    "C63_cartesian_tree_partial",
    "C63_rmq_refuted",
    "C63_topk_vector_partial"
   ],
   "note": "Refuted for get_bits and set_bits (the checked sum wraps), append_bits of more than 64 bits (the length is not checked), bit_vector_builder::set, get_word56, find_open and rmq(a, a) (no check). Proved for the other calls listed in the theorems; the raw-pointer readers have no assertions. The model reports the reads mappable_vector::operator[] would assert on in a debug build as out of bounds."
  },
  {
   "property": "C64",
   "status": "proved",
   "theorems": [
    "C64_fields",
    "C64_bits"
   ],
   "note": "Little-endian machine; any structure whose members are values of their C++ types and whose image is below 2^64 bytes. cartesian_tree and elias_fano_list add no bytes of their own."
  },
  {
   "property": "C65",
   "status": "proved",
   "theorems": [
    "C65_dump",
    "C65_structures",
    "C65_report"
   ],
   "note": "The decimal output of std::ostream is modelled with its default settings."
  },
  {
   "property": "C66",
   "status": "partial",
   "theorems": [
    "C66_nul_first_refuted",
    "C66_nul_inside_refuted"
   ],
   "note": "Refuted: a line that starts with a NUL character dereferences rbegin of an empty string; a NUL inside a line drops the rest of it and joins the next line."
  },
  {
   "property": "C67",
   "status": "partial",
   "theorems": [
    "C67_vector",
    "C67_builder",
    "C67_refuted",
    "C67_tests"
   ],
   "note": "Refuted for random_bp with an estimate of 2^31 or more, where the int excess can overflow. Proved for every value of rand() otherwise. The depth of the recursion on the C++ stack is the subject of C114."
  },
  {
   "property": "C68",
   "status": "partial",
   "theorems": [
    "C68_mapper",
    "C68_mapper_struct",
    "C68_bit_vector",
    "C68_ints",
    "C68_ints_small",
    "C68_ints_refuted",
    "C68_enumerators",
    "C68_skip0_refuted",
    "C68_rank_select",
    "C68_darray",
    "C68_elias_fano",
    "C68_gamma_vector",
    "C68_gamma_bit_vector",
    "C68_compressed_list",
    "C68_parentheses",
    "C68_excess_rmq",
    "C68_parentheses_refuted",
    "C68_excess_rmq_refuted",
    "C68_cartesian_refuted",
    "C68_topk"
   ],
   "note": "Refuted: the integers of test_bit_vector.cpp make get_bits shift by 64; its skip0 block reads v[v.size()] when the vector ends with a zero; test_rmq of test_cartesian_tree.cpp reads v[1] of a vector of size 1; 512 nested parentheses make bp_vector shift by 64; test_bp_vector_rmq.cpp can fail where char is unsigned. All other checks pass on every input within the contract; the parentheses and integer checks also do if a shift by 64 gives any value."
  },
  {
   "property": "C69",
   "status": "proved",
   "theorems": [
    "C69_excess_rmq",
    "C69_cartesian",
    "C69_topk",
    "C69_darray",
    "C69_delta",
    "C69_select_enumeration",
    "C69_equal_bits",
    "C69_list",
    "C69_rank_select",
    "C69_parentheses"
   ],
   "note": "The checks of excess_rmq, cartesian_tree and topk_vector establish the answers at the drawn positions only. That of excess_rmq also reads the bits and rank of the structure under test; these are taken to be right."
  },
  {
   "property": "C70",
   "status": "partial",
   "theorems": [
    "C70_visible_partial",
    "C70_push_refuted",
    "C70_again_refuted",
    "C70_outside_refuted",
    "C70_zero_extend_refuted",
    "C70_empty_partial"
   ],
   "note": "Refuted: the builder keeps its size and its pointer into the words the vector took; bits pushed next are written behind the end of the vector, further vectors fail an assertion, other calls leave the empty array. Proved: operator[] and size() of the vector never change, and an empty builder stays usable."
  },
  {
   "property": "C71",
   "status": "proved",
   "theorems": [
    "C71_hints",
    "C71_hints0",
    "C71_select",
    "C71_darray",
    "C71_darray64",
    "C71_parentheses",
    "C71_excess_rmq"
   ],
   "note": "Counts the rounds of the loops whose length depends on the data; the other loops of these queries run over at most 4 words or 32 blocks."
  },
  {
   "property": "C72",
   "status": "partial",
   "theorems": [
    "C72_buffer_partial",
    "C72_pointer_refuted",
    "C72_copies_refuted",
    "C72_uninitialised_refuted",
    "C72_single_partial"
   ],
   "note": "Refuted: the increment past a last line without newline forms a pointer behind the end of the buffer plus one; two copies of a line_iterator share the file position, so each skips the lines of the other, and compare equal at different lines; lines() copies an end iterator whose m_trim_newline was never set. buffer_line_iterator meets the other requirements on every buffer. Reading an uninitialised bool is Ub Dangling in the model."
  },
  {
   "property": "C73",
   "status": "partial",
   "theorems": [
    "C73_generator",
    "C73_benchmark",
    "C73_empty_refuted",
    "C73_bits_refuted"
   ],
   "note": "Refuted: with m = 0 the generator is never done and the assertion of the benchmark fails; with 64 bits or more the benchmark shifts by 64 or more, with more than 64 so does the generator. Proved for 1 <= m and up to 64 bits (benchmark: up to 63 bits and m < 2^61). The distribution is any function into its range."
  },
  {
   "property": "C74",
   "status": "partial",
   "theorems": [
    "C74_once",
    "C74_visit",
    "C74_visit_refuted",
    "C74_shift_refuted",
    "C74_bp_rmq",
    "C74_ct_rmq",
    "C74_empty_refuted"
   ],
   "note": "Refuted: on a tree of 2 parentheses time_visit never ends; find_close can shift by 64 during the visit; time_avg_rmq on an empty cartesian_tree computes a remainder modulo 0. Proved for trees of at least 4 parentheses if a shift by 64 gives any value, and for ranges in nonempty trees where char is signed."
  },
  {
   "property": "C75",
   "status": "partial",
   "theorems": [
    "C75_bits_refuted",
    "C75_skip_zeros_partial",
    "C75_unary_refuted",
    "C75_skip0_refuted",
    "C75_elias_fano_refuted"
   ],
   "note": "Refuted: bit_vector::enumerator returns zeros past the end until its buffer is empty; unary_enumerator has no assertion and reads outside the words, and its skip0 counts the unused bits of the last word; select_enumerator::next may read outside the high bits. Proved for skip_zeros after every history that does not end with take(64). The gamma enumerators are in C50."
  },
  {
   "property": "C76",
   "status": "partial",
   "theorems": [
    "C76_count_refuted",
    "C76_good_refuted",
    "C76_prefix",
    "C76_failed",
    "C76_detect"
   ],
   "note": "Refuted: freeze returns the number of bytes handed to the stream, also when the file was never opened, and a stream that is still good may fail when the destructor closes it. Proved: what is in the file is a prefix of the image, and a file is complete exactly when it has size_of + 8 bytes; every other file makes map read outside it."
  },
  {
   "property": "C77",
   "status": "proved",
   "theorems": [
    "C77_builder",
    "C77_histories",
    "C77_elias_fano",
    "C77_gamma",
    "C77_trees"
   ],
   "note": "For all growth policies, without any precondition on the input; histories with reserve are covered when legal (C77_histories)."
  },
  {
   "property": "C78",
   "status": "partial",
   "theorems": [
    "C78_decode",
    "C78_unterminated_refuted",
    "C78_overlong_refuted",
    "C78_canonical_partial"
   ],
   "note": "Refuted: overlong codes and codes of 2^64 and more are accepted, and unterminated bytes are read past the end of the buffer. The exact result for any terminated bytes is proved, and that canonical codes below 2^64 are those append_vbyte writes."
  },
  {
   "property": "C79",
   "status": "partial",
   "theorems": [
    "C79_bytes",
    "C79_prefix_free_partial",
    "C79_prefix_free_refuted"
   ],
   "note": "Refuted for strings with an embedded NUL: one range can be a proper prefix of another. Proved for all other strings; that different strings have different ranges holds for all."
  },
  {
   "property": "C80",
   "status": "partial",
   "theorems": [
    "C80_history_partial",
    "C80_steal_refuted",
    "C80_lost_refuted",
    "C80_fair"
   ],
   "note": "Refuted: a steal whose allocation throws leaves a vector with a size but no elements, and a range or deleter assignment that throws leaks the new buffer for good. Proved for histories where only new throws: nothing is leaked, constructors and assign leave valid vectors, and a later clear, assign, map or steal repairs the vector of a failed steal."
  },
  {
   "property": "C81",
   "status": "proved",
   "theorems": [
    "C81_topk",
    "C81_enumerator"
   ],
   "note": "Where char is signed, as C35. Any heap functions that meet the standard."
  },
  {
   "property": "C82",
   "status": "partial",
   "theorems": [
    "C82_partial",
    "C82_keeps",
    "C82_refuted",
    "C82_throws",
    "C82_repair",
    "C82_fair"
   ],
   "note": "Refuted: append_bits, zero_extend, one_extend and append raise the size before the words grow, so after a bad_alloc a bit_vector made from the builder fails its assert (any limit too small for the result gives such a case). Proved for the constructor, reserve and push_back in every history; and zero_extend(0) afterwards mends the builder: the old bits are all there."
  },
  {
   "property": "C83",
   "status": "proved",
   "theorems": [
    "C83_builder",
    "C83_elias_fano",
    "C83_cartesian"
   ],
   "note": "The stack of the cartesian tree builder is not reserved by the source and not part of the claim. Exactness holds for a std::vector that allocates what it is asked for."
  },
  {
   "property": "C84",
   "status": "partial",
   "theorems": [
    "C84_roundtrip_partial",
    "C84_little",
    "C84_other_refuted",
    "C84_first_refuted",
    "C84_get_word56_partial",
    "C84_get_word56_refuted"
   ],
   "note": "Refuted: a bit_vector frozen on one byte order and mapped on the other reads outside the memory (C84_other_refuted), no class starting with a 64-bit number maps back (C84_first_refuted), and get_word56 on a big-endian machine returns bits of the next word unless its first byte begins a word (C84_get_word56_refuted). Proved: both operations are inverse on machines of one order, whichever it is, and get_word56 is right at byte offsets that are a multiple of 8."
  },
  {
   "property": "C85",
   "status": "partial",
   "theorems": [
    "C85_exact_partial",
    "C85_new_refuted",
    "C85_reserve_refuted",
    "C85_zero_extend_refuted",
    "C85_push_back_refuted"
   ],
   "note": "Refuted: the constructor with a size above 2^64 - 64 takes back() of an empty vector (C85_new_refuted); reserve with such a size reserves nothing (C85_reserve_refuted); zero_extend past 2^64 silently makes the builder smaller, or throws after the size has changed (C85_zero_extend_refuted), after which push_back(false) can append a one (C85_push_back_refuted). Proved: as long as all sizes are at most 2^64 - 64 the results are those of exact integers, so the simplification in M_BitVector is harmless, and nothing throws (C85_exact_partial)."
  },
  {
   "property": "C86",
   "status": "proved",
   "theorems": [
    "C86_node",
    "C86_parent",
    "C86_children",
    "C86_lca",
    "C86_preorder"
   ],
   "note": ""
  },
  {
   "property": "C87",
   "status": "proved",
   "theorems": [
    "C87_closed_once",
    "C87_kept",
    "C87_unset",
    "C87_unmapped"
   ],
   "note": ""
  },
  {
   "property": "C88",
   "status": "proved",
   "theorems": [
    "C88_accepted",
    "C88_only_these",
    "C88_same_bytes",
    "C88_objects"
   ],
   "note": "Little-endian machine, as C36. That the object read has consistent members does not follow: C89."
  },
  {
   "property": "C89",
   "status": "partial",
   "theorems": [
    "C89_corrupt_refuted"
   ],
   "note": "Refuted for every bit vector of less than 2^56 bits: changing the top byte of m_size gives a file that maps and claims more bits than it has words (C89_corrupt_refuted). map has no check of any member."
  },
  {
   "property": "C90",
   "status": "partial",
   "theorems": [
    "C90_readers_partial",
    "C90_whole_partial",
    "C90_tail_refuted"
   ],
   "note": "Refuted: lines() starts with an empty string; a last line without newline comes out longer than it is in lines() (C90_tail_refuted); and trimming removes all trailing carriage returns where mmap_lines removes one. Proved for files whose lines end in newlines: apart from the empty string the two agree exactly if no line ends in two carriage returns, and the untrimmed lines make up the file."
  },
  {
   "property": "C91",
   "status": "proved",
   "theorems": [
    "C91_cost"
   ],
   "note": ""
  },
  {
   "property": "C92",
   "status": "partial",
   "theorems": [
    "C92_model_partial",
    "C92_same_width_partial",
    "C92_lengths_partial",
    "C92_crossing_refuted",
    "C92_narrow_refuted",
    "C92_widen_refuted"
   ],
   "note": "Refuted: for every non-empty bit_vector of less than 2^32 bits, in both directions. A 64-bit file read with a 32-bit size_t asks for 2^32 times as many words as there are; a 32-bit file read with a 64-bit size_t does the same, or, when its first 32 bits are zero, silently gives a vector that claims 2^32 bits per word and has none. Proved: files of all structures are read back by a build of the same width, and how many bytes the two widths differ."
  },
  {
   "property": "C93",
   "status": "proved",
   "theorems": [
    "C93_rounds",
    "C93_distinct",
    "C93_repeated"
   ],
   "note": "With repeated values one call may pass all of them (C93_repeated)."
  },
  {
   "property": "C94",
   "status": "proved",
   "theorems": [
    "C94_searches",
    "C94_enumerator",
    "C94_one_pass"
   ],
   "note": ""
  },
  {
   "property": "C95",
   "status": "proved",
   "theorems": [
    "C95_broadword",
    "C95_bit_vector",
    "C95_rank_select",
    "C95_elias_fano",
    "C95_gamma",
    "C95_util",
    "C95_bp_vector",
    "C95_trees",
    "C95_lines",
    "C95_rest"
   ],
   "note": ""
  },
  {
   "property": "C96",
   "status": "partial",
   "theorems": [
    "C96_append_partial",
    "C96_push_refuted",
    "C96_set_bits_refuted",
    "C96_get_refuted",
    "C96_searches_refuted",
    "C96_rank_refuted",
    "C96_zero_refuted",
    "C96_lines_refuted"
   ],
   "note": "Refuted: append_bits and set_bits do not mask the value, so bits beyond len reach the words (next push_back, num_ones, neighbours of the range); reads past the last word and most failing searches leave the words; rank past the end counts all ones up to the end of the last word and at multiples of 64 in the last block and the one after it, and reads outside an array elsewhere (C96_rank_refuted); msb(0) is 255; an iterator over lines that has reached its end gives the last line again. What holds: the bits inside the vector read right after append_bits."
  },
  {
   "property": "C97",
   "status": "partial",
   "theorems": [
    "C97_zeros_partial",
    "C97_uninit_refuted",
    "C97_same_partial",
    "C97_bits_refuted",
    "C97_lists_refuted",
    "C97_trees_refuted"
   ],
   "note": "Refuted for elias_fano and the lists on it (m_l is written uninitialised), for bp_vector, cartesian_tree and topk_vector (m_internal_nodes is), and as to equality for every class but bit_vector, darray and darray64. The files of the other classes are zero and are mapped back."
  },
  {
   "property": "C98",
   "status": "partial",
   "theorems": [
    "C98_after_partial",
    "C98_searches_refuted",
    "C98_rmq_refuted"
   ],
   "note": "Refuted: the tables are a static object with a constructor, and are zero before it has run. Then find_close, find_open and enclose never give an answer, and excess_rmq gives the left end of every range inside a word. What holds: after the constructor the queries are those of C28 to C34."
  },
  {
   "property": "C99",
   "status": "partial",
   "theorems": [
    "C99_good_partial",
    "C99_warm_partial",
    "C99_cold_partial",
    "C99_elements_partial",
    "C99_headers_refuted"
   ],
   "note": "Refuted for files whose vectors are cut short or have a damaged length: without the flag they are mapped without an error, and the bytes reported wrap at 2^64; the elements are missed at their first use. For files whose elements are all there the flag changes nothing."
  },
  {
   "property": "C100",
   "status": "partial",
   "theorems": [
    "C100_bits",
    "C100_elias_fano",
    "C100_gamma",
    "C100_trees",
    "C100_cartesian_partial",
    "C100_cartesian_refuted",
    "C100_darray_refuted"
   ],
   "note": "Refuted for cartesian_tree, which keeps no elements, and for darray1, an index into bits kept elsewhere. For cartesian_tree the file determines exactly the length and the leftmost minima of all ranges (both directions). Proved for all other structures."
  },
  {
   "property": "C101",
   "status": "partial",
   "theorems": [
    "C101_find_close_partial",
    "C101_outside_refuted",
    "C101_enclose",
    "C101_release_refuted",
    "C101_release_enclose_refuted"
   ],
   "note": "Refuted for find_close: it takes the zero bits that fill the last word for closing parentheses and returns a position outside the vector, exactly when that position lies in the block of four words of the next position. A result inside the vector is always right. Without assertions the search can also leave the tree at its root, start again at the left end and return 2^64-1. Proved for enclose: at depth 0 no call returns; without assertions such a call reads outside an array in the first 256 positions and loops forever behind them (C101_release_enclose_refuted). The theorems give for both functions exactly the calls that return and what they return."
  },
  {
   "property": "C102",
   "status": "partial",
   "theorems": [
    "C102_any",
    "C102_beats_range",
    "C102_less_equal",
    "C102_local",
    "C102_float_partial",
    "C102_nan_refuted"
   ],
   "note": "Refuted for the last clause: in a range with a value that is not a number a smaller element can be missed, because that value shields the elements before it (C102_nan_refuted). Everything else is proved, for every comparator."
  },
  {
   "property": "C103",
   "status": "proved",
   "theorems": [
    "C103_bits",
    "C103_ints"
   ],
   "note": "Corollary of C04, C12, C13, C15, C17 and C21-C24, C26, stated so that the answers of different structures are equated; new in it are predecessor1 and successor1 of an elias_fano built from a bit vector, and their expression by rank and select."
  },
  {
   "property": "C104",
   "status": "proved",
   "theorems": [
    "C104_same",
    "C104_enumeration",
    "C104_bound"
   ],
   "note": "Counted are rounds of the loop over the high words and get_word calls on the low bits; the select inside the assertion of line 231, absent without assertions, is not counted. C104_same shows that the counted model is the one of C20 and fails alike."
  },
  {
   "property": "C105",
   "status": "partial",
   "theorems": [
    "C105_roundtrip_partial",
    "C105_aligned_partial",
    "C105_sizes",
    "C105_behind_refuted",
    "C105_elias_fano_refuted",
    "C105_words_partial"
   ],
   "note": "Refuted where misaligned reads are not allowed: freeze does not pad, so behind an object whose size is no multiple of 8 bytes nothing can be mapped at any address (C105_behind_refuted). elias_fano and both lists made of it have an odd size always (C105_elias_fano_refuted); C105_sizes says for each type when the size is a multiple of 8. Proved without that restriction for all objects (C105_roundtrip_partial), and with it exactly for the sequences all of whose reads are aligned (C105_aligned_partial), among them all sequences of bit_vector and rs_bit_vector (C105_words_partial)."
  },
  {
   "property": "C106",
   "status": "partial",
   "theorems": [
    "C106_length",
    "C106_density",
    "C106_bits",
    "C106_trees_partial",
    "C106_trees_refuted",
    "C106_parentheses"
   ],
   "note": "Refuted for random_binary_tree where RAND_MAX is small: trees with a left part of more than RAND_MAX + 1 parentheses, for instance all paths of more than RAND_MAX + 4, are never produced. The tests ask for up to 100000 parentheses, and RAND_MAX may be 32767. Proved for all trees up to that size, with the bound sharp, and without restriction for the other two generators. The product of RAND_MAX and the density is exact in the model, where C++ rounds it to a double."
  },
  {
   "property": "C107",
   "status": "partial",
   "theorems": [
    "C107_exact_partial",
    "C107_nonnegative",
    "C107_types",
    "C107_uint32_refuted",
    "C107_signed_refuted",
    "C107_minus_one",
    "C107_negative",
    "C107_nibbles"
   ],
   "note": "Refuted: a range of uint32_t holding 2^32-1, of int holding INT_MAX or of int64_t holding INT64_MAX fails an assertion or overflows although the value fits the 64-bit list. Proved: every element whose sum fits the promoted type gives the object the 64-bit values give; elias_fano_list takes every element."
  },
  {
   "property": "C108",
   "status": "proved",
   "theorems": [
    "C108_same",
    "C108_gamma_vector",
    "C108_gamma_bit_vector",
    "C108_bound"
   ],
   "note": "Counted versions of next are shown equal to the plain ones; the rounds are given exactly, the reads by bounds from both sides."
  },
  {
   "property": "C109",
   "status": "proved",
   "theorems": [
    "C109_bit_vector",
    "C109_nibble_vector",
    "C109_rs_bit_vector",
    "C109_darray",
    "C109_elias_fano",
    "C109_gamma",
    "C109_bp_vector",
    "C109_cartesian_tree",
    "C109_topk_vector"
   ],
   "note": "The constants in the upper bounds are not tight."
  },
  {
   "property": "C110",
   "status": "partial",
   "theorems": [
    "C110_bits",
    "C110_unary",
    "C110_gamma_vector",
    "C110_gamma_bit_vector",
    "C110_select",
    "C110_undone",
    "C110_gamma_refuted",
    "C110_select_refuted"
   ],
   "note": "Refuted: after a swap the enumerator of gamma_vector returns 6 from vectors holding only 5 and only 14, and select_enumerator fails its assertion. What does hold is proved for every history: unary_enumerator keeps its contents, the bits of bit_vector::enumerator are given exactly, lengths and high parts are kept, and swaps undone before the next call change nothing."
  },
  {
   "property": "C111",
   "status": "proved",
   "theorems": [
    "C111_bits",
    "C111_nibbles",
    "C111_elias_fano",
    "C111_balanced",
    "C111_bp_vector",
    "C111_range_minima",
    "C111_cartesian_tree"
   ],
   "note": ""
  },
  {
   "property": "C112",
   "status": "proved",
   "theorems": [
    "C112_same",
    "C112_compiles",
    "C112_right",
    "C112_enumerator",
    "C112_gamma_vector",
    "C112_gamma_bit_vector"
   ],
   "note": ""
  },
  {
   "property": "C113",
   "status": "proved",
   "theorems": [
    "C113_content",
    "C113_same",
    "C113_size",
    "C113_capacity",
    "C113_parts",
    "C113_room",
    "C113_libraries",
    "C113_tight_refuted"
   ],
   "note": ""
  },
  {
   "property": "C114",
   "status": "proved",
   "theorems": [
    "C114_height",
    "C114_range",
    "C114_enough",
    "C114_fewer",
    "C114_jump",
    "C114_jump_enough",
    "C114_jump_fewer"
   ],
   "note": "A frame is counted, not measured in bytes; frames of push_back and rand are not counted."
  },
  {
   "property": "C115",
   "status": "proved",
   "theorems": [
    "C115_bits",
    "C115_nibble",
    "C115_rank",
    "C115_select",
    "C115_elias_fano",
    "C115_elias_fano_built",
    "C115_darray",
    "C115_darray64"
   ],
   "note": "For select all ranks of blocks are taken as the same, though only those the binary search meets are read."
  }
 ]
}