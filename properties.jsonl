{"id": "C01", "title": "Builder operations build exactly the intended bit sequence", "statement": "A bit_vector made from a bit_vector_builder after any in-contract sequence of constructor(size, init), push_back, set, set_bits, append_bits, zero_extend, one_extend, append and reverse calls has the size and the bits that the same calls produce on a plain sequence of booleans; every bit the call does not name is unchanged.", "quantifier": "every finite sequence of builder calls whose documented preconditions hold, every argument", "why_tests_cant": "The result depends on the whole call history and on how each call straddles 64-bit word boundaries; tests run a few fixed histories.", "anchors": ["bit_vector.hpp: bit_vector_builder (constructor, push_back, set, set_bits, append_bits, zero_extend, one_extend, append, reverse, move_bits)", "bit_vector.hpp: bit_vector(bit_vector_builder*)"]}
{"id": "C02", "title": "A bit_vector built from a range stores that range", "statement": "bit_vector(range) has size() equal to the length of the range and operator[](i) equal to the truth value of the i-th element, for every i < size().", "quantifier": "every finite range, every index below its length", "why_tests_cant": "Tests use random vectors of one length; alignment of the last word with the end of the range varies without bound.", "anchors": ["bit_vector.hpp: bit_vector(Range const&), operator[], size"]}
{"id": "C03", "title": "Window reads return exactly the addressed bits", "statement": "get_bits(pos, len) returns the number whose binary digits are the bits pos..pos+len-1 (least significant first) whenever len <= 64 and pos+len <= size(); get_word(pos) returns the 64 bits from pos, padded with zeros past the end; get_word56(pos) agrees with them on the low 56 bits where it may be called.", "quantifier": "every bit_vector, every pos and len in range", "why_tests_cant": "All (position mod 64, length) combinations and all contents must agree.", "anchors": ["bit_vector.hpp: bit_vector::get_bits, get_word, get_word56"]}
{"id": "C04", "title": "predecessor/successor return the nearest bit of the requested value", "statement": "If some position <= pos holds a zero (one), predecessor0 (predecessor1) returns the largest such position; if some position >= pos and < size() holds a zero (one), successor0 (successor1) returns the smallest such position.", "quantifier": "every bit_vector, every pos < size() for which an answer exists", "why_tests_cant": "The scan may cross any number of words.", "anchors": ["bit_vector.hpp: predecessor0, successor0, predecessor1, successor1"]}
{"id": "C05", "title": "The sequential bit enumerator reads the vector in order", "statement": "Starting from any position, any interleaving of next(), take(l) and skip_zeros() on a bit_vector::enumerator returns what reading the bits in order would return and leaves position() at the first unread bit.", "quantifier": "every bit_vector, every start position, every finite in-contract sequence of calls", "why_tests_cant": "The enumerator keeps a partially consumed buffer, so correctness is about every call history, not single calls.", "anchors": ["bit_vector.hpp: bit_vector::enumerator (next, take, skip_zeros, position, fill_buf)"]}
{"id": "C06", "title": "The unary enumerator visits ones and zeros in order", "statement": "Starting from any position, any interleaving of next(), skip(k), skip_no_move(k) and skip0(k) on a unary_enumerator returns or moves to the positions that a left-to-right scan of the vector would give.", "quantifier": "every bit_vector, every start position, every finite sequence of calls with an existing answer", "why_tests_cant": "Correctness depends on the call history (the enumerator keeps a masked word) and on arbitrarily long gaps.", "anchors": ["bit_vector.hpp: bit_vector::unary_enumerator (constructor, next, skip, skip_no_move, skip0, position)"]}
{"id": "C07", "title": "Population count is exact for every word", "statement": "broadword::popcount(x) is the number of one bits of x; byte_counts(x) holds in each byte the number of one bits of that byte; bytes_sum adds the bytes of such a word.", "quantifier": "all 2^64 words", "why_tests_cant": "2^64 inputs.", "anchors": ["broadword.hpp: byte_counts, bytes_sum, popcount"]}
{"id": "C08", "title": "select_in_word finds the k-th one of every word", "statement": "For k < popcount(x), select_in_word(x, k) is the position of the one bit of x that has exactly k one bits below it, in the popcnt build and in the portable build. Every one of the 2048 entries of select_in_byte is the place of a one of its byte, or 8 when there is no such one.", "quantifier": "all 2^64 words and every k below their population count", "why_tests_cant": "2^64 inputs, a 2048-entry table and carry-free SWAR arithmetic.", "anchors": ["broadword.hpp: select_in_word", "tables.hpp: select_in_byte"]}
{"id": "C09", "title": "Bit and byte reversal are exact", "statement": "Bit i of reverse_bits(x) is bit 63-i of x; byte i of reverse_bytes(x) is byte 7-i of x; the intrinsic and portable versions agree.", "quantifier": "all 2^64 words", "why_tests_cant": "2^64 inputs.", "anchors": ["broadword.hpp: reverse_bytes, reverse_bits", "intrinsics.hpp: byteswap64"]}
{"id": "C10", "title": "msb, lsb, bit_position and same_msb are exact", "statement": "For x != 0, msb(x) and lsb(x) are the positions of the highest and lowest one bit of x and report success; for x = 0 the two-argument forms report failure; same_msb(x, y) holds iff x and y are both zero or have the same highest one bit; intrinsic and portable builds agree.", "quantifier": "all 2^64 words (pairs of words for same_msb)", "why_tests_cant": "2^64 inputs and a multiplicative hash table.", "anchors": ["broadword.hpp: msb, lsb, bit_position, same_msb", "intrinsics.hpp: bsf64, bsr64"]}
{"id": "C11", "title": "Parallel step comparisons compare every lane", "statement": "leq_step_8 is the lane-wise signed <=, uleq_step_8 the lane-wise unsigned <= and zcompare_step_8 the lane-wise test for non-zero on the eight bytes; uleq_step_9 is the lane-wise unsigned <= on the seven 9-bit lanes; each lane of the result is 1 or 0.", "quantifier": "all pairs of 64-bit words", "why_tests_cant": "2^128 inputs; borrows between lanes.", "anchors": ["broadword.hpp: leq_step_8, uleq_step_8, zcompare_step_8, uleq_step_9"]}
{"id": "C12", "title": "rank counts the ones of every prefix", "statement": "rs_bit_vector::rank(pos) is the number of ones among the first pos bits, rank0(pos) the number of zeros, num_ones() and num_zeros() the totals, whether or not select hints were built.", "quantifier": "every bit sequence, every pos <= size(), both hint flags", "why_tests_cant": "Blocks, sub-block counters packed in 9-bit fields and partial last blocks all interact; sizes are unbounded.", "anchors": ["rs_bit_vector.hpp: rank, rank0, num_ones, num_zeros, sub_block_rank", "rs_bit_vector.cpp: build_indices"]}
{"id": "C13", "title": "select and select0 return the position of the n-th one and zero", "statement": "For n < num_ones(), select(n) is the position of the one preceded by exactly n ones; for n < num_zeros(), select0(n) is the position of the zero preceded by exactly n zeros; with and without hints.", "quantifier": "every bit sequence, every n in range, both hint flags", "why_tests_cant": "Binary search bounds come from hints computed from the data; sizes and densities are unbounded.", "anchors": ["rs_bit_vector.hpp: select, select0", "rs_bit_vector.cpp: build_indices"]}
{"id": "C14", "title": "rank and select are mutually inverse", "statement": "rank(select(n)) = n for n < num_ones(), rank0(select0(n)) = n for n < num_zeros(), and select(rank(p)) = p for every p that holds a one (select0(rank0(p)) = p for every zero).", "quantifier": "every bit sequence and every argument in range", "why_tests_cant": "Universally quantified algebraic law.", "anchors": ["rs_bit_vector.hpp: rank, select, rank0, select0"]}
{"id": "C15", "title": "darray1/darray0 select is exact for sparse and dense blocks", "statement": "For a darray1 (darray0) built on a bit_vector, num_positions() is the number of ones (zeros) below size() and select(bv, i) is the position of the i-th one (zero).", "quantifier": "every bit_vector of fewer than 2^63 bits, every i < num_positions()", "why_tests_cant": "Blocks switch representation when their span reaches 2^16; contents and sizes are unbounded.", "anchors": ["darray.hpp: darray constructor, flush_cur_block, select, num_positions, identity_getter, negating_getter"]}
{"id": "C16", "title": "darray64 select is exact", "statement": "After any sequence of append1(skip0) calls with skip0 <= 64, the darray64 built holds the bits 0^skip0 1 concatenated, num_ones() is the number of calls, and select(i) is the position of the i-th one.", "quantifier": "every finite sequence of append1 calls, every i < num_ones()", "why_tests_cant": "16-bit sub-block offsets must never overflow over all histories.", "anchors": ["darray64.hpp: builder::append1, darray64(builder*), select, num_ones"]}
{"id": "C17", "title": "elias_fano stores the pushed positions", "statement": "For a builder(n, m) and a non-decreasing sequence of at most m values <= n pushed, size() = n, num_ones() is the number of pushes and select(i) is the i-th pushed value; built from a bit_vector_builder, select(i) is the position of its i-th one.", "quantifier": "every n < 2^64, m < 2^61 (n < 2^62 when m = 0), every non-decreasing sequence in range, every i; every builder of fewer than 2^61 bits", "why_tests_cant": "The split into high and low bits depends on n/m; all splits must agree.", "anchors": ["elias_fano.hpp: elias_fano_builder, elias_fano(bit_vector_builder*), elias_fano(elias_fano_builder*), select, size, num_ones, build"]}
{"id": "C18", "title": "elias_fano rank, membership, predecessor and successor", "statement": "With the rank index, rank(pos) is the number of stored values < pos, operator[](pos) tells whether pos is stored, predecessor1(pos) is the largest stored value <= pos and successor1(pos) the smallest stored value >= pos when they exist.", "quantifier": "every stored sequence of positions < size(), every pos in range", "why_tests_cant": "Backward scans inside buckets of arbitrary size.", "anchors": ["elias_fano.hpp: rank, operator[], predecessor1, successor1"]}
{"id": "C19", "title": "elias_fano differences and ranges agree with select", "statement": "delta(i) = select(i) - select(i-1) (select(0) for i = 0) and select_range(i) = (select(i), select(i+1)).", "quantifier": "every stored sequence, every i in range", "why_tests_cant": "Uses carries between high and low parts and an unbounded backward scan.", "anchors": ["elias_fano.hpp: delta, select_range"]}
{"id": "C20", "title": "elias_fano enumeration agrees with select from every start", "statement": "A select_enumerator started at i returns, on its successive next() calls, select(i), select(i+1), ... up to the last stored value.", "quantifier": "every stored sequence, every start i < num_ones(), every number of calls", "why_tests_cant": "Stateful: buffers several low parts per word; the test only starts at 0.", "anchors": ["elias_fano.hpp: select_enumerator"]}
{"id": "C21", "title": "elias_fano_list returns the stored integers and their sum", "statement": "elias_fano_list(ints)[i] is ints[i], size() the number of integers and sum() their sum, whenever the sum fits in 64 bits minus one.", "quantifier": "every list of fewer than 2^61 non-negative integers whose sum is below 2^64 - 1, every index", "why_tests_cant": "Unbounded lists, including zeros and large gaps.", "anchors": ["elias_fano_list.hpp: elias_fano_list"]}
{"id": "C22", "title": "elias_fano_compressed_list returns the stored integers", "statement": "elias_fano_compressed_list(ints)[i] is ints[i] and size() the number of integers, for all integers below 2^64 - 1.", "quantifier": "every list of fewer than 2^57 integers below 2^64-1, every index", "why_tests_cant": "Unbounded lists over the whole 64-bit range.", "anchors": ["elias_fano_compressed_list.hpp: elias_fano_compressed_list"]}
{"id": "C23", "title": "gamma_vector stores and enumerates its integers", "statement": "gamma_vector(ints)[i] is ints[i], size() the length, and a forward_enumerator started at any i < size() returns ints[i], ints[i+1], ...; for all integers below 2^64 - 1.", "quantifier": "every list of fewer than 2^57 integers below 2^64-1, every index, every number of enumerator calls", "why_tests_cant": "Variable-length codes straddle words in every possible way.", "anchors": ["gamma_vector.hpp: gamma_vector, forward_enumerator<gamma_vector>"]}
{"id": "C24", "title": "gamma_bit_vector stores and enumerates its integers", "statement": "gamma_bit_vector(ints)[i] is ints[i], size() the length, and a forward_enumerator started at any i < size() returns ints[i], ints[i+1], ... also across skip(k); for all integers below 2^64 - 2.", "quantifier": "every list of fewer than 2^57 integers below 2^64-2, every index, every sequence of enumerator calls", "why_tests_cant": "Variable-length codes straddle words in every possible way.", "anchors": ["gamma_bit_vector.hpp: gamma_bit_vector, forward_enumerator<gamma_bit_vector>"]}
{"id": "C25", "title": "vbyte decoding inverts encoding", "statement": "decode_vbyte at the offset where append_vbyte(v, val) wrote returns val and consumes exactly the number of bytes append_vbyte reported, whatever precedes or follows in the buffer; bytes already in the buffer are unchanged.", "quantifier": "every 64-bit value, every buffer prefix and suffix", "why_tests_cant": "2^64 values in any context.", "anchors": ["vbyte.hpp: vbyte_size, append_vbyte, decode_vbyte"]}
{"id": "C26", "title": "nibble_vector stores its nibbles", "statement": "nibble_vector(range) has size() equal to the length of the range and operator[](i) equal to its i-th element, for elements below 16.", "quantifier": "every finite range of values below 16, every index", "why_tests_cant": "Unbounded lengths and both parities.", "anchors": ["nibble_vector.hpp: nibble_vector(Range const&), operator[], size"]}
{"id": "C27", "title": "int2nat and nat2int are inverse bijections", "statement": "nat2int(int2nat(x)) = x for every int64_t x and int2nat(nat2int(n)) = n for every uint64_t n.", "quantifier": "all 2^64 values", "why_tests_cant": "Extreme values overflow; tests do not cover them.", "anchors": ["util.hpp: int2nat, nat2int"]}
{"id": "C28", "title": "find_close returns the matching closing parenthesis", "statement": "In a balanced sequence, find_close(p) for an opening parenthesis p is the position of the closing parenthesis that matches p, wherever it is.", "quantifier": "every balanced sequence (size below 2^31), every opening position", "why_tests_cant": "The search uses words, blocks, superblocks and a min tree; every relative placement of p and its match must work.", "anchors": ["bp_vector.cpp: find_close, find_close_in_word, find_close_in_block, search_min_tree<1>, build_min_tree"]}
{"id": "C29", "title": "find_open returns the matching opening parenthesis", "statement": "In a balanced sequence, find_open(p) for a closing parenthesis p is the position of the opening parenthesis that matches p.", "quantifier": "every balanced sequence (size below 2^31), every closing position", "why_tests_cant": "Same as find_close, in the other direction.", "anchors": ["bp_vector.cpp: find_open, find_open_in_word, find_open_in_block, search_min_tree<0>"]}
{"id": "C30", "title": "enclose returns the tightest enclosing pair", "statement": "In a balanced sequence, enclose(p) for an opening parenthesis p that is nested in another pair is the opening parenthesis of the innermost pair that strictly contains p.", "quantifier": "every balanced sequence (size below 2^31), every nested opening position", "why_tests_cant": "Same search structure as find_open.", "anchors": ["bp_vector.hpp: enclose", "bp_vector.cpp: find_open"]}
{"id": "C31", "title": "find_open and find_close are mutually inverse", "statement": "find_open(find_close(p)) = p for every opening p and find_close(find_open(q)) = q for every closing q of a balanced sequence.", "quantifier": "every balanced sequence (size below 2^31) and position", "why_tests_cant": "Universally quantified law.", "anchors": ["bp_vector.cpp: find_open, find_close"]}
{"id": "C32", "title": "excess is the depth at every position", "statement": "excess(p) is the number of opening minus the number of closing parentheses among the first p.", "quantifier": "every sequence with non-negative prefix excess (size below 2^31), every p <= size(); the constructor asserts that no prefix excess is negative", "why_tests_cant": "Unbounded sizes.", "anchors": ["bp_vector.cpp: excess, get_block_excess"]}
{"id": "C33", "title": "excess_rmq returns the leftmost minimum-excess position", "statement": "excess_rmq(a, b, m) returns the smallest p in [a, b] such that excess(p) is minimal over [a, b], and sets m to that excess.", "quantifier": "every sequence with non-negative prefix excess (size below 2^31), all a <= b <= size()", "why_tests_cant": "Combines partial words, blocks, superblocks and two tree walks; every alignment of a and b must work.", "anchors": ["bp_vector.cpp: excess_rmq, excess_rmq_in_word, excess_rmq_in_block, excess_rmq_in_superblock, find_min_superblock, build_min_tree"]}
{"id": "C34", "title": "cartesian_tree rmq returns the leftmost range minimum", "statement": "rmq(a, b) of a cartesian_tree built on v with a strict weak order comp returns the smallest index in [a, b] whose value is minimal under comp; size() is the length of v.", "quantifier": "every vector (2n+2 below 2^31), every strict weak order, all a <= b < size()", "why_tests_cant": "All vectors, all orders, ties included.", "anchors": ["cartesian_tree.hpp: builder::push_back, builder::finalize, rmq, size, build_from_range"]}
{"id": "C35", "title": "topk returns the k largest entries in order", "statement": "topk(a, b, k) returns the min(k, b-a+1) entries (value, index) of [a, b] that come first when sorted by decreasing value and then increasing index; the enumerator yields all entries of [a, b] in that order and then reports the end.", "quantifier": "every vector, all a <= b < size(), every k, every number of next() calls", "why_tests_cant": "Heap-driven exploration; all vectors and ties.", "anchors": ["topk_vector.hpp: topk, enumerator (set, next, value), get_topk_enumerator"]}
{"id": "C36", "title": "Freezing then mapping restores the structure", "statement": "Mapping the bytes written by freeze for any of the library's structures gives back a structure with equal observable contents, and map() reports as many bytes read as freeze() reported written; bytes before and after in the file do not matter.", "quantifier": "every value of every structure, every freeze flag word, any trailing bytes", "why_tests_cant": "All contents and sizes; layout is positional with no tags.", "anchors": ["mapper.hpp: freeze_visitor, map_visitor, freeze, map", "map() members of every structure"]}
{"id": "C37", "title": "size_of predicts the frozen size", "statement": "size_of(x) + 8 equals the number of bytes freeze(x) writes, and size_tree_of(x) has a node for every member that is a vector or a class, with the member's name and frozen size; the root's size is size_of(x).", "quantifier": "every value of every structure", "why_tests_cant": "All contents and nesting shapes.", "anchors": ["mapper.hpp: sizeof_visitor, size_of, size_tree_of, freeze_visitor::written"]}
{"id": "C38", "title": "mmap_lines iteration splits a buffer into lines", "statement": "Iterating buffer_line_iterator over a buffer yields its lines in order: the pieces between newline characters, each without one trailing carriage return, and no piece after a final newline.", "quantifier": "every byte buffer", "why_tests_cant": "All buffers, including missing final newline and empty lines.", "anchors": ["util.hpp: buffer_line_iterator, mmap_lines"]}
{"id": "C39", "title": "fast_getline returns the next line of the file", "statement": "fast_getline returns the bytes up to and including the next newline (or up to the end of the file), without the trailing newline characters if asked, and false only at the end of the file.", "quantifier": "every file content without NUL bytes, every position in it, every line length relative to the 64 KiB buffer", "why_tests_cant": "Line lengths and file endings are unbounded.", "anchors": ["util.hpp: fast_getline, trim_newline_chars"]}
{"id": "C40", "title": "lines() enumerates exactly the lines of a file", "statement": "Iterating lines(file) visits the lines of the file, in order, each once, and nothing else.", "quantifier": "every file content", "why_tests_cant": "All contents.", "anchors": ["util.hpp: line_iterator, lines"]}
{"id": "C41", "title": "Builder memory stays valid over every call history", "statement": "No in-contract sequence of bit_vector_builder calls (including reserve and swap) makes a later call write through a pointer to memory that is no longer the builder's last word.", "quantifier": "every finite sequence of builder calls, every reallocation behaviour of std::vector", "why_tests_cant": "A dangling write may go unnoticed in a test.", "anchors": ["bit_vector.hpp: bit_vector_builder (m_cur_word), reserve, swap"]}
{"id": "C42", "title": "In-contract queries never leave their arrays or hit undefined shifts", "statement": "For every structure and every query that meets the documented preconditions, no array is read out of bounds, no assertion fails, every loop ends and no shift amount reaches the word width.", "quantifier": "every structure, every in-contract query", "why_tests_cant": "Undefined behaviour is invisible to value-based tests.", "anchors": ["all query functions of the library"]}
{"id": "C43", "title": "Default-constructed containers are empty", "statement": "A default-constructed bit_vector, elias_fano, elias_fano_list, elias_fano_compressed_list, gamma_vector, gamma_bit_vector, nibble_vector, mappable_vector, cartesian_tree or topk_vector reports size() = 0.", "quantifier": "every container type, every way of creating an empty one", "why_tests_cant": "Tests construct empty containers from empty ranges only.", "anchors": ["elias_fano_compressed_list.hpp: size", "gamma_vector.hpp: size", "gamma_bit_vector.hpp: size", "cartesian_tree.hpp: size"]}
{"id": "C44", "title": "Parenthesis operations work for every tree of depth below 2^31", "statement": "find_close is correct for every balanced sequence whose excess stays below 2^31, whatever its length (the limit the header documents).", "quantifier": "every balanced sequence of depth below 2^31, of any length", "why_tests_cant": "Needs sequences of more than 2^31 bits.", "anchors": ["bp_vector.hpp: excess_t comment", "bp_vector.cpp: build_min_tree, search_min_tree"]}
{"id": "C45", "title": "mappable_vector frees every buffer exactly once", "statement": "Over every history of construction, range construction, steal, assign, clear, swap, mapping and destruction, each buffer a mappable_vector allocated is released exactly once, never while a vector still refers to it, and none is left when all vectors are destroyed.", "quantifier": "every finite history over any number of vectors", "why_tests_cant": "Ownership is a property of histories.", "anchors": ["mappable_vector.hpp: constructors, destructor, swap, clear, steal, assign", "mapper.hpp: map_visitor (vec.clear)"]}
{"id": "C46", "title": "Index structures keep their space bounds", "statement": "rs_bit_vector adds exactly 2*ceil(words/8)+2 words of rank index; elias_fano for m values in [0, n] uses exactly m*l low bits and m + floor(n/2^l) + 2 high bits, l = floor(log2(n/m)); vbyte uses ceil(bits/7) bytes.", "quantifier": "every input", "why_tests_cant": "A space bound is about all inputs.", "anchors": ["rs_bit_vector.cpp: build_indices", "elias_fano.hpp: elias_fano_builder", "vbyte.hpp: vbyte_size"]}
{"id": "C47", "title": "The lane comparisons the library relies on are exact", "statement": "In every byte lane whose two operands agree in their top bit, leq_step_8 is exactly the comparison <=, whatever the other lanes hold; zcompare_step_8 and, on words below 2^63, uleq_step_9 are exact in every lane. These are the only uses made by bp_vector and rs_bit_vector.", "quantifier": "all pairs of 64-bit words and every lane", "why_tests_cant": "2^128 inputs; a borrow from a neighbouring lane would only show for particular pairs.", "anchors": ["broadword.hpp: leq_step_8, zcompare_step_8, uleq_step_9", "bp_vector.cpp: find_close_in_word, find_open_in_word", "rs_bit_vector.hpp: select, select0"]}
{"id": "C48", "title": "A default-constructed rs_bit_vector answers like an empty one", "statement": "num_ones() and rank(0) of a default-constructed rs_bit_vector return 0, as those of an rs_bit_vector built from the empty range do.", "quantifier": "the default-constructed rs_bit_vector", "why_tests_cant": "Tests only query vectors built from a range; the out-of-bounds read may return any value without failing.", "anchors": ["rs_bit_vector.hpp: rs_bit_vector(), num_ones, rank"]}
{"id": "C49", "title": "elias_fano rank at size() counts only smaller values", "statement": "rank(size()) is the number of stored values < size(), also when the value size() itself, which push_back accepts, was pushed.", "quantifier": "every sequence accepted by elias_fano_builder", "why_tests_cant": "The tests only store positions of bits, which are below size().", "anchors": ["elias_fano.hpp: rank, elias_fano_builder::push_back"]}
{"id": "C50", "title": "Enumerator assertions reject calls past the end", "statement": "Calling next() on a gamma_vector or gamma_bit_vector forward_enumerator that has already returned every element fails the assertion at its head, before anything is read.", "quantifier": "every list of integers, every enumerator standing at its end", "why_tests_cant": "Tests stop at the last element; the out-of-bounds read past it may go unnoticed.", "anchors": ["gamma_vector.hpp: forward_enumerator<gamma_vector>::next", "gamma_bit_vector.hpp: forward_enumerator<gamma_bit_vector>::next"]}
{"id": "C51", "title": "Range minimum results do not depend on the signedness of char", "statement": "excess_rmq returns the same position and excess whether plain char is a signed or an unsigned type.", "quantifier": "every balanced sequence, all a <= b <= size()", "why_tests_cant": "A test run sees one platform; on those with unsigned char (for example ARM Linux) the table entry for a byte with negative excess changes value.", "anchors": ["bp_vector.cpp: excess_tables (m_fwd_exc), excess_rmq_in_word"]}
{"id": "C52", "title": "Mapped structures are read only at aligned addresses", "statement": "When a file image is mapped at an address aligned to 8 bytes, every object map() and the mapped vectors read lies at an address aligned for its type.", "quantifier": "every value of every structure, every 8-byte aligned base address", "why_tests_cant": "Misaligned reads give the right value on the machines tests run on; they are undefined in C++ and trap on others.", "anchors": ["mapper.hpp: map_visitor (reinterpret_cast of m_cur)", "elias_fano.hpp: map (m_l)", "darray.hpp: map (m_subblock_inventory)", "bp_vector.hpp: map (m_block_excess_min)"]}
{"id": "C53", "title": "assign copies its source", "statement": "After v.assign(range) the mappable_vector v shows the elements the range had before the call.", "quantifier": "every range, including v itself and iterator ranges into v, after every history of calls", "why_tests_cant": "Every history; reads of released memory usually return the old bytes, so a test would not notice them.", "anchors": ["mappable_vector.hpp: assign, clear, range constructor"]}
{"id": "C54", "title": "Select indices and excess trees have bounded length", "statement": "rs_bit_vector stores at most ones/1024 + 1 select hints (and (zeros + 510)/1024 + 1 for select0); darray1 and darray0 store one 64-bit entry for 1024 set (clear) positions, one 16-bit entry for 32, and at most one explicit position for each 64 bits of the vector; darray64 stores one block for 1024 entries, one sub-block for 64 and sum + count bits; bp_vector stores one 16-bit minimum for 256 bits and fewer than 3 * ceil(n / 8192) 32-bit ones.", "quantifier": "every bit sequence below 2^63 bits (2^31 for bp_vector, with every open excess representable), every sequence of skips up to 64", "why_tests_cant": "A test measures chosen inputs; the worst case for the explicit positions is adversarial in where the set bits lie.", "anchors": ["rs_bit_vector.cpp: build_indices", "darray.hpp: build, flush_cur_block", "darray64.hpp: builder", "bp_vector.cpp: build_min_tree"]}
{"id": "C55", "title": "swap exchanges everything and dispose leaves a default object", "statement": "After a.swap(b) every member of a holds what b held and conversely, for bit_vector, rs_bit_vector, bp_vector, darray, darray64, elias_fano, elias_fano_compressed_list, gamma vectors, nibble_vector, topk_vector and their enumerators; util::dispose(v) leaves v equal to a default constructed object.", "quantifier": "every pair of objects, in any state", "why_tests_cant": "A member missing from a hand-written swap only shows when later queries use it with two objects that differ in it.", "anchors": ["bit_vector.hpp: swap", "rs_bit_vector.hpp: swap", "bp_vector.hpp: swap", "darray.hpp: swap", "darray64.hpp: swap", "elias_fano.hpp: swap", "elias_fano_compressed_list.hpp: swap", "gamma_vector.hpp: swap", "nibble_vector.hpp: swap", "topk_vector.hpp: swap, entry_enumerator::swap", "util.hpp: dispose"]}
{"id": "C56", "title": "forward_enumerator returns consecutive elements", "statement": "A forward_enumerator over an elias_fano_list, an elias_fano_compressed_list or a topk_vector started at i returns in k calls of next() the k elements from i on.", "quantifier": "every sequence of integers within the limits of the containers, every start and number of calls inside the sequence", "why_tests_cant": "Every start and length in every sequence, including runs across the index blocks of the container.", "anchors": ["forward_enumerator.hpp"]}
{"id": "C57", "title": "A builder can be appended to itself", "statement": "After b.append(b) the bit_vector_builder b holds its former sequence twice.", "quantifier": "every history of calls that filled the builder, every growth policy of the vector", "why_tests_cant": "No test appends a builder to itself; the outcome depends on the length and on what lies behind the vector.", "anchors": ["bit_vector.hpp: bit_vector_builder::append"]}
{"id": "C58", "title": "Mapping a truncated file is detected", "statement": "Mapping a structure from fewer bytes than were frozen reports an error and reads nothing outside the bytes given.", "quantifier": "every structure, every proper prefix of its frozen image", "why_tests_cant": "Every prefix of every image; reads past the end of a mapping often go unnoticed.", "anchors": ["mapper.hpp: map, detail::map_visitor"]}
{"id": "C59", "title": "Every 64-bit integer can be stored", "statement": "gamma_vector, gamma_bit_vector, elias_fano_list and elias_fano_compressed_list can be built from any sequence of 64-bit integers.", "quantifier": "every sequence of 64-bit unsigned integers", "why_tests_cant": "Random tests do not reach the few largest integers.", "anchors": ["gamma_vector.hpp: constructor", "gamma_bit_vector.hpp: constructor", "elias_fano_list.hpp: constructor", "elias_fano_compressed_list.hpp: constructor"]}
{"id": "C60", "title": "ceil_div rounds up", "statement": "ceil_div(a, b) on 64-bit integers is the least q with a <= q * b.", "quantifier": "all a below 2^64, all b from 1 below 2^64", "why_tests_cant": "2^128 argument pairs; the failures need a sum of the arguments above 2^64.", "anchors": ["util.hpp: ceil_div"]}
{"id": "C61", "title": "Frozen bp_vectors do not depend on uninitialised memory", "statement": "The bytes written when a bp_vector built from a bit sequence is frozen are determined by the sequence and the hint flags.", "quantifier": "every bit sequence including the empty one, every previous content of the memory of the object", "why_tests_cant": "The content of uninitialised memory is not under a test's control.", "anchors": ["bp_vector.hpp: constructors, map", "bp_vector.cpp: build_min_tree"]}
{"id": "C62", "title": "Searches for a bit that does not exist stop at an assertion", "statement": "predecessor0/1 and successor0/1 of bit_vector, and predecessor1/successor1 of elias_fano, called where no bit of that kind exists in that direction, fail an assertion; they never return a position and never read outside the array.", "quantifier": "every bit sequence or stored sequence and every in-range position without an answer", "why_tests_cant": "The tests stop calling before the answers run out; a wrong position returned beyond the last bit depends on the padding of the last word.", "anchors": ["bit_vector.hpp: predecessor0, successor0, predecessor1, successor1", "elias_fano.hpp: predecessor1, successor1"]}
{"id": "C63", "title": "Calls outside the contract stop at an assertion", "statement": "Every query or builder call whose arguments violate the documented precondition (index out of range, value out of order or too large, position that does not hold a parenthesis of the needed kind, empty range) fails an assertion before any memory outside the structure is touched.", "quantifier": "every structure, every argument that violates the precondition", "why_tests_cant": "A test that violates a precondition aborts; whether all violating arguments are caught cannot be enumerated, in particular those near 2^64.", "anchors": ["bit_vector.hpp: operator[], get_bits, get_word", "rs_bit_vector.hpp: rank, select, select0", "darray.hpp: select", "darray64.hpp: select", "elias_fano.hpp: queries and push_back", "gamma_vector.hpp, gamma_bit_vector.hpp: operator[]", "nibble_vector.hpp", "bp_vector.cpp: find_close, find_open, enclose, excess_rmq", "cartesian_tree.hpp: rmq", "topk_vector.hpp: set"]}
{"id": "C64", "title": "The frozen file has the documented field order and encoding", "statement": "freeze() writes the flags and then the members of the structure in the order of their map() functions, base classes and nested structures in place: integers in little-endian bytes, vectors as a 64-bit length followed by the elements. For a bit_vector, bit i of the sequence is bit i mod 8 of byte 24 + i/8 of the file.", "quantifier": "every structure, every state of it, all flags", "why_tests_cant": "Tests freeze and map with the same code, so two compensating mistakes (members exchanged in both directions) go unnoticed and break old files.", "anchors": ["mapper.hpp: freeze_visitor, freeze", "map() members of all structures"]}
{"id": "C65", "title": "The dump of a size tree lists every node once", "statement": "size_node::dump writes one line per node, parents before children in order, indented by four blanks per level, with the name of the node and its size in decimal. The tree of each structure has a node for each vector and each class among its members, under the name given in map(), with the bytes it takes in the frozen file.", "quantifier": "every size tree, in particular that of every structure", "why_tests_cant": "The output is only read by people; trees of any shape and depth occur.", "anchors": ["mapper.hpp: size_node::dump, size_tree_of"]}
{"id": "C66", "title": "fast_getline is defined and keeps lines apart for every file content", "statement": "fast_getline has a defined result for every file content, and what it returns is part of one line of the file.", "quantifier": "every file content, NUL bytes included", "why_tests_cant": "All contents; NUL bytes do not occur in the test files.", "anchors": ["util.hpp: fast_getline"]}
{"id": "C67", "title": "The test generators produce one balanced tree for every value of rand()", "statement": "random_binary_tree, random_bp and bp_path append to what the builder holds one tree (an opening parenthesis, a balanced sequence, its closing parenthesis) of the requested size; none of their assertions fails; the tests of bp_vector pass on all of it.", "quantifier": "every sequence of values of rand(), every size in the contract, std::vector<char> and bit_vector_builder", "why_tests_cant": "The tests run the generators with one seed and a few sizes.", "anchors": ["test_bp_vector_common.hpp: random_binary_tree_helper, random_binary_tree, random_bp, bp_path", "test_bp_vector.cpp", "test_bp_vector_rmq.cpp"]}
{"id": "C68", "title": "The project's own test checks pass on every input", "statement": "The checks that the test programs make on fixed or random inputs are passed, without undefined behaviour, on every input within the contract of the structure.", "quantifier": "every bit sequence, integer list, balanced sequence, ordered vector, every growth policy and every value of rand()", "why_tests_cant": "Each test runs its checks on a handful of inputs drawn with one seed.", "anchors": ["test_rank_select_common.hpp", "test_bit_vector.cpp", "test_rs_bit_vector.cpp", "test_darray.cpp", "test_elias_fano.cpp", "test_elias_fano_compressed_list.cpp", "test_gamma_vector.cpp", "test_gamma_bit_vector.cpp", "test_bp_vector.cpp", "test_bp_vector_rmq.cpp", "test_cartesian_tree.cpp", "test_topk_vector.cpp", "test_mapper.cpp"]}
{"id": "C69", "title": "The test oracles accept exactly the right answers", "statement": "test_equal_bits, the list checks, test_rank_select, test_darray.cpp, test_delta, test_select_enumeration and test_parentheses succeed on a structure if and only if all its answers to the checked queries are the specified ones. The checks of excess_rmq, cartesian_tree and topk_vector succeed if and only if the answers at the drawn positions are the specified ones.", "quantifier": "every bit sequence or list and every structure, right or wrong", "why_tests_cant": "A test cannot show that it would reject every wrong structure.", "anchors": ["test_rank_select_common.hpp: test_equal_bits, test_rank_select0, test_rank_select1", "test_bp_vector.cpp: test_parentheses", "test_gamma_vector.cpp", "test_elias_fano_compressed_list.cpp", "test_bp_vector_rmq.cpp: test_rmq", "test_cartesian_tree.cpp: test_rmq", "test_topk_vector.cpp: test_topk", "test_rank_select_common.hpp: test_delta, test_select_enumeration", "test_darray.cpp"]}
{"id": "C70", "title": "Building a vector leaves the builder empty and independent", "statement": "After a bit_vector was constructed from a bit_vector_builder, the builder is empty and can be filled again, and no later call on the builder changes what any query on the vector returns.", "quantifier": "every call history before the construction, every call history on the builder after it, every growth policy of std::vector", "why_tests_cant": "The tests never touch a builder after building from it; the effect on the vector depends on the number of bits modulo 64 and on which calls follow.", "anchors": ["bit_vector.hpp: bit_vector(bit_vector_builder*), bit_vector_builder::move_bits, push_back, append_bits, append, set, zero_extend", "mappable_vector.hpp: steal"]}
{"id": "C71", "title": "The searching queries take a bounded number of loop rounds", "statement": "select and select0 of rs_bit_vector take at most k rounds of binary search in a vector of at most 512 (2^k - 1) bits, with hints or without. select of darray reads at most 1024 words after the first one, that of darray64 at most 64. find_close, find_open, enclose and excess_rmq visit at most k + 1 nodes on the way up and at most k + 1 on the way down in the tree of a sequence of at most 8192 * 2^k parentheses. With select hints, the rounds of the binary search are the logarithm of the number of blocks over which a chunk of 1024 ones (or zeros) spreads, however long the vector is.", "quantifier": "every bit sequence, every argument within the contract, every number k", "why_tests_cant": "The tests check results, not the work done, on a few sizes; a slow search returns the same answers.", "anchors": ["rs_bit_vector.hpp: select, select0", "darray.hpp: flush_cur_block, select", "darray64.hpp: select", "bp_vector.cpp: search_min_tree, find_close, find_open, find_min_superblock, excess_rmq"]}
{"id": "C72", "title": "The line iterators are forward iterators", "statement": "buffer_line_iterator and line_iterator meet the requirements of the forward traversal they declare: iterating forms no invalid pointer and reads no uninitialised member, copies advance independently, and two iterators are equal exactly if they stand at the same line.", "quantifier": "every buffer or file content, every number of increments", "why_tests_cant": "All contents and positions; an invalid pointer that is never dereferenced and an uninitialised flag that is only copied leave no trace.", "anchors": ["util.hpp: buffer_line_iterator, line_iterator, lines, mmap_lines"]}
{"id": "C73", "title": "The monotone generator draws sorted values and the Elias-Fano benchmark enumerates them all", "statement": "monotone_generator(m, bits) returns m values of bits bits in ascending order and is done after exactly m of them, whatever values the distribution draws. The benchmark of elias_fano stores them and computes the exclusive or of the stored values.", "quantifier": "every number of values, every number of bits, every outcome of the random draws", "why_tests_cant": "No test runs the benchmark; the generator is random, and the word depth and the universe reach their limits only at 64 bits.", "anchors": ["perftest_elias_fano.cpp: monotone_generator, ef_enumeration_benchmark", "perftest_common.hpp: timer_runner"]}
{"id": "C74", "title": "The benchmarks of bp_vector and cartesian_tree end and stay within the contract", "statement": "time_visit ends on every random tree, calls find_close only at opening parentheses and once per set random bit. time_avg_rmq asks for ranges inside the sequence only and every answer is the leftmost minimum. Every benchmark loop runs its body once.", "quantifier": "every even tree size, every number of values, every sample size, every outcome of the random draws", "why_tests_cant": "No test runs the benchmarks; the visit depends on the random bits and on the shape of the tree.", "anchors": ["perftest_bp_vector.cpp: time_visit, build_random_binary_tree", "perftest_bp_vector_rmq.cpp: time_avg_rmq", "perftest_cartesian_tree.cpp: time_avg_rmq", "perftest_common.hpp: timer_runner"]}
{"id": "C75", "title": "Enumerators asked past their last element stop at an assertion", "statement": "A call of next, take, skip, skip_no_move, skip0 or skip_zeros on an enumerator that has no such element left fails an assertion, at whatever position the enumerator was created and whatever was called before.", "quantifier": "every sequence, every start position, every history of calls, every argument that reaches past the end", "why_tests_cant": "A test that runs past the end aborts or reads memory it does not own; what happens depends on the length modulo 64 and on the fill state of the buffer, which depends on the whole history.", "anchors": ["bit_vector.hpp: enumerator::next, take, skip_zeros, fill_buf", "bit_vector.hpp: unary_enumerator::next, skip, skip_no_move, skip0", "elias_fano.hpp: select_enumerator::next"]}
{"id": "C76", "title": "freeze reports a write that fails", "statement": "The number freeze returns is the number of bytes of the image that reached the file; a file that did not receive the whole image can be told from the result of freeze or from the state of the stream.", "quantifier": "every structure with a map() member, every layout, every behaviour of the buffered stream and of the file: unopened, failing during any write after any number of bytes, failing when the stream is closed", "why_tests_cant": "Tests write small files to a working disk; a full disk or a failing flush at an arbitrary byte is not exercised.", "anchors": ["mapper.hpp: freeze_visitor", "mapper.hpp: freeze (both overloads)"]}
{"id": "C77", "title": "What is built depends only on the contents", "statement": "Building a structure from the same values gives the same words whatever the growth policy of std::vector, the expected size given to the builder and the contents of uninitialised memory; two builder histories with the same contents give the same vector.", "quantifier": "every two growth policies, every input (also those that trip an assertion), every pair of histories of builder calls with equal contents", "why_tests_cant": "A test runs with one standard library and one growth policy; reproducibility of the frozen images concerns all pairs.", "anchors": ["bit_vector.hpp: bit_vector_builder", "elias_fano.hpp: elias_fano_builder", "gamma_vector.hpp, gamma_bit_vector.hpp: build", "cartesian_tree.hpp: cartesian_tree::builder", "topk_vector.hpp: topk_vector"]}
{"id": "C78", "title": "decode_vbyte accepts exactly the codes append_vbyte writes", "statement": "decode_vbyte returns a value and a length for the codes written by append_vbyte and reports any other bytes.", "quantifier": "every byte string, every offset", "why_tests_cant": "The test decodes only what it encoded; overlong, overflowing and unterminated codes are infinitely many and never tried.", "anchors": ["vbyte.hpp: decode_vbyte", "vbyte.hpp: append_vbyte, vbyte_size"]}
{"id": "C79", "title": "Ranges of stl_string_adaptor are prefix-free keys in the order of the strings", "statement": "The range stl_string_adaptor gives for a string lies inside the memory of the string; ranges of different strings are different, none is a prefix of another, and they are ordered as the strings.", "quantifier": "every pair of strings", "why_tests_cant": "No test uses the adaptor; prefix-freeness concerns all pairs of strings, including those with an embedded NUL.", "anchors": ["util.hpp: stl_string_adaptor", "util.hpp: identity_adaptor"]}
{"id": "C80", "title": "A mappable_vector call that throws keeps the vectors valid and leaks nothing", "statement": "When an allocation, the assignment to the deleter or an iterator of the range throws during a constructor, assign or steal, every living vector still shows elements it can be read for, and every buffer is still owned by a living vector.", "quantifier": "every history of calls with any of them throwing", "why_tests_cant": "Allocations never fail in the tests and their ranges never throw; which of infinitely many histories meets a failure cannot be enumerated.", "anchors": ["mappable_vector.hpp: constructor from a range", "mappable_vector.hpp: steal, assign, clear"]}
{"id": "C81", "title": "topk makes at most 2k + 1 range queries", "statement": "topk(a, b, k) makes at most 2k + 1 queries to the cartesian tree and at most b - a + 1; after n calls of next() the queue of an enumerator holds at most n + 1 entries and at most one per element left.", "quantifier": "every vector, interval, k, number of calls, and every conforming std::push_heap and std::pop_heap", "why_tests_cant": "Tests check the results, not the number of queries or the memory of the queue, and only for sampled intervals.", "anchors": ["topk_vector.hpp: enumerator::next", "topk_vector.hpp: topk"]}
{"id": "C82", "title": "A builder call that runs out of memory has no effect", "statement": "If a call of bit_vector_builder throws because the vector of its words cannot grow, the builder still holds the bits it held before and can be used further.", "quantifier": "every history of in-contract builder calls, every growth policy of std::vector, and every limit on the memory of every call", "why_tests_cant": "No test makes an allocation fail; whether a call throws depends on the capacity left by all calls before it.", "anchors": ["bit_vector.hpp: bit_vector_builder::append_bits", "bit_vector.hpp: bit_vector_builder::zero_extend", "bit_vector.hpp: bit_vector_builder::append", "bit_vector.hpp: bit_vector_builder::push_back", "bit_vector.hpp: bit_vector_builder::reserve"]}
{"id": "C83", "title": "What the builders reserve up front is enough", "statement": "After reserve(n) a bit_vector_builder does not move its words while it holds at most n bits. elias_fano_builder(n, m) never reallocates in m calls of push_back, and cartesian_tree::builder(e) never reallocates its parentheses for up to e elements, its finalization included; the words reserved are exactly those needed when all announced elements are pushed.", "quantifier": "every history of builder calls, every admissible elias_fano input, every sequence and comparator, and every growth policy of std::vector", "why_tests_cant": "A reservation that is a word short or a factor too large gives the same results; only the number of reallocations differs, which no test observes.", "anchors": ["bit_vector.hpp: bit_vector_builder::reserve", "elias_fano.hpp: elias_fano_builder::elias_fano_builder", "cartesian_tree.hpp: builder::builder"]}
{"id": "C84", "title": "Byte order", "statement": "The operations that look at the bytes of integers - freeze, map and bit_vector::get_word56 - do not depend on the byte order of the machine: a structure frozen on one machine maps to itself on another, and get_word56 returns the bits asked for.", "quantifier": "for both byte orders, every layout and all member values that fit their types, all memory around the image, all flags, every bit sequence and every position whose 8 bytes lie in the array", "why_tests_cant": "Tests run on one machine; the source asks itself in a comment whether to check the byte order, and no test can answer that without a machine of the other kind.", "anchors": ["bit_vector.hpp:280-285", "mapper.hpp:53-88", "mapper.hpp:102-145"]}
{"id": "C85", "title": "Sizes of 64 bits", "statement": "The builder computes its sizes in 64 bits. A call whose size does not fit is noticed: it throws and leaves the builder as it was; otherwise the 64-bit computation agrees with exact integers.", "quantifier": "for every history of builder calls and every argument, at any growth policy of std::vector; overflow after any history", "why_tests_cant": "The sizes near 2^64 that make the sums wrap cannot be reached by building vectors; only arguments can be that large, and no test passes them.", "anchors": ["bit_vector.hpp:14-17", "bit_vector.hpp:27-42", "bit_vector.hpp:100-107", "util.hpp:264-270"]}
{"id": "C86", "title": "A bp_vector over the parentheses of an ordinal tree navigates the tree", "statement": "Let a bp_vector be built on the balanced parentheses of an ordinal tree with fewer than 2^31 parentheses. For every node, find_close and find_open delimit its subtree (twice as many parentheses as nodes), excess is its depth, enclose of a child is its parent, first child and next sibling are found by stepping past the opening or past the closing parenthesis, rank numbers the nodes in preorder with select as inverse, and find_close, excess_rmq and enclose together give the lowest common ancestor of any two nodes.", "quantifier": "for all ordinal trees whose encoding is shorter than 2^31, all nodes and pairs of nodes", "why_tests_cant": "The tests compare find_open, find_close, enclose and excess_rmq with a stack on a few random sequences; they never check that the operations fit together as tree navigation, and the number of trees and pairs of nodes is unbounded.", "anchors": ["bp_vector.hpp: enclose", "bp_vector.cpp: find_close, find_open, excess, excess_rmq", "rs_bit_vector.hpp: rank, select"]}
{"id": "C87", "title": "auto_file closes every file it opens exactly once", "statement": "Let a program open files through auto_file in nested blocks and use what get() returns only inside the block of its auto_file. Whichever fopen calls fail and wherever exceptions are thrown, every file that was opened is closed exactly once, after its last use and in reverse order of opening; a file that cannot be opened leaves an exception naming it and nothing to close. A FILE kept beyond its auto_file is closed when used, and a pointer that no auto_file has set cannot be used. The iterators of an mmap_lines that was destroyed still give the line they are at, and moving them is defined from the last line only.", "quantifier": "for all programs of nested blocks, all outcomes of fopen, all points of exceptions; for all buffers and iterators", "why_tests_cant": "The project has no test of util.hpp files at all; failing opens and exceptions at every point of every nesting cannot be enumerated.", "anchors": ["util.hpp: auto_file", "util.hpp: mmap_lines", "util.hpp: buffer_line_iterator::dereference"]}
{"id": "C88", "title": "map accepts only what freeze writes", "statement": "Whenever map succeeds on a memory block of arbitrary bytes, at whatever position, the members it read have the values of their C++ types and the bytes it consumed are exactly the bytes freeze writes for these members under some flags. The result depends on these bytes only: neither their position nor what surrounds them matters. Two files that map to the same members agree in size and in every byte after the 8 bytes of flags. The members read are those of some object, for every mappable structure.", "quantifier": "for all memory blocks below 2^64 bytes, all layouts of nonempty types, all positions, all addresses", "why_tests_cant": "The test of the mapper maps files that freeze has just written; files of arbitrary content are never tried and cannot be enumerated.", "anchors": ["mapper.hpp: map", "mapper.hpp: map_visitor::operator()", "mapper.hpp: freeze"]}
{"id": "C89", "title": "A frozen file with a changed byte is not mapped to an unusable object", "statement": "If one byte of a frozen bit_vector is changed, mapping the file either fails or gives an object whose operator[] is defined at every position below size().", "quantifier": "for all bit vectors, all flags, all changed bytes", "why_tests_cant": "No test changes a frozen file.", "anchors": ["mapper.hpp: map", "mapper.hpp: map_visitor::operator()", "bit_vector.hpp: bit_vector::map", "bit_vector.hpp: bit_vector::operator[]"]}
{"id": "C90", "title": "mmap_lines and lines() read the same lines", "statement": "For every text file, mmap_lines and lines() with trimming give the same sequence of lines; without trimming, the lines of lines() put together are the file.", "quantifier": "for all files without NUL characters", "why_tests_cant": "There is no test of the line readers; files are unbounded, and the differences show only for unterminated last lines and repeated carriage returns.", "anchors": ["util.hpp: mmap_lines", "util.hpp: buffer_line_iterator::increment", "util.hpp: fast_getline", "util.hpp: trim_newline_chars", "util.hpp: lines"]}
{"id": "C91", "title": "Building a cartesian tree takes linear time", "statement": "Building a cartesian_tree from n elements makes exactly n rounds of the loops that pop the stack, and for n >= 2 calls the comparator at least n - 1 and at most 2n - 3 times, whatever the comparator answers.", "quantifier": "for all sequences, all comparators (orders or not), all capacities and growth policies", "why_tests_cant": "The tests check answers of rmq, not the work done to build; the bound is over all sequences and all comparators, and a single push may pop the whole stack.", "anchors": ["cartesian_tree.hpp: cartesian_tree::builder::push_back", "cartesian_tree.hpp: cartesian_tree::builder::finalize", "cartesian_tree.hpp: cartesian_tree::build_from_range"]}
{"id": "C92", "title": "Frozen files do not depend on the width of size_t", "statement": "A structure frozen by a build with 64-bit size_t is mapped to the same members by a build with 32-bit size_t, and the other way round.", "quantifier": "for all bit vectors of less than 2^32 bits, all flags, both directions; sizes and same-width round trips for all structures", "why_tests_cant": "The tests freeze and map with the same build; no test runs on two platforms.", "anchors": ["mapper.hpp: freeze_visitor::operator()", "mapper.hpp: map_visitor::operator()", "bit_vector.hpp: bit_vector::m_size", "darray.hpp: darray::m_positions", "darray64.hpp: darray64::m_num_ones", "nibble_vector.hpp: nibble_vector::m_size"]}
{"id": "C93", "title": "elias_fano rank and membership pass only the values of one bucket", "statement": "The loops of rank(pos) and operator[](pos) run exactly as many rounds as there are values to pass in the bucket of pos (the values with the same high part): those not smaller for rank, those greater and at most one more for operator[]. If the values are distinct this is at most the width of a bucket, which is at most n / m.", "quantifier": "for all universes, all non-decreasing sequences with a rank index, all positions, all limits on the rounds", "why_tests_cant": "Tests check results, not work; the number of rounds depends on the sequence and on how it falls into buckets.", "anchors": ["elias_fano.hpp: elias_fano::rank", "elias_fano.hpp: elias_fano::operator[]", "elias_fano.hpp: elias_fano_builder::elias_fano_builder"]}
{"id": "C94", "title": "Searches and enumerators of bit_vector read exactly the words on the way to what they find", "statement": "predecessor0/1, successor0/1 and the calls next, skip, skip_no_move and skip0 of a unary_enumerator run one round of their loop for every word boundary between the position they start from and the position they return. Any history of calls without skip_no_move takes fewer rounds in total than the vector has words.", "quantifier": "for all vectors of bits, all positions, all histories of calls whose results exist", "why_tests_cant": "Tests check results, not work; the total over an arbitrary history cannot be enumerated.", "anchors": ["bit_vector.hpp: bit_vector::predecessor0", "bit_vector.hpp: bit_vector::predecessor1", "bit_vector.hpp: bit_vector::successor0", "bit_vector.hpp: bit_vector::successor1", "bit_vector.hpp: bit_vector::unary_enumerator"]}
{"id": "C95", "title": "Switching assertions off changes no result", "statement": "In a build with NDEBUG every function of the library that contains an assertion, or calls one that does, returns the same result as in a build with assertions wherever the latter returns one. In particular no assertion has a side effect that matters (topk_vector::topk advances its enumerator inside one), so all other claims carry over to such a build.", "quantifier": "for all arguments and object states of the 150 functions concerned", "why_tests_cant": "The tests are built in one of the two ways only, and compare results for some inputs.", "anchors": ["bit_vector.hpp: bit_vector_builder::append_bits", "elias_fano.hpp: elias_fano::select_enumerator::next", "bp_vector.cpp: bp_vector::find_min_superblock", "topk_vector.hpp: topk_vector::topk", "rs_bit_vector.hpp: rs_bit_vector::select", "util.hpp: buffer_line_iterator::increment", "mapper.hpp: size_tree_of", "mappable_vector.hpp: operator[]"]}
{"id": "C96", "title": "Without assertions, calls outside the contract do no harm", "statement": "In a build with NDEBUG, a call that the assertions would reject still leaves the vector as if only the bits within len had been passed, reads a zero past the end, counts all ones there in rank, searches for a bit that does not exist stop inside the words, and an iterator over lines at its end has no line.", "quantifier": "for all histories of builder operations, values, lengths and positions, and all bit sequences", "why_tests_cant": "Tests pass values that fit their length and positions inside the vector; assertions are on in the test build.", "anchors": ["bit_vector.hpp: append_bits", "bit_vector.hpp: set_bits", "bit_vector.hpp: push_back", "bit_vector.hpp: operator[]", "bit_vector.hpp: predecessor1", "bit_vector.hpp: successor0", "broadword.hpp: msb", "util.hpp: buffer_line_iterator::dereference", "rs_bit_vector.hpp: rank"]}
{"id": "C97", "title": "A default-constructed object is the object built from nothing", "statement": "Freezing a default-constructed object writes the flags and zeros, mapping such a file gives the default object, and the object equals the one that the constructor builds from an empty sequence.", "quantifier": "for all classes that can be frozen, all flags, all memory around the file, all growth policies and all contents of uninitialised members", "why_tests_cant": "No test freezes, maps or compares a default-constructed object, and the value of an uninitialised member varies from run to run.", "anchors": ["bit_vector.hpp: bit_vector", "rs_bit_vector.hpp: rs_bit_vector", "bp_vector.hpp: bp_vector", "elias_fano.hpp: elias_fano", "gamma_vector.hpp: gamma_vector", "cartesian_tree.hpp: cartesian_tree", "topk_vector.hpp: topk_vector", "darray.hpp: darray", "darray64.hpp: darray64", "nibble_vector.hpp: nibble_vector", "mapper.hpp: freeze"]}
{"id": "C98", "title": "bp_vector and cartesian_tree work during static initialisation", "statement": "find_close, find_open, enclose, excess_rmq and cartesian_tree::rmq give the same answers when they are called from the initialiser of a static object of another file as they do after main has started.", "quantifier": "for all vectors, positions and ranges; the excess tables as they are before and after their constructor has run", "why_tests_cant": "The order in which the static objects of different files are initialised is left open by the language; a test runs after main has started.", "anchors": ["bp_vector.cpp: excess_tables", "bp_vector.cpp: find_close_in_word", "bp_vector.cpp: find_open_in_word", "bp_vector.cpp: excess_rmq_in_word", "bp_vector.cpp: find_close", "bp_vector.cpp: find_open", "bp_vector.cpp: excess_rmq", "cartesian_tree.hpp: rmq"]}
{"id": "C99", "title": "The warmup flag of map changes only when the bytes are read", "statement": "Whether map is called with the flag warmup or without it, the same files are mapped, to the same object and with the same number of bytes.", "quantifier": "for all memory blocks, layouts, positions and addresses, with and without alignment checks", "why_tests_cant": "Tests map files that freeze has just written; whether a damaged file is noticed depends on what is read, and when.", "anchors": ["mapper.hpp: map_visitor", "mapper.hpp: map", "mappable_vector.hpp: operator[]"]}
{"id": "C100", "title": "Objects with different contents are frozen to different files", "statement": "Two objects of one type that freeze to the same bytes were built from the same contents: the file determines the bits, integers, positions, parentheses or values, and the hints or index flags play no role in telling them apart.", "quantifier": "for all pairs of contents within the size limits, all hint and index flags, orders and flags of the file", "why_tests_cant": "The claim is about all pairs of inputs; tests map a file back and compare with the one object it came from.", "anchors": ["mapper.hpp: freeze", "bit_vector.hpp: map", "elias_fano.hpp: map", "cartesian_tree.hpp: map", "topk_vector.hpp: map"]}
{"id": "C101", "title": "find_close and enclose stop when the parenthesis they look for does not exist", "statement": "On a vector in which every closing parenthesis has an opening one, find_close of an opening parenthesis that is never closed and enclose of one that nothing encloses do not return: any result is the position of the right parenthesis of the vector.", "quantifier": "for all vectors shorter than 2^31 whose prefixes are non-negative, all opening parentheses, all hint flags, all values of a shift by 64", "why_tests_cant": "Tests query balanced sequences only, in which find_close always has an answer; what the search does with an absent answer depends on the position relative to word, block and superblock ends.", "anchors": ["bp_vector.cpp: find_close", "bp_vector.cpp: find_close_in_block", "bp_vector.cpp: search_min_tree", "bp_vector.cpp: in_node_range", "bp_vector.hpp: enclose"]}
{"id": "C102", "title": "cartesian_tree is safe with a comparator that is not an order", "statement": "Whatever a comparator answers, even where it is no strict weak ordering, a cartesian_tree can be built with it and rmq(a, b) returns one index of [a, b], which is determined by the answers of the comparator on the elements of the range alone. An element that is before all earlier ones of the range and has no later one before it is the answer. With less_equal in place of less, rmq returns the last minimum instead of the first. On a range of elements among which the comparator is a strict weak ordering the answer is the leftmost minimum, whatever elements the vector has outside the range: floating point vectors holding values that are not numbers are answered right on ranges without such values, and on all other ranges as well.", "quantifier": "every element type, every comparator without any condition on it, every vector of fewer than 2^30 - 1 elements, every range", "why_tests_cant": "A test uses orders; which comparisons the stack makes, and so what a comparator that is no order can do to the tree and to far away ranges, depends on the whole vector.", "anchors": ["cartesian_tree.hpp: builder::push_back", "cartesian_tree.hpp: builder::finalize", "cartesian_tree.hpp: cartesian_tree::rmq"]}
{"id": "C103", "title": "Containers with the same contents can be exchanged", "statement": "Take one sequence of bits and hold it in a bit_vector, in an rs_bit_vector (with or without hints), in a bit_vector with a darray1 and a darray0, and in an elias_fano built from the same bit_vector_builder. All of them give the same answers wherever they offer the same query: access, rank, select of ones, select of zeros, predecessor1 and successor1; and predecessor1 and successor1 equal select after rank in the two other structures. Take one sequence of integers and hold it in an elias_fano_list, an elias_fano_compressed_list, a gamma_vector and a gamma_bit_vector, and in a nibble_vector if every element is below 16: all have the same size and the same element at every index.", "quantifier": "every sequence of fewer than 2^61 bits, every position and index at which the answer exists, every hint setting and growth policy; every sequence of fewer than 2^57 integers below 2^64 - 2 with a sum below 2^64 - 1, every index", "why_tests_cant": "the unit tests compare each container with a naive loop over a few random inputs; they never compare two containers with each other, and the agreement is over all inputs and all positions", "anchors": ["elias_fano.hpp: elias_fano(bit_vector_builder*, bool), rank, select, predecessor1, successor1, operator[]", "bit_vector.hpp: operator[], predecessor1, successor1", "rs_bit_vector.hpp: rank, select, select0", "darray.hpp: select", "elias_fano_list.hpp: operator[]", "elias_fano_compressed_list.hpp: operator[]", "gamma_vector.hpp: operator[]", "gamma_bit_vector.hpp: operator[]", "nibble_vector.hpp: operator[]"]}
{"id": "C104", "title": "Enumerating an elias_fano costs one pass over its words", "statement": "Take any elias_fano and k+1 calls of next() on an enumerator created at value i. The loop over the words of the high bits makes, in all calls together, exactly as many rounds as there are word boundaries between the ones of value i and value i+k. The low bits are read ceil((k+1)/(64/l)) times when a low part has l bits, and never when l is 0. In total that is at most 3m/64 rounds, whatever the universe is, and at most one read per value.", "quantifier": "all universes n < 2^64, all m, all sorted lists of at most m values, all start positions and numbers of calls", "why_tests_cant": "Tests compare the values, not the work. An enumerator that searched the high bits from the start on each call, or read the low bits anew for each value, would pass all of them.", "anchors": ["elias_fano.hpp: elias_fano::select_enumerator::next", "elias_fano.hpp: elias_fano::select_enumerator::select_enumerator", "bit_vector.hpp: bit_vector::unary_enumerator::next"]}
{"id": "C105", "title": "Several objects can be frozen to one file and mapped from it one after the other", "statement": "freeze takes an open stream, and map takes an address and returns how far it read. So any sequence of objects, of the same or of different types, can be frozen one after the other to one stream. Mapping each where the one before it ended restores all of them, and the numbers returned add up to the length of the file.", "quantifier": "all sequences of objects of all mappable types, all flags, all contents of the file before and behind them, all addresses", "why_tests_cant": "The tests map one object from one file each. Whether the next one is aligned depends on the number of bytes of the objects before it, and on most machines a misaligned read goes unnoticed.", "anchors": ["mapper.hpp: freeze", "mapper.hpp: map", "mapper.hpp: detail::freeze_visitor", "mapper.hpp: detail::map_visitor"]}
{"id": "C106", "title": "The generators of the tests reach every input", "statement": "random_bit_vector returns as many bits as it is asked for. With a density above 0 and at most 1, every bit vector of that length is produced by some values of rand(). Likewise every tree is produced by random_binary_tree and by random_bp for some values of rand() and a suitable size. So no wrong answer is out of reach of the tests for every seed.", "quantifier": "all bit vectors, all balanced sequences, all densities, all values of RAND_MAX", "why_tests_cant": "A test run shows one sequence of random numbers. That an input can never come up, whatever the seed is, cannot be seen from any number of runs.", "anchors": ["test_common.hpp: random_bit_vector", "test_bp_vector_common.hpp: random_binary_tree_helper, random_binary_tree, random_bp"]}
{"id": "C107", "title": "Lists built from ranges of other integer types", "statement": "The constructors of gamma_vector, gamma_bit_vector, elias_fano_compressed_list, elias_fano_list and nibble_vector accept a range of integers of any type and store its elements. For gamma_vector and elias_fano_compressed_list this fails for the greatest uint32_t (the sum wraps to zero and msb asserts), the greatest int and the greatest int64_t (signed overflow) and -1; for gamma_bit_vector also for the elements one below. All elements whose sum fits the promoted type give exactly the object the 64-bit values give. elias_fano_list adds in size_t and has no such elements. nibble_vector lets negative elements pass its assertion and shifts them.", "quantifier": "every integer type of 8, 16, 32 or 64 bits, signed or unsigned, and every range of its values (refutations: every prefix of elements that fit and every rest)", "why_tests_cant": "The tests build every list from std::vector<uint64_t>, so only one of the element types is ever instantiated; the failing elements are single values out of 2^32 or 2^64.", "anchors": ["gamma_vector.hpp: gamma_vector(Range const&)", "gamma_bit_vector.hpp: gamma_bit_vector(Range const&)", "elias_fano_compressed_list.hpp: elias_fano_compressed_list(Range const&)", "elias_fano_list.hpp: elias_fano_list(Range const&)", "nibble_vector.hpp: nibble_vector(Range const&)"]}
{"id": "C108", "title": "Enumerating gamma codes costs one pass over their words", "statement": "Reading k consecutive values with the enumerator of gamma_vector or gamma_bit_vector passes each word of the high bits between the first and the last value once, never goes back, and reads the low bits with at most one read per value and at most 2*bits/64 + 1 reads in all, where bits is the total length of the low parts.", "quantifier": "every list of values the vectors accept, every start index, every number of calls", "why_tests_cant": "The tests compare values only; no test counts the words read, and the worst case (codes of a little more than half a word, long runs of zeros) does not come up by chance.", "anchors": ["gamma_vector.hpp: forward_enumerator<gamma_vector>::next", "gamma_bit_vector.hpp: forward_enumerator<gamma_bit_vector>::next", "bit_vector.hpp: enumerator::take", "bit_vector.hpp: unary_enumerator::next"]}
{"id": "C109", "title": "How long frozen files are", "statement": "The file freeze makes of a structure has a length that follows from what was stored: exactly 24 + 8*ceil(n/64) bytes for a bit_vector, 24 + ceil(n/2) for a nibble_vector, a closed formula in the lengths of the codes for gamma_vector and gamma_bit_vector, and at most n*(1+1/4+1/16) bits for rs_bit_vector, n + 9/16 c for darray, m*(log2(n/m)+7) (11 with the rank index) for elias_fano, n*(1+1/4+1/8+1/64) for bp_vector, 2.8 n for cartesian_tree and 66.8 n for topk_vector, each plus a constant.", "quantifier": "every content the structure accepts, every choice of hints and index, all flags", "why_tests_cant": "The tests freeze one structure each and compare its file with size_of, which is computed by the same traversal; no test relates the length to the contents.", "anchors": ["mapper.hpp: freeze", "mapper.hpp: size_of", "rs_bit_vector.cpp: build_indices", "darray.hpp: darray", "elias_fano.hpp: elias_fano_builder", "gamma_vector.hpp: gamma_vector", "gamma_bit_vector.hpp: gamma_bit_vector", "bp_vector.cpp: build_min_tree", "cartesian_tree.hpp: build_from_range", "topk_vector.hpp: topk_vector"]}
{"id": "C110", "title": "Enumerators stay with their contents across swap", "statement": "As for the iterators of standard containers, an enumerator stays valid when its structure is swapped with another one and goes on with the contents it was made for. True for unary_enumerator. bit_vector::enumerator returns, at call i, a bit of what the object held at call 64*(i/64). The enumerators of gamma codes and of elias_fano take the lengths or high parts from the old contents and the low bits from the new.", "quantifier": "every two structures, every start position, every interleaving of calls of next and swaps", "why_tests_cant": "No test swaps a structure that has a live enumerator.", "anchors": ["bit_vector.hpp: swap", "bit_vector.hpp: enumerator::fill_buf", "bit_vector.hpp: unary_enumerator", "gamma_vector.hpp: forward_enumerator<gamma_vector>::next", "gamma_bit_vector.hpp: forward_enumerator<gamma_bit_vector>::next", "elias_fano.hpp: select_enumerator::next", "mappable_vector.hpp: swap"]}
{"id": "C111", "title": "The structures take little more space than any code must", "statement": "Whatever code in bits tells the possible contents of a given size apart, there are contents for which the frozen structure is hardly longer than their code: 255 bits more for bit_vector, 199 for nibble_vector, 7 bits per value more for elias_fano (11 with the index for rank), a factor 1 + 1/4 + 1/16 for rs_bit_vector, a factor 1 + 1/4 + 1/8 + 1/64 for bp_vector, and constants. Whatever is kept of n numbers to find the leftmost minimum of every range, there are numbers for which the cartesian_tree takes at most 7/5 of that and 1600 bits.", "quantifier": "every size, every universe, every code that is injective on the contents of that size", "why_tests_cant": "A statement about all codes and the worst contents of each size.", "anchors": ["mapper.hpp: freeze", "bit_vector.hpp: bit_vector", "rs_bit_vector.cpp: build_indices", "nibble_vector.hpp: nibble_vector", "elias_fano.hpp: elias_fano", "bp_vector.cpp: build_min_tree", "cartesian_tree.hpp: cartesian_tree"]}
{"id": "C112", "title": "The configuration of the build changes no result", "statement": "With any values of SUCCINCT_USE_INTRINSICS and SUCCINCT_USE_POPCNT, with and without NDEBUG, every function of broadword.hpp gives the same on every 64-bit word, arguments outside its contract included, and what it gives is right. The pointer that the prefetch of an enumerator forms stays within the words or right behind them for every position up to the end of the vector, and for every enumerator of gamma_vector and gamma_bit_vector at any index.", "quantifier": "every configuration, every 64-bit word and k, every vector and position", "why_tests_cant": "A build has one configuration, there are 2^64 words, and a pointer that is formed and not read through leaves no trace.", "anchors": ["intrinsics.hpp: popcount, byteswap64, bsf64, bsr64, prefetch", "broadword.hpp: popcount, reverse_bytes, select_in_word, msb, lsb", "mappable_vector.hpp: prefetch", "bit_vector.hpp: enumerator::enumerator", "gamma_vector.hpp: forward_enumerator", "gamma_bit_vector.hpp: forward_enumerator"]}
{"id": "C113", "title": "Growing a builder moves few words", "statement": "Over any history of calls on bit_vector_builder objects, whatever the growth policy of the std::vector in it, the results are right. When a reallocation other than in reserve makes room for at least twice the elements (libstdc++, libc++), the words moved by the reallocations of a builder are at most its words and its capacity together, times one more than the number of calls of reserve, and the other reallocations number at most 1 + log2(capacity) + log2(words); when it doubles the capacity (libc++), the same with the capacity alone; when it adds the k-th part to the capacity, the words moved are at most k times that. Without reserve the words moved are at most twice the words of the content with libc++, three times with libstdc++ and six times with Microsoft's library. A std::vector that takes only what is asked for would move n(n-1)/2 words for n words appended.", "quantifier": "every history of calls, every growth policy of the vector, also one that depends on its size", "why_tests_cant": "Timings depend on the allocator and the machine; a test runs finitely many histories under one library.", "anchors": ["bit_vector.hpp: bit_vector_builder::reserve, push_back, append_bits, zero_extend, one_extend, append, swap"]}
{"id": "C114", "title": "How deep random_binary_tree recurses", "statement": "For every even size of at least 2 and all values of rand(), the calls of random_binary_tree_helper nest exactly as deep as the binary tree they write is high: at least log2(size) and at most size / 2 deep. So a stack with room for size / 2 calls never overflows, and with values of rand() of 0 and 1 only no smaller one suffices. If the compiler turns the last call into a jump, the calls nest exactly as deep as the parentheses written, at most RAND_MAX / 2 + 2 and at most size / 2 deep; and size / 2 is reached if RAND_MAX is at least size - 4.", "quantifier": "every size, all values of rand(), every number of frames, every builder", "why_tests_cant": "A test runs with one compiler, one stack limit and the few values of rand() that srand(42) gives.", "anchors": ["test_bp_vector_common.hpp: random_binary_tree_helper, random_binary_tree"]}
{"id": "C115", "title": "Queries depend on few words", "statement": "What a query returns depends only on the words its answer lies in and on some words of the index, so damage elsewhere in an object or a mapped file does not change it. For any two objects of the same size: operator[] depends on one word, get_bits, get_word and get_word56 on the words of the bits read, an element of nibble_vector on one byte, rank and rank0 on the pair of the block and at most one word, select of elias_fano on no low bits but those of its own value. select and select0 of a built rs_bit_vector stay right in every object with the same ranks of blocks, the same two hints, and the pair and the word of the result. select of a built darray or darray64 stays right when the words before that of the first bit of the subblock and behind that of the result are anything, and select of a built elias_fano when all high bits and all low bits but those words are.", "quantifier": "every two objects of the same size, every position", "why_tests_cant": "A test would have to damage every other word of every object in every way.", "anchors": ["bit_vector.hpp: operator[], get_bits, get_word, get_word56", "rs_bit_vector.hpp: rank, rank0, select, select0", "nibble_vector.hpp: operator[]", "elias_fano.hpp: select", "darray.hpp: select", "darray64.hpp: select"]}
