# Formal model of ot/succinct in Rocq (Coq 8.16.1): design

## 1. What is modelled and how

Everything is written in plain Gallina over the standard library (`ZArith`, `List`, `Bool`, `Lia`, and `String` for names).
The model is executable; every definition cites the file and lines of `/repo` it models, and says where it simplifies.

* **Numbers.** All C++ integers are `Z`. A value of type `uint64_t` that the code treats as a
  *word* (bit pattern) is kept in `[0, 2^64)` by writing the wrap (`u64 x = x mod 2^64`)
  at every operation that can leave that range. `excess_t` (int32) and `int16_t`, `uint16_t`, `uint8_t`
  conversions are explicit wraps (`i32`, `i16`, `u16`, `u8`); arithmetic on `excess_t` is checked (`int32`) and undefined
  when it overflows. *Positions, sizes and loop counters* are exact integers: they are bounded by the size of an object
  in memory, so `uint64_t` addition on them cannot wrap; subtractions that can
  go below zero wrap (`sub64`). Functions on arbitrary numbers (`ceil_div`, vbyte, int2nat, the list builders) wrap everywhere.
  Positions of `bit_vector::enumerator` are exact too; this differs from the code only after the call histories
  of `C05_exact_refuted` that move past 2^64 bits.
* **Undefined behaviour.** Functions return `res A`, either `Ok a` or `Ub reason`; the reasons are
  out-of-bounds access, a shift by 64 or more, dereferencing a dangling pointer, signed overflow, a misaligned access, a failed `assert`, and
  exhausted fuel of a loop. A theorem of the form `f args = Ok v` therefore also says
  that no array is read out of bounds, every assert passes and every loop ends.
  Asserts are part of the model (the default CMake build has them enabled). Reading a
  `mappable_vector` out of bounds is reported as `OutOfBounds` although its `operator[]` (mappable_vector.hpp:101) has an assert
  of its own; only the raw-pointer reads (`unary_enumerator`'s `m_data`, `get_word56`, `num_ones`' `end() - 2`) have none.
  Three places shift by 64 on legal inputs and then mask the result out; there the model takes
  a *shift policy* argument, so that one theorem covers every value such a shift might yield and another states
  exactly when the shift is undefined.
* **What the language leaves open is an argument.** The growth of `std::vector` (any policy), the value of an uninitialised
  member, the signedness of `char`, the value of a shift by 64, the values of `rand()`, the element type and comparator, `std::push_heap` and
  `std::pop_heap` are all universally quantified.
* **Loops** are structural recursion over a list, or recursion on fuel that returns `Ub OutOfFuel`.
* **Vectors** (`std::vector`, `mappable_vector`) are lists; a read is checked (`rd`), a write too (`wr`). Where ownership or the
  identity of a buffer matters (`bit_vector_builder`'s `m_cur_word`, `mappable_vector`'s deleter) it is part of the state.

Files (`/verif/rocq/theories`): `Base` (words, outcomes), `Spec` and `S_*` (the independent specification:
rank, select, excess, matching, windows, lines, ... on `list bool` and `list Z`, without reference to the model),
`M_*` (model, no proofs), `Lib`, `P_*` (proofs), `Prop_*` (property theorems only, each with an example and
`Print Assumptions`).

## 2. Per property

Status and theorem names are those of `MANIFEST.json`; a name ending in `_refuted` states what the code does instead, one ending in `_partial` covers the part named in the note of the manifest.

| id | property | model | proof | theorems in | status |
|----|----------|-------|-------|-------------|--------|
| C01 | Builder operations build exactly the intended bit sequence | M_BitVector: builders with words, size, capacity, buffer identity and m_cur_word; one step per call | one-step refinement to `list bool` (P_Builder*), induction over the call list of any number of builders | Prop_BitVector | proved |
| C02 | A bit_vector built from a range stores that range | M_BitVector: constructor loop | loop invariant | Prop_BitVector | proved |
| C03 | Window reads return exactly the addressed bits | M_BitVector: get_bits, get_word, get_word56 on little-endian bytes | bit extensionality (`Z.bits_inj'`) | Prop_BitVector | proved |
| C04 | predecessor/successor return the nearest bit of the requested value | M_BitVector: four scans | induction on the words | Prop_BitVector | proved |
| C05 | The sequential bit enumerator reads the vector in order | M_BitVector: enumerator state and step | invariant relating m_buf, m_avail and the position; induction over the calls; exact result of the bad histories | Prop_BitVector, Prop_Stale | refuted in part |
| C06 | The unary enumerator visits ones and zeros in order | M_BitVector: unary_enumerator | the same | Prop_BitVector, Prop_Stale | refuted in part |
| C07 | Population count is exact for every word | M_Broadword, both `#if` branches | decomposition of a word into digits in base 256, no carry by linear arithmetic, complete sweep of a digit | Prop_Broadword | proved |
| C08 | select_in_word finds the k-th one of every word | M_Broadword, M_Tables | digits, sweep of the 256 by 8 table entries | Prop_Broadword, Prop_Tables | proved |
| C09 | Bit and byte reversal are exact | M_Broadword | bit extensionality | Prop_Broadword | proved |
| C10 | msb, lsb, bit_position and same_msb are exact | M_Broadword with bsf/bsr of M_Broadword (ISA manual) | de Bruijn table sweep; powers of two | Prop_Broadword | proved |
| C11 | Parallel step comparisons compare every lane | M_Broadword | digits in base 256 and 512, sweep of lane pairs | Prop_Broadword, Prop_Lanes | refuted in part |
| C12 | rank counts the ones of every prefix | M_RsBitVector: build_indices and rank | loop invariants of block and sub-block counters | Prop_RsBitVector | proved |
| C13 | select and select0 return the position of the n-th one and zero | M_RsBitVector: select, select0, with and without hints | invariants of the hint arrays and of the binary search | Prop_RsBitVector | proved |
| C14 | rank and select are mutually inverse | as C12, C13 | corollary, from the specification of rank and select | Prop_RsBitVector | proved |
| C15 | darray1/darray0 select is exact for sparse and dense blocks | M_Darray | invariant of the position scan; inventory lemmas for sparse and dense blocks | Prop_Darray | proved |
| C16 | darray64 select is exact | M_Darray: darray64 | invariant over append1 histories | Prop_Darray | proved |
| C17 | elias_fano stores the pushed positions | M_EliasFano | representation lemma high bits/low bits | Prop_EliasFano | proved |
| C18 | elias_fano rank, membership, predecessor and successor | M_EliasFano | scan of the high bits from the select0 position | Prop_EliasFano | proved |
| C19 | elias_fano differences and ranges agree with select | M_EliasFano | from C17 | Prop_EliasFano | proved |
| C20 | elias_fano enumeration agrees with select from every start | M_EliasFano: select_enumerator | invariant relating the unary enumerator to the index | Prop_EliasFano | proved |
| C21 | elias_fano_list returns the stored integers and their sum | M_EliasFano: elias_fano_list | prefix sums and C17, C19 | Prop_EliasFano | proved |
| C22 | elias_fano_compressed_list returns the stored integers | M_EliasFano: elias_fano_compressed_list | code lengths and C19 | Prop_EliasFano | proved |
| C23 | gamma_vector stores and enumerates its integers | M_Gamma | representation lemma; C05, C16 | Prop_Gamma | proved |
| C24 | gamma_bit_vector stores and enumerates its integers | M_Gamma | representation lemma; C05, C16 | Prop_Gamma | proved |
| C25 | vbyte decoding inverts encoding | M_Util: vbyte | induction on the 7-bit chunks | Prop_Util | proved |
| C26 | nibble_vector stores its nibbles | M_Util: nibble_vector | loop invariant | Prop_Util | proved |
| C27 | int2nat and nat2int are inverse bijections | M_Util: int2nat, nat2int with wrap and signed overflow | case analysis; refutation for every argument outside the range | Prop_Exact, Prop_Util | refuted in part |
| C28 | find_close returns the matching closing parenthesis | M_Bp: tables, in-word, in-block, min tree | in-word lemmas by digits and table sweep; tree invariant; search lemmas (P_Bp*) | Prop_Bp | proved |
| C29 | find_open returns the matching opening parenthesis | M_Bp | the same, backwards | Prop_Bp | proved |
| C30 | enclose returns the tightest enclosing pair | M_Bp | from find_open | Prop_Bp | proved |
| C31 | find_open and find_close are mutually inverse | M_Bp | from C28, C29 and uniqueness of the match | Prop_Bp | proved |
| C32 | excess is the depth at every position | M_Bp | block excess from rank | Prop_Bp | proved |
| C33 | excess_rmq returns the leftmost minimum-excess position | M_Bp: excess_rmq and its five helpers | leftmost minimum composed over word, block, superblock and tree | Prop_BpRmq | refuted in part |
| C34 | cartesian_tree rmq returns the leftmost range minimum | M_Cartesian | stack invariant of the builder; depth of position = order of values; C33 | Prop_Cartesian | proved |
| C35 | topk returns the k largest entries in order | M_Topk; std::push_heap and std::pop_heap are parameters satisfying the C++ standard | queue invariant: the queued intervals partition what is not yet reported | Prop_Topk, Prop_Vic | proved |
| C36 | Freezing then mapping restores the structure | M_Mapper: layouts and data for all map() members | induction over the layout | Prop_Mapper, Prop_Typed, Prop_Vectors | proved |
| C37 | size_of predicts the frozen size | M_Mapper: sizeof_visitor | induction over the layout | Prop_Mapper | proved |
| C38 | mmap_lines iteration splits a buffer into lines | M_Util: buffer_line_iterator | induction over the buffer | Prop_Util | proved |
| C39 | fast_getline returns the next line of the file | M_Util: fast_getline with fgets as in ISO C | induction over chunks; exact result for a last line without newline | Prop_Lines, Prop_Util | refuted in part |
| C40 | lines() enumerates exactly the lines of a file | M_Util: line_iterator | induction over the lines | Prop_Lines, Prop_Util | refuted in part |
| C41 | Builder memory stays valid over every call history | M_BitVector with buffer identity | invariant over histories; exact threshold for reserve; S_Reserve describes which histories stay defined for every allocation policy (capacity lower bound and a flag `moved`), P_Reserve2 proves both directions | Prop_BitVector, Prop_Reserve | refuted in part |
| C42 | In-contract queries never leave their arrays or hit undefined shifts | all of the above | the `= Ok` theorems; refutations where a shift by 64 is evaluated | Prop_BitVector, Prop_Bp, Prop_Safety | refuted in part |
| C43 | Default-constructed containers are empty | default constructors | computation | Prop_Cartesian, Prop_Space, Prop_Topk | refuted in part |
| C44 | Parenthesis operations work for every tree of depth below 2^31 | M_Bp with explicit int32 | refutation for every sequence of 2^31 to 2^32 - 1 bits | Prop_Bp | refuted in part |
| C45 | mappable_vector frees every buffer exactly once | M_MVec: buffers, owners, deleters | ownership invariant over histories | Prop_MVec, Prop_MVecDead | proved |
| C46 | Index structures keep their space bounds | lengths of the built arrays | from the construction lemmas | Prop_Space | proved |
| C47 | The lane comparisons the library relies on are exact | M_Broadword | from C11 and the range of the lanes bp_vector passes | Prop_Broadword | proved |
| C48 | A default-constructed rs_bit_vector answers like an empty one | M_RsBitVector | computation | Prop_RsBitVector | refuted in part |
| C49 | elias_fano rank at size() counts only smaller values | M_EliasFano | exact result of rank(size()) | Prop_EliasFano, Prop_Safety | refuted in part |
| C50 | Enumerator assertions reject calls past the end | M_Gamma | end state of the enumerator; read outside the high bits | Prop_Gamma, Prop_Safety | refuted in part |
| C51 | Range minimum results do not depend on the signedness of char | M_Bp with the signedness of char as argument | witness | Prop_BpRmq | refuted in part |
| C52 | Mapped structures are read only at aligned addresses | M_Mapper with addresses and the alignment of each member | offset arithmetic over layouts; exact condition per structure | Prop_Align, Prop_Mapper | refuted in part |
| C53 | assign copies its source | M_MVec | computation from any history | Prop_MVec | refuted in part |
| C54 | Select indices and excess trees have bounded length | lengths of hint and inventory arrays | from the construction lemmas | Prop_Space2 | proved |
| C55 | swap exchanges everything and dispose leaves a default object | M_Swap | case analysis on the records | Prop_Swap | proved |
| C56 | forward_enumerator returns consecutive elements | M_Enum | induction on the calls | Prop_Enum | proved |
| C57 | A builder can be appended to itself | M_Alias: append with aliased argument | up to 32 bits equal to C01; exact result from 33 to 63; write outside from 64 | Prop_Alias | refuted in part |
| C58 | Mapping a truncated file is detected | M_Mapper | induction over the layout | Prop_Limits | refuted in part |
| C59 | Every 64-bit integer can be stored | M_Gamma, M_EliasFano | exact failing assertion | Prop_Limits | refuted in part |
| C60 | ceil_div rounds up | M_Util: ceil_div64 with wrap | arithmetic | Prop_Limits | refuted in part |
| C61 | Frozen bp_vectors do not depend on uninitialised memory | M_Bp with the uninitialised member as argument | independence from that argument; witness for the empty sequence | Prop_Limits | refuted in part |
| C62 | Searches for a bit that does not exist stop at an assertion | M_BitVector, M_EliasFano | the scan reaches the end | Prop_Safety | refuted in part |
| C63 | Calls outside the contract stop at an assertion | all structures | each query outside its contract evaluated to the assertion | Prop_Ends, Prop_Safety | refuted in part |
| C64 | The frozen file has the documented field order and encoding | M_Mapper | explicit byte sequence | Prop_Format | proved |
| C65 | The dump of a size tree lists every node once | M_Dump, M_Mapper | induction over the tree; the trees of the structures are spelled out in S_Report | Prop_Dump | proved |
| C66 | fast_getline is defined and keeps lines apart for every file content | M_Util: fast_getline | computation on any file | Prop_Lines | refuted in part |
| C67 | The test generators produce one balanced tree for every value of rand() | M_Gen: generators over any push_back, any rand() | strong induction on the size | Prop_Gen | refuted in part |
| C68 | The project's own test checks pass on every input | M_Tests, M_TestMapper: each check of the test programs as a function to `res bool` | from the theorem on the structure; witnesses where the check itself is wrong | Prop_TestMapper, Prop_Tests | refuted in part |
| C69 | The test oracles accept exactly the right answers | M_Tests, over any answers | a passing check determines the answers | Prop_Oracle, Prop_Tests | proved |
| C70 | Building a vector leaves the builder empty and independent | M_Reuse: builder and vector, with the pointer that leads into the vector | invariant over the calls: the words of the vector hold the sequence and stray bits behind it | Prop_Reuse | refuted in part |
| C71 | The searching queries take a bounded number of loop rounds | M_Steps: the queries with a limit on the rounds of each loop; too few rounds give Ub OutOfFuel | intervals halve, nodes halve on the way up and double on the way down; a dense block spans less than 2^16 positions | Prop_Hints, Prop_Steps | proved |
| C72 | The line iterators are forward iterators | M_LineIter: iterators with bounded pointers; copies over one file; members without a value | the rest of the buffer determines the line number; induction on the rest of the buffer | Prop_LineIter | refuted in part |
| C73 | The monotone generator draws sorted values and the Elias-Fano benchmark enumerates them all | M_Perftest: the stack of subtrees, the draws as a function of the number of draws | the stack holds disjoint subtrees in ascending order whose counts add up to the values left | Prop_Perftest | refuted in part |
| C74 | The benchmarks of bp_vector and cartesian_tree end and stay within the contract | M_Perftest: the loops with bounded rounds, rand() as a function | every round of the visit takes a step since the root has a child; a matched close inside the tree is not the last bit | Prop_Perftest | refuted in part |
| C75 | Enumerators asked past their last element stop at an assertion | M_BitVector, M_EliasFano: the enumerators | the invariants of the enumerators at the end of a history; no word with a one (zero) is left for the search | Prop_Ends | refuted in part |
| C76 | freeze reports a write that fails | M_Stream: freeze_visitor over a buffered stream that can fail at any byte | the bytes handed over so far are the file, then the buffer, then the bytes lost | Prop_Stream | refuted in part |
| C77 | What is built depends only on the contents | M_BitVector, M_EliasFano, M_Darray, M_Gamma, M_Cartesian, M_Topk with two growth policies | a simulation between builders that differ only in capacity and generation, call by call, including the undefined outcomes | Prop_Repro | proved |
| C78 | decode_vbyte accepts exactly the codes append_vbyte writes | M_Util: vbyte | the accumulator of the loop is the value in base 128 modulo 2^64; the digits of a code without leading zeros are those of its value | Prop_Vbyte | refuted in part |
| C79 | Ranges of stl_string_adaptor are prefix-free keys in the order of the strings | M_Stream: c_str, stl_string_adaptor | induction on the two strings | Prop_Stream | refuted in part |
| C80 | A mappable_vector call that throws keeps the vectors valid and leaks nothing | M_Throw over M_MVec: each call with what throws in it | a simulation by the same history where the vectors left without elements are empty; a buffer without owner keeps having none | Prop_Throw | refuted in part |
| C81 | topk makes at most 2k + 1 range queries | M_TopkCost: M_Topk with a count of queries | the invariant of C35, whose intervals are disjoint and not empty; a call takes one entry and adds one per query | Prop_TopkCost | proved |
| C82 | A builder call that runs out of memory has no effect | M_BThrow over M_BitVector: each call with a limit on the words of a reallocation | a failed call leaves a good builder for a prefix of the result with its size raised; on it zero_extend(0) is zero_extend of the missing bits | Prop_BThrow | refuted in part |
| C83 | What the builders reserve up front is enough | M_BitVector, M_EliasFano, M_Cartesian: the identity and capacity of the buffer of a builder | every call that adds bits keeps the buffer if the words of its result fit the capacity; composed along the loops and histories | Prop_Presize | proved |
| C84 | Byte order | M_Endian: the visitors of mapper.hpp and get_word56 with the byte order as a parameter | the image of the members for either order; a 64-bit number below 2^32 read in the other order is at least 2^32; bits of a byte-wise load; the little-endian case is equal to M_Mapper and M_BitVector | Prop_Endian | refuted in part |
| C85 | Sizes of 64 bits | M_Wrap: bit_vector_builder with u64 arithmetic in words_for and m_size, std::length_error of insert | per-call equality with M_BitVector under the invariant that every size fits; exact result of the overflowing calls after any history | Prop_Wrap | refuted in part |
| C86 | A bp_vector over the parentheses of an ordinal tree navigates the tree | No new model: the operations of `M_Bp.v`. `S_Tree.v` has rose trees, their encoding, nodes named by paths, subtree, opening position, preorder and common prefix of two paths. | The encoding splits around every node; its excess there is the depth of the path. Inside a pair the excess is larger than at its ends, which makes the parent the innermost pair, and puts the leftmost minimum between two nodes of different branches on a child of their lowest common ancestor. | Prop_Tree | proved |
| C87 | auto_file closes every file it opens exactly once | `M_AutoFile.v`: a file system with the files open and a trace of opens, uses and closes; `fopen` succeeds as an arbitrary function says. Constructor, destructor and `get` of `auto_file`; callers are programs of nested blocks with stack unwinding. Buffer iterators after the mapping is gone. `S_AutoFile.v`: properly nested traces, scoped programs, how a program ends. | Induction over the program: inside blocks the open files are exactly those of the blocks around. Unmapped iterators by the position after each line (C72). | Prop_AutoFile | proved |
| C88 | map accepts only what freeze writes | M_Mapper (map_at, freeze), over any bytes | Induction over the layout: what map reads at a position is a member list whose image is that section of the memory; injectivity and locality follow from freeze_map_gen. | Prop_AnyFile | proved |
| C89 | A frozen file with a changed byte is not mapped to an unusable object | M_Mapper and M_BitVector | The top byte of m_size, which is 0, becomes 1; the file maps by C88 and operator[] at the first bit behind the words fails its assertion. | Prop_AnyFile | refuted in part |
| C90 | mmap_lines and lines() read the same lines | M_Util (bl_lines, lines_visited) | From C38, C39 and C40; removing all trailing newline characters is unique. | Prop_TwoReaders | refuted in part |
| C91 | Building a cartesian tree takes linear time | M_CtSteps: the builder of M_Cartesian with a counter of comparisons and one of loop rounds | the counted builder gives the same tree as M_Cartesian; each element is popped once (push or finalize), and a push that empties the stack saves a comparison, hence 2n - 3 and not 2n - 2 | Prop_CtSteps | proved |
| C92 | Frozen files do not depend on the width of size_t | M_Width: the layouts of M_Mapper with size_t of w bytes | to_bytes splits and joins halves of words, so the other width reads known numbers; read_elems fails once the count exceeds the file | Prop_Width | refuted in part |
| C93 | elias_fano rank and membership pass only the values of one bucket | M_EfSteps: rank and operator[] of M_EliasFano with a limit on the rounds | exact result of the loop for every limit, by induction on it; the values passed form a span of the sorted sequence, counted by a filter | Prop_EfSteps | proved |
| C94 | Searches and enumerators of bit_vector read exactly the words on the way to what they find | M_BvSteps: the loops of M_BitVector with a counter | erasing the counter gives the loops of M_BitVector; every round moves to the next word and the result of a word function lies in its word; telescoping sum over a history | Prop_BvSteps | proved |
| C95 | Switching assertions off changes no result | M_Nd, M_NdBp, M_NdRest: the functions of the other files with every assertion, and what is computed only for it, left out | congruence of the order of results under bind, match and loops, one lemma per function | Prop_Nd | proved |
| C96 | Without assertions, calls outside the contract do no harm | M_Nd, M_NdRest: the functions without their assertions; histories of M_BitVector operations | words of the builder after one unmasked write, bit by bit | Prop_NdOut | refuted in part |
| C97 | A default-constructed object is the object built from nothing | the default objects of the other files, M_Mapper | computation, with the round trip of C36 and the fields of C64 | Prop_Default | refuted in part |
| C98 | bp_vector and cartesian_tree work during static initialisation | M_BpInit: the queries of M_Bp and M_Cartesian over given tables | congruence for the tables after the constructor; inversion of every path to a result for the zero tables | Prop_BpInit | refuted in part |
| C99 | The warmup flag of map changes only when the bytes are read | M_Lazy: map() with mapped vectors as position and length | mutual induction over layouts, comparing the two ways of mapping | Prop_Lazy | refuted in part |
| C100 | Objects with different contents are frozen to different files | M_Mapper and the builders of the other files | round trip of C36 and injectivity of the members, then the query theorems; for cartesian_tree the stack as the positions that are minimal so far | Prop_Ident | refuted in part |
| C101 | find_close and enclose stop when the parenthesis they look for does not exist | M_Bp find_close, enclose; M_NdBp | the searches of C28 and C29 once more for the case that nothing is found: a word, block or tree search that returns has found an excess, the walk up the tree ends at the assertion on node 0; without assertions, induction on the rounds shows that it stays at node 0 | Prop_Unmatched | refuted in part |
| C102 | cartesian_tree is safe with a comparator that is not an order | M_Cartesian as for C34; the spec S_AnyOrder says by an inductive relation which element of a range is left standing | rmq returns the last element of the range after which the stack is smallest, for every comparator; the stack keeps its lower part while it stays larger, so a new element makes it smaller than an old one did exactly if it pops the old one and all between them | Prop_AnyOrder | refuted in part |
| C103 | Containers with the same contents can be exchanged | M_BitVector, M_RsBitVector, M_Darray, M_EliasFano, M_Gamma, M_Util | the same query of two structures over one sequence has one answer | Prop_Agree | proved |
| C104 | Enumerating an elias_fano costs one pass over its words | M_SeSteps: the select_enumerator of M_EliasFano with its rounds and reads counted | the invariant of C20 with the place in the high bits and the low parts left in the buffer added, by induction on the calls | Prop_SeSteps | proved |
| C105 | Several objects can be frozen to one file and mapped from it one after the other | M_Archive over M_Mapper: the calls of freeze and map for a list of objects | the round trip of C36 with its exact alignment condition, by induction on the list; the sizes modulo 8 from the layouts | Prop_Archive | refuted in part |
| C106 | The generators of the tests reach every input | M_Gen, M_GenBits | the values of rand() are read off the wanted result, by induction on the tree and on the bits | Prop_GenAll | refuted in part |
| C107 | Lists built from ranges of other integer types | M_Ranges | loop by loop equality with the 64-bit constructors; the first element that cannot be added to decides | Prop_Ranges | refuted in part |
| C108 | Enumerating gamma codes costs one pass over their words | M_GammaSteps, over M_Gamma and M_BvSteps | the rounds telescope over the positions of the ones; the reads by a potential: what is left of a word when it is replaced is shorter than the code that did not fit | Prop_GammaSteps | proved |
| C109 | How long frozen files are | M_Mapper, over the models of the structures | the length of the file is 8 plus the sum over the members; the lengths of the members come from the space theorems of C46 and the builders | Prop_FileSize | proved |
| C110 | Enumerators stay with their contents across swap | M_EnumSwap, over M_BitVector, M_Gamma, M_EliasFano and M_Swap | induction over the history; the unary part of the invariants of the enumerators does not mention the object | Prop_EnumSwap | refuted in part |
| C111 | The structures take little more space than any code must | M_BitVector, M_RsBitVector, M_Util, M_EliasFano, M_Bp, M_Mapper; is_code in S_Optimal | pigeonhole over lists of bits; chunks of bits make sorted lists; a cycle lemma bounds the number of balanced sequences; lengths of files from C109 | Prop_Optimal | proved |
| C112 | The configuration of the build changes no result | M_Config, M_Broadword, M_Nd, M_Gamma | C07-C10, and the sum of the marked bytes for any mask; offsets of the codes stay below their total | Prop_Config | proved |
| C113 | Growing a builder moves few words | M_Moves | a potential argument on the capacity, call by call, next to C01 | Prop_Moves | proved |
| C114 | How deep random_binary_tree recurses | M_GenDepth | the fuel of the model of the helper is the number of frames left; induction on the size | Prop_GenDepth | proved |
| C115 | Queries depend on few words | M_BitVector, M_RsBitVector, M_Util, M_EliasFano, M_Darray | each read of the query is at one of the places; the place of the last word read by select follows from its result | Prop_Local, Prop_LocalEf, Prop_LocalSel | proved |

## 3. Trusted base

### 3.1 What has to be believed

* Coq's kernel (8.16.1), with its conversion and `vm_compute`; `coqchk` rechecks all files without the VM.
* That the definitions of `M_*` say what the cited lines of `/repo` say. The code was read, not run.
* That the definitions of `Spec` and `S_*` and the statements in `Prop_*` say what `properties.jsonl` says.
* The platform facts written into the model: 64-bit `size_t` (C92 treats frozen files with 32 bits), little-endian byte order (C84 treats both), two's complement,
  8-bit bytes, the instruction semantics of `popcnt`, `bsf`, `bsr` and `bswap` behind intrinsics.hpp, and ISO C/C++ semantics of the
  library functions used (`std::vector`, `std::swap`, `std::stack`, heaps, `fgets`, `std::string`, streams).
* Allocation succeeds, and file output does not fail.

### 3.2 What Print Assumptions lists

`Print Assumptions` stands below each of the 462 theorems in the `Prop_*` files. For every one of them it prints `Closed under the global context`: no axiom, neither of this development nor of a library. The theorems are:

* C01: `C01_builder`, `C01_builder_bits`.
* C02: `C02_range`.
* C03: `C03_get_bits`, `C03_get_bits_strict`, `C03_get_word`, `C03_get_word56`.
* C04: `C04_predecessor`, `C04_successor`.
* C05: `C05_enumerator_partial`, `C05_refuted`, `C05_exact_refuted`, `C05_zero_word`.
* C06: `C06_unary_enumerator_partial`, `C06_refuted`, `C06_exact_refuted`, `C06_off_by_one_refuted`.
* C07: `C07_popcount`, `C07_byte_counts`, `C07_bytes_sum`.
* C08: `C08_select_in_word`, `C08_select_in_word_precondition`, `C08_table`.
* C09: `C09_reverse`.
* C10: `C10_msb`, `C10_lsb`, `C10_zero`, `C10_bit_position`, `C10_same_msb`.
* C11: `C11_leq_step_8_partial`, `C11_uleq_step_8_partial`, `C11_zcompare_step_8`, `C11_uleq_step_9`, `C11_leq_step_8_refuted`, `C11_uleq_step_8_refuted`, `C11_leq_exact_refuted`, `C11_uleq_exact_refuted`, `C11_uleq_step_9_all`.
* C12: `C12_rank`.
* C13: `C13_select`.
* C14: `C14_inverse`.
* C15: `C15_darray`, `C15_classes`.
* C16: `C16_darray64`.
* C17: `C17_select`, `C17_bits`.
* C18: `C18_rank`.
* C19: `C19_delta`.
* C20: `C20_enumerator`.
* C21: `C21_list`.
* C22: `C22_compressed_list`.
* C23: `C23_gamma_vector`.
* C24: `C24_gamma_bit_vector`.
* C25: `C25_vbyte`.
* C26: `C26_nibble_vector`.
* C27: `C27_nat_int_iff_partial`, `C27_int_nat_iff_partial`, `C27_high_refuted`, `C27_values`, `C27_int_nat_partial`, `C27_nat_int_partial`, `C27_overflow_refuted`, `C27_wrap_refuted`.
* C28: `C28_find_close`, `C28_unique`.
* C29: `C29_find_open`, `C29_unique`.
* C30: `C30_enclose`.
* C31: `C31_inverse`.
* C32: `C32_excess`.
* C33: `C33_excess_rmq_partial`, `C33_overflow_refuted`.
* C34: `C34_rmq`.
* C35: `C35_topk`, `C35_ranking_unique`, `C35_comparator`.
* C36: `C36_roundtrip`, `C36_members`, `C36_bits`, `C36_built_bits`, `C36_built_trees`, `C36_built_ef`, `C36_built_gamma`, `C36_vectors`.
* C37: `C37_size_of`.
* C38: `C38_buffer_lines`.
* C39: `C39_last_line_refuted`, `C39_getline_partial`, `C39_eof_partial`, `C39_tail_refuted`, `C39_tail_doubled_refuted`.
* C40: `C40_last_line_refuted`, `C40_lines_partial`, `C40_lines_refuted`.
* C41: `C41_builder_memory_partial`, `C41_refuted`, `C41_exact_refuted`, `C41_portable`, `C41_histories_refuted`.
* C42: `C42_get_bits_refuted`, `C42_find_close_refuted`, `C42_find_open_refuted`, `C42_bit_vector_partial`, `C42_bp_vector_partial`.
* C43: `C43_cartesian_refuted`, `C43_sizes_partial`, `C43_gamma_refuted`, `C43_lists_refuted`, `C43_topk_partial`.
* C44: `C44_long_refuted`, `C44_witness_refuted`.
* C45: `C45_history`, `C45_all_released`, `C45_dead`.
* C46: `C46_rs_space`, `C46_ef_space`, `C46_vbyte_space`.
* C47: `C47_lane_comparisons`.
* C48: `C48_empty_range_partial`, `C48_refuted`.
* C49: `C49_rank_at_size_refuted`, `C49_exact_refuted`.
* C50: `C50_next_at_end_refuted`, `C50_gamma_vector_refuted`, `C50_gamma_bit_vector_refuted`.
* C51: `C51_char_refuted`.
* C52: `C52_exact_refuted`, `C52_darray_refuted`, `C52_elias_fano_refuted`, `C52_bp_vector_refuted`, `C52_trees_refuted`, `C52_gamma_vector_refuted`, `C52_gamma_bit_vector_refuted`, `C52_ef_compressed_refuted`, `C52_witnesses_refuted`, `C52_aligned_partial`.
* C53: `C53_self_refuted`, `C53_iterators_refuted`.
* C54: `C54_rs_hints`, `C54_darray`, `C54_darray64`, `C54_bp`.
* C55: `C55_swap`, `C55_dispose`.
* C56: `C56_enumerate`.
* C57: `C57_long_refuted`, `C57_witness_refuted`, `C57_short_partial`, `C57_middle_partial`.
* C58: `C58_truncated_refuted`.
* C59: `C59_gamma_vector_refuted`, `C59_gamma_bit_vector_refuted`, `C59_compressed_list_refuted`, `C59_list_refuted`.
* C60: `C60_wrap_refuted`, `C60_exact_partial`.
* C61: `C61_empty_refuted`, `C61_nonempty_partial`.
* C62: `C62_no_answer_partial`, `C62_successor0_refuted`, `C62_elias_fano_partial`.
* C63: `C63_broadword_partial`, `C63_builder_partial`, `C63_set_bits_refuted`, `C63_append_bits_refuted`, `C63_set_refuted`, `C63_bit_vector_partial`, `C63_get_bits_partial`, `C63_get_bits_refuted`, `C63_get_word56_refuted`, `C63_rs_bit_vector_partial`, `C63_darray_partial`, `C63_darray64_partial`, `C63_elias_fano_partial`, `C63_elias_fano_builder_partial`, `C63_lists_partial`, `C63_nibble_vector_partial`, `C63_bp_vector_partial`, `C63_find_open_refuted`, `C63_cartesian_tree_partial`, `C63_rmq_refuted`, `C63_topk_vector_partial`.
* C64: `C64_fields`, `C64_bits`.
* C65: `C65_dump`, `C65_structures`, `C65_report`.
* C66: `C66_nul_first_refuted`, `C66_nul_inside_refuted`.
* C67: `C67_vector`, `C67_builder`, `C67_refuted`, `C67_tests`.
* C68: `C68_mapper`, `C68_mapper_struct`, `C68_bit_vector`, `C68_ints`, `C68_ints_small`, `C68_ints_refuted`, `C68_enumerators`, `C68_skip0_refuted`, `C68_rank_select`, `C68_darray`, `C68_elias_fano`, `C68_gamma_vector`, `C68_gamma_bit_vector`, `C68_compressed_list`, `C68_parentheses`, `C68_excess_rmq`, `C68_parentheses_refuted`, `C68_excess_rmq_refuted`, `C68_cartesian_refuted`, `C68_topk`.
* C69: `C69_excess_rmq`, `C69_cartesian`, `C69_topk`, `C69_darray`, `C69_delta`, `C69_select_enumeration`, `C69_equal_bits`, `C69_list`, `C69_rank_select`, `C69_parentheses`.
* C70: `C70_visible_partial`, `C70_push_refuted`, `C70_again_refuted`, `C70_outside_refuted`, `C70_zero_extend_refuted`, `C70_empty_partial`.
* C71: `C71_hints`, `C71_hints0`, `C71_select`, `C71_darray`, `C71_darray64`, `C71_parentheses`, `C71_excess_rmq`.
* C72: `C72_buffer_partial`, `C72_pointer_refuted`, `C72_copies_refuted`, `C72_uninitialised_refuted`, `C72_single_partial`.
* C73: `C73_generator`, `C73_benchmark`, `C73_empty_refuted`, `C73_bits_refuted`.
* C74: `C74_once`, `C74_visit`, `C74_visit_refuted`, `C74_shift_refuted`, `C74_bp_rmq`, `C74_ct_rmq`, `C74_empty_refuted`.
* C75: `C75_bits_refuted`, `C75_skip_zeros_partial`, `C75_unary_refuted`, `C75_skip0_refuted`, `C75_elias_fano_refuted`.
* C76: `C76_count_refuted`, `C76_good_refuted`, `C76_prefix`, `C76_failed`, `C76_detect`.
* C77: `C77_builder`, `C77_histories`, `C77_elias_fano`, `C77_gamma`, `C77_trees`.
* C78: `C78_decode`, `C78_unterminated_refuted`, `C78_overlong_refuted`, `C78_canonical_partial`.
* C79: `C79_bytes`, `C79_prefix_free_partial`, `C79_prefix_free_refuted`.
* C80: `C80_history_partial`, `C80_steal_refuted`, `C80_lost_refuted`, `C80_fair`.
* C81: `C81_topk`, `C81_enumerator`.
* C82: `C82_partial`, `C82_keeps`, `C82_refuted`, `C82_throws`, `C82_repair`, `C82_fair`.
* C83: `C83_builder`, `C83_elias_fano`, `C83_cartesian`.
* C84: `C84_roundtrip_partial`, `C84_little`, `C84_other_refuted`, `C84_first_refuted`, `C84_get_word56_partial`, `C84_get_word56_refuted`.
* C85: `C85_exact_partial`, `C85_new_refuted`, `C85_reserve_refuted`, `C85_zero_extend_refuted`, `C85_push_back_refuted`.
* C86: `C86_node`, `C86_parent`, `C86_children`, `C86_lca`, `C86_preorder`.
* C87: `C87_closed_once`, `C87_kept`, `C87_unset`, `C87_unmapped`.
* C88: `C88_accepted`, `C88_only_these`, `C88_same_bytes`, `C88_objects`.
* C89: `C89_corrupt_refuted`.
* C90: `C90_readers_partial`, `C90_whole_partial`, `C90_tail_refuted`.
* C91: `C91_cost`.
* C92: `C92_model_partial`, `C92_same_width_partial`, `C92_lengths_partial`, `C92_crossing_refuted`, `C92_narrow_refuted`, `C92_widen_refuted`.
* C93: `C93_rounds`, `C93_distinct`, `C93_repeated`.
* C94: `C94_searches`, `C94_enumerator`, `C94_one_pass`.
* C95: `C95_broadword`, `C95_bit_vector`, `C95_rank_select`, `C95_elias_fano`, `C95_gamma`, `C95_util`, `C95_bp_vector`, `C95_trees`, `C95_lines`, `C95_rest`.
* C96: `C96_append_partial`, `C96_push_refuted`, `C96_set_bits_refuted`, `C96_get_refuted`, `C96_searches_refuted`, `C96_rank_refuted`, `C96_zero_refuted`, `C96_lines_refuted`.
* C97: `C97_zeros_partial`, `C97_uninit_refuted`, `C97_same_partial`, `C97_bits_refuted`, `C97_lists_refuted`, `C97_trees_refuted`.
* C98: `C98_after_partial`, `C98_searches_refuted`, `C98_rmq_refuted`.
* C99: `C99_good_partial`, `C99_warm_partial`, `C99_cold_partial`, `C99_elements_partial`, `C99_headers_refuted`.
* C100: `C100_bits`, `C100_elias_fano`, `C100_gamma`, `C100_trees`, `C100_cartesian_partial`, `C100_cartesian_refuted`, `C100_darray_refuted`.
* C101: `C101_find_close_partial`, `C101_outside_refuted`, `C101_enclose`, `C101_release_refuted`, `C101_release_enclose_refuted`.
* C102: `C102_any`, `C102_beats_range`, `C102_less_equal`, `C102_local`, `C102_float_partial`, `C102_nan_refuted`.
* C103: `C103_bits`, `C103_ints`.
* C104: `C104_same`, `C104_enumeration`, `C104_bound`.
* C105: `C105_roundtrip_partial`, `C105_aligned_partial`, `C105_sizes`, `C105_behind_refuted`, `C105_elias_fano_refuted`, `C105_words_partial`.
* C106: `C106_length`, `C106_density`, `C106_bits`, `C106_trees_partial`, `C106_trees_refuted`, `C106_parentheses`.
* C107: `C107_exact_partial`, `C107_nonnegative`, `C107_types`, `C107_uint32_refuted`, `C107_signed_refuted`, `C107_minus_one`, `C107_negative`, `C107_nibbles`.
* C108: `C108_same`, `C108_gamma_vector`, `C108_gamma_bit_vector`, `C108_bound`.
* C109: `C109_bit_vector`, `C109_nibble_vector`, `C109_rs_bit_vector`, `C109_darray`, `C109_elias_fano`, `C109_gamma`, `C109_bp_vector`, `C109_cartesian_tree`, `C109_topk_vector`.
* C110: `C110_bits`, `C110_unary`, `C110_gamma_vector`, `C110_gamma_bit_vector`, `C110_select`, `C110_undone`, `C110_gamma_refuted`, `C110_select_refuted`.
* C111: `C111_bits`, `C111_nibbles`, `C111_elias_fano`, `C111_balanced`, `C111_bp_vector`, `C111_range_minima`, `C111_cartesian_tree`.
* C112: `C112_same`, `C112_compiles`, `C112_right`, `C112_enumerator`, `C112_gamma_vector`, `C112_gamma_bit_vector`.
* C113: `C113_content`, `C113_same`, `C113_size`, `C113_capacity`, `C113_parts`, `C113_room`, `C113_libraries`, `C113_tight_refuted`.
* C114: `C114_height`, `C114_range`, `C114_enough`, `C114_fewer`, `C114_jump`, `C114_jump_enough`, `C114_jump_fewer`.
* C115: `C115_bits`, `C115_nibble`, `C115_rank`, `C115_select`, `C115_elias_fano`, `C115_elias_fano_built`, `C115_darray`, `C115_darray64`.

`coqchk` (and so `vcheck`) also reports the axioms `Coq.ssr.ssrunder.Under_rel.*`. They belong to Coq's own
standard library and are loaded indirectly by the files imported here; no theorem depends on them, as the list above shows. No other axiom is
loaded. The development declares none, has no section-less `Variable` or `Hypothesis`, no functor, no module type.

### 3.3 Which parts of the code are modelled

| source | model | not modelled |
|--------|-------|--------------|
| bit_vector.hpp | M_BitVector (builder, vector, both enumerators), M_Alias (append to itself), M_Reuse (builder after building), M_BThrow (out of memory), M_Swap, M_Mapper | `data()` accessors as pointers |
| broadword.hpp, tables.hpp, intrinsics.hpp | M_Broadword, M_Tables; both values of the popcount and intrinsics switches | prefetch (no effect on results), the MSVC branches |
| rs_bit_vector.hpp/.cpp | M_RsBitVector | - |
| darray.hpp, darray64.hpp | M_Darray | - |
| elias_fano.hpp, elias_fano_list.hpp, elias_fano_compressed_list.hpp | M_EliasFano | - |
| gamma_vector.hpp, gamma_bit_vector.hpp | M_Gamma | - |
| forward_enumerator.hpp | M_Enum | - |
| bp_vector.hpp/.cpp | M_Bp | - |
| cartesian_tree.hpp | M_Cartesian, for any element type and comparator; M_CtSteps counts the work of the builder | - |
| topk_vector.hpp | M_Topk, for any value type; the stored vector is a list | the `Vector` template argument other than by its `operator[]` |
| vbyte.hpp, nibble_vector.hpp | M_Util | - |
| util.hpp | M_Util (trim, fast_getline, line iterators, int2nat, nat2int, ceil_div), M_LineIter (copies and comparison of the iterators), M_Swap (dispose), M_Stream (the adaptors), M_AutoFile (`auto_file`, lifetime of `mmap_lines`) | opening of a mapped file, `input_error` |
| mapper.hpp | M_Mapper (freeze, map, size_of, size_tree_of), M_Dump (dump), M_Stream (freeze to a stream that fails) | - |
| mappable_vector.hpp | M_MVec (ownership), M_Throw (exceptions); everywhere else vectors are the lists of their elements | the private copy constructor (never defined) |
| all map() and swap() members | M_Mapper, M_Swap | - |
| test_*.cpp, test_*_common.hpp | M_Tests, M_TestMapper, M_Gen, M_GenBits; `rand()` is an argument | the Boost.Test framework, removal of the temporary files of test_mapper.cpp |
| perftest/*.cpp, perftest_common.hpp | M_Perftest; `rand()` and the distribution are arguments | the times, the printing, `main` |

Concurrency, timing and the C++ call stack are not modelled.

## 4. Where the code and the properties disagree

Each item is proved as a `_refuted` theorem of the given property; what does hold is in the theorems beside it.

* **C05** `bit_vector::enumerator::skip_zeros` directly after `take(64)`: `take` leaves the consumed word in `m_buf`
  (it does not shift by 64), and `skip_zeros` tests `m_buf` without looking at `m_avail`. The result is wrong unless that word was zero.
* **C06** `unary_enumerator::skip0` directly after `next`: `next` leaves the reported one in the buffer shifted so that it is
  counted as a zero; the answer is one position early.
* **C11** `leq_step_8` and `uleq_step_8` can be wrong in lanes whose top bits differ; `C11_leq_exact_refuted` and `C11_uleq_exact_refuted` say for which bytes they are. The library never passes such lanes (C47).
* **C27** `int2nat` multiplies a signed integer by 2 (overflow from 2^62 on), and `nat2int(2^64 - 1)` is 0.
* **C33** `excess_rmq` on an accepted but unbalanced sequence overflows `excess_t` when the depth comes within 64 of 2^31 (padding of the last word).
* **C39, C40, C66** `fast_getline` appends the last chunk of an unterminated last line twice, calls `rbegin` of an empty string for a
  line starting with NUL, and cuts lines at NUL; `lines()` visits an empty string first.
* **C41** `bit_vector_builder::reserve` reallocates without updating `m_cur_word`; the next `push_back` writes through the old pointer
  when the last word is partly filled.
* **C42** `get_bits(pos, 64)`, `find_close` at positions 63 mod 64 and `find_open` at positions 0 mod 64 evaluate a shift by 64.
  On x86 the value is masked out afterwards; C03, C28 to C31 hold whatever value it has.
* **C43, C48** Default-constructed `gamma_vector`, `gamma_bit_vector`, `elias_fano_compressed_list`, `elias_fano_list`, `cartesian_tree` report 2^64 - 1 as size (or sum);
  `num_ones` of a default `rs_bit_vector` reads before its empty array.
* **C44** `bp_vector` of 2^31 or more parentheses trips an assertion, though the comment promises it for every depth below 2^31.
* **C49** `elias_fano::rank(size())` counts the value `size()` itself if it was pushed.
* **C50** The assertion of the gamma enumerators' `next` admits the call at the end, which reads outside the high bits.
* **C51** `excess_tables::m_fwd_exc` is an array of plain `char`; with unsigned `char`, `excess_rmq` misses the minimum.
* **C52** Mapped structures are not aligned: always after the one-byte `m_l` of `elias_fano_compressed_list`, else after every 16-bit array that does not fill whole words.
* **C105** `freeze` does not pad, so an object frozen to the same stream behind an `elias_fano`, whose size is always odd, is mapped at a misaligned address.
* **C53, C57** `mappable_vector::assign` from itself empties it; `bit_vector_builder::append` of itself is wrong from 33 bits on (stray bits behind the end) and writes
  outside the vector from 64 bits on.
* **C70** After `bit_vector(&builder)` the builder keeps `m_size` and `m_cur_word`, which now points into the vector: the bits pushed next appear behind the
  end of the vector (`get_word` shows them), and no second vector can be built.
* **C58** `mapper::map` does not know the length of the file: every truncated image is read past its end.
* **C59** 2^64 - 1 cannot be stored in the gamma and Elias-Fano lists (assertion).
* **C60** `ceil_div` returns 0 when the sum wraps.
* **C61** `m_internal_nodes` of the empty `bp_vector` is never initialised, and is written to the file.
* **C62** `successor0` past the last zero returns `size()` unless the last word is full (no assertion).
* **C63** No assertion stops `get_bits` and `set_bits` with a wrapping end position, `append_bits` of more than 64 bits, `bit_vector_builder::set` past the end
  (the stray bit reappears when zeros are pushed), `get_word56` near the end of the array, `find_open` past the last word, and `rmq(a, a)`.
* **C72** `buffer_line_iterator` forms the pointer `m_end + 1` when the last line has no newline; copies of a `line_iterator` share the file position and are equal at
  different lines, although the class declares forward traversal; `lines()` copies the uninitialised `m_trim_newline` of its end iterator.
* **C67, C68** `random_bp` overflows an `int` for sizes of 2^31 and more; the test programs evaluate a shift by 64, read `v[v.size()]`, and read `v[1]` of a vector of size 1
  for some inputs; `test_bp_vector_rmq.cpp` can fail where `char` is unsigned.
* **C107** The list constructors compute `*iter + 1` (or `+ 2`) in the type of the elements: a `std::vector<uint32_t>` holding 2^32-1 fails the assertion of `msb`, an `int` range holding `INT_MAX` overflows; `elias_fano_list` is not affected.
* **C106** `random_binary_tree` takes the size of the left part from one call of `rand()`. Where `RAND_MAX` is 32767 a path of 100000 parentheses, a size the tests ask for, never comes up.
* **C73, C74** The benchmarks: with m = 0 the generator is never done; 64 bits are one too many for the universe; `time_visit` does not end on a tree of
  2 parentheses; `time_avg_rmq` of an empty `cartesian_tree` computes a remainder modulo 0.
* **C75** `bit_vector::enumerator` returns zeros past the end until its buffer is empty; `unary_enumerator` past the last one, and `select_enumerator` past the end,
  read outside the words.
* **C76** `freeze` returns the number of bytes handed to the stream and never looks at its state; a full disk or a file that cannot be opened goes unnoticed.
* **C80** `mappable_vector::steal` sets `m_size` before it allocates: after a bad_alloc the vector has a size and a null pointer. Its constructor leaks the buffer if the range throws while it is copied.
* **C82** `bit_vector_builder::append_bits`, `zero_extend`, `one_extend` and `append` set `m_size` before the vector of words grows: after a bad_alloc the builder claims bits it has no words for.
* **C84** Frozen files depend on the byte order and nothing in them says so; `get_word56` is wrong on big-endian machines.
* **C85** Sizes above 2^64 - 64 wrap in `words_for`: the constructor is undefined, `reserve` does nothing, and `zero_extend` past 2^64 shrinks the builder without clearing its bits.
* **C89** `mapper::map` checks nothing it reads. Every frozen `bit_vector` is one byte away from a file that maps without an error and has positions below `size()` that cannot be read.
* **C90** `mmap_lines` and `lines()` disagree: `lines()` starts with an empty string, doubles a last line without newline, and trims every trailing carriage return where `mmap_lines` removes one.
* **C92** Frozen files depend on the width of `size_t`: four classes store a `size_t` member. A 32-bit file whose first 32 bits are zero maps
  without an error to a 64-bit vector that claims 2^32 bits per word and has no words.
* **C96** `append_bits` and `set_bits` guard the value only by an assertion and do not mask it. With NDEBUG, `append_bits(13, 2)` followed by `push_back(false)` reads a 1, and `rs_bit_vector` counts bits that are not in the vector.
* **C97** A default-constructed `elias_fano` is frozen with its uninitialised `m_l`, a default `bp_vector` with its uninitialised `m_internal_nodes`. Except for `bit_vector`, `darray` and `darray64`,
  default objects differ from those built from an empty sequence: `rank(0)` of a default `elias_fano` trips an assertion.
* **C98** The excess tables of `bp_vector.cpp` are a static object with a constructor. A `bp_vector` or `cartesian_tree` used in the initialiser of a static object
  of another file may find them zero: `rmq(0, 2)` of a tree over 1, 2, 3 then returns 2.
* **C99** Without the flag `warmup`, `map` reads only lengths and integers: any 24 bytes are accepted as a `bit_vector`, and a vector length of 2^61 is
  accepted in a file of 24 bytes and reported as 24 bytes read.
* **C102** A `cartesian_tree` over floating point values that holds a NaN misses minima in ranges containing it: in `[5, NaN, 3]` the answer for the whole range is 0. Ranges without a NaN are not affected.
* **C101** `find_close` of a parenthesis that is never closed returns a position outside the vector (3 for `(()`), because the zero bits after the end of the last word read as closing parentheses. With `NDEBUG`, `find_close(0)` on 200 opening parentheses returns 2^64-1, and `enclose` of a root at position 256 or later never returns: the walk up the tree reaches node 0 and stays there.
* **C100** Two sequences whose leftmost minima agree on all ranges give the same frozen `cartesian_tree`, whatever their elements, element types and orders; nothing else does.
* **C78** `decode_vbyte` accepts overlong and overflowing codes and reads past the end of an unterminated one.
* **C79** Strings with an embedded NUL: `stl_string_adaptor` gives ranges that are prefixes of others.

## 5. Tests of the theorems against wrong programs

`seeded/LOG.jsonl` lists every edit of the model that was tried: hand-written bugs first, then mechanical ones over all model
files (constants, comparisons, dropped asserts and updates, exchanged arguments). Each was built in a copy of the development. An edit that no theorem noticed
was either shown to be equivalent to the original (the note says why) or led to a stronger theorem (named in the entry).
