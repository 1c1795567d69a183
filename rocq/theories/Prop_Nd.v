(** Property C95: switching assertions off changes no result *)
From Verif Require Import Base M_Tables M_Broadword M_BitVector M_RsBitVector M_Darray M_EliasFano M_Gamma M_Util M_Bp M_Cartesian M_Topk P_Topk S_Nd M_Nd M_NdBp P_NdBp M_LineIter M_AutoFile M_Mapper M_MVec M_NdRest P_NdRest.
From Coq Require Import String.

(** C95: broadword.hpp *)
Theorem C95_broadword :
  (forall (popcnt : bool) (x k : Z), le (select_in_word_gen popcnt x k) (nd_select_in_word_gen popcnt x k)) /\
  (forall (x k : Z), le (select_in_word x k) (nd_select_in_word x k)) /\
  (forall (x : Z), le (bit_position x) (nd_bit_position x)) /\
  (forall (x0 : Z), le (msb_opt x0) (nd_msb_opt x0)) /\
  (forall (x : Z), le (msb x) (nd_msb x)) /\
  (forall (x : Z), le (lsb_opt x) (nd_lsb_opt x)) /\
  (forall (x : Z), le (lsb x) (nd_lsb x)).
Proof. exact nd_broadword. Qed.
Print Assumptions C95_broadword.
Example C95_broadword_ex : select_in_word 180 2 = Ok 5 /\ nd_select_in_word 180 2 = Ok 5 /\ msb 0x1234 = Ok 12 /\ nd_msb 0x1234 = Ok 12 /\
  msb 0 = Ub AssertFailed /\ nd_msb 0 = Ok 255.
Proof. repeat split; vm_compute; reflexivity. Qed.

(** C95: bit_vector.hpp *)
Theorem C95_bit_vector :
  (forall (b : builder) (pos bits len : Z), le (set_bits b pos bits len) (nd_set_bits b pos bits len)) /\
  (forall (gr : growth) (b : builder) (bits len : Z), le (append_bits gr b bits len) (nd_append_bits gr b bits len)) /\
  (forall (gr : growth) (fuel : nat) (b : builder) (n : Z), le (one_extend_loop gr fuel b n) (nd_one_extend_loop gr fuel b n)) /\
  (forall (gr : growth) (b : builder) (n : Z), le (one_extend gr b n) (nd_one_extend gr b n)) /\
  (forall (b : builder), le (reverse b) (nd_reverse b)) /\
  (forall (b : builder), le (bv_of_builder b) (nd_bv_of_builder b)) /\
  (forall (bv : bit_vector) (pos : Z), le (bv_get bv pos) (nd_bv_get bv pos)) /\
  (forall (sp : shift_policy) (bv : bit_vector) (pos len : Z), le (get_bits sp bv pos len) (nd_get_bits sp bv pos len)) /\
  (forall (bv : bit_vector) (pos : Z), le (get_word bv pos) (nd_get_word bv pos)) /\
  (forall (fuel : nat) (ws : list Z) (block word : Z), le (predecessor0_loop fuel ws block word) (nd_predecessor0_loop fuel ws block word)) /\
  (forall (bv : bit_vector) (pos : Z), le (predecessor0 bv pos) (nd_predecessor0 bv pos)) /\
  (forall (fuel : nat) (ws : list Z) (block word : Z), le (successor0_loop fuel ws block word) (nd_successor0_loop fuel ws block word)) /\
  (forall (bv : bit_vector) (pos : Z), le (successor0 bv pos) (nd_successor0 bv pos)) /\
  (forall (fuel : nat) (ws : list Z) (block word : Z), le (predecessor1_loop fuel ws block word) (nd_predecessor1_loop fuel ws block word)) /\
  (forall (bv : bit_vector) (pos : Z), le (predecessor1 bv pos) (nd_predecessor1 bv pos)) /\
  (forall (fuel : nat) (ws : list Z) (block word : Z), le (successor1_loop fuel ws block word) (nd_successor1_loop fuel ws block word)) /\
  (forall (bv : bit_vector) (pos : Z), le (successor1 bv pos) (nd_successor1 bv pos)) /\
  (forall (bv : bit_vector) (e : enumerator), le (fill_buf bv e) (nd_fill_buf bv e)) /\
  (forall (bv : bit_vector) (e : enumerator), le (enum_next bv e) (nd_enum_next bv e)) /\
  (forall (bv : bit_vector) (e : enumerator) (l : Z), le (enum_take bv e l) (nd_enum_take bv e l)) /\
  (forall (fuel : nat) (bv : bit_vector) (e : enumerator) (zs : Z), le (skip_zeros_loop fuel bv e zs) (nd_skip_zeros_loop fuel bv e zs)) /\
  (forall (bv : bit_vector) (e : enumerator), le (enum_skip_zeros bv e) (nd_enum_skip_zeros bv e)) /\
  (forall (fuel : nat) (ws : list Z) (pos buf : Z), le (unary_next_loop fuel ws pos buf) (nd_unary_next_loop fuel ws pos buf)) /\
  (forall (ws : list Z) (e : unary_enum), le (unary_next ws e) (nd_unary_next ws e)) /\
  (forall (ws : list Z) (e : unary_enum) (k : Z), le (unary_skip ws e k) (nd_unary_skip ws e k)) /\
  (forall (ws : list Z) (e : unary_enum) (k : Z), le (unary_skip_no_move ws e k) (nd_unary_skip_no_move ws e k)) /\
  (forall (ws : list Z) (e : unary_enum) (k : Z), le (unary_skip0 ws e k) (nd_unary_skip0 ws e k)).
Proof. exact nd_bit_vector. Qed.
Print Assumptions C95_bit_vector.
Definition C95_gr : growth := fun c _ => 2 * c.
Example C95_bit_vector_ex :
  (do b <- new_builder 60 true; do b <- append_bits C95_gr b 89 7; do b <- reverse b; do bv <- bv_of_builder b; successor0 bv 5) = Ok 5 /\
  (do b <- new_builder 60 true; do b <- nd_append_bits C95_gr b 89 7; do b <- nd_reverse b; do bv <- nd_bv_of_builder b; nd_successor0 bv 5) = Ok 5.
Proof. split; vm_compute; reflexivity. Qed.

(** C95: rs_bit_vector.hpp, darray.hpp and darray64.hpp *)
Theorem C95_rank_select :
  (forall (rs : rs_bit_vector) (pos : Z), le (rs_rank rs pos) (nd_rs_rank rs pos)) /\
  (forall (rs : rs_bit_vector) (pos : Z), le (rs_rank0 rs pos) (nd_rs_rank0 rs pos)) /\
  (forall (rs : rs_bit_vector) (n : Z), le (rs_select rs n) (nd_rs_select rs n)) /\
  (forall (rs : rs_bit_vector) (n : Z), le (rs_select0 rs n) (nd_rs_select0 rs n)) /\
  (forall (fuel : nat) (size cur_pos cur_word : Z) (st : dstate), le (dword_loop fuel size cur_pos cur_word st) (nd_dword_loop fuel size cur_pos cur_word st)) /\
  (forall (neg : bool) (n : nat) (ws : list Z) (size word_idx : Z) (st : dstate), le (dwords_loop neg n ws size word_idx st) (nd_dwords_loop neg n ws size word_idx st)) /\
  (forall (neg : bool) (bv : bit_vector), le (darray_build neg bv) (nd_darray_build neg bv)) /\
  (forall (neg : bool) (ws : list Z) (start_pos reminder : Z), le (darray_scan neg ws start_pos reminder) (nd_darray_scan neg ws start_pos reminder)) /\
  (forall (neg : bool) (d : darray) (bv : bit_vector) (idx : Z), le (darray_select neg d bv idx) (nd_darray_select neg d bv idx)) /\
  (forall d bv idx, le (darray1_select d bv idx) (nd_darray1_select d bv idx)) /\
  (forall d bv idx, le (darray0_select d bv idx) (nd_darray0_select d bv idx)) /\
  (forall (gr : growth) (b : d64_builder) (skip0 : Z), le (append1 gr b skip0) (nd_append1 gr b skip0)) /\
  (forall (b : d64_builder), le (d64_build b) (nd_d64_build b)) /\
  (forall (d : darray64) (idx : Z), le (d64_select d idx) (nd_d64_select d idx)).
Proof. exact nd_rank_select. Qed.
Print Assumptions C95_rank_select.
Definition C95_bits : list bool := repeat false 70 ++ [true; false; true] ++ repeat true 80.
Example C95_rank_select_ex :
  (do rs <- rs_build (bv_range C95_bits) true true; do r <- rs_rank rs 100; do s <- rs_select rs 20; Ok (r, s)) = Ok (29, 91) /\
  (do rs <- rs_build (bv_range C95_bits) true true; do r <- nd_rs_rank rs 100; do s <- nd_rs_select rs 20; Ok (r, s)) = Ok (29, 91) /\
  (do d <- darray_build false (bv_range C95_bits); darray1_select d (bv_range C95_bits) 20) = Ok 91 /\
  (do d <- nd_darray_build false (bv_range C95_bits); nd_darray1_select d (bv_range C95_bits) 20) = Ok 91.
Proof. repeat split; vm_compute; reflexivity. Qed.

(** C95: elias_fano.hpp and the lists on top of it *)
Theorem C95_elias_fano :
  (forall (gr : growth) (n m : Z), le (ef_builder_new gr n m) (nd_ef_builder_new gr n m)) /\
  (forall (gr : growth) (b : ef_builder) (i : Z), le (ef_push gr b i) (nd_ef_push gr b i)) /\
  (forall (b : ef_builder) (with_rank_index : bool), le (ef_build b with_rank_index) (nd_ef_build b with_rank_index)) /\
  (forall (gr : growth) (n : nat) (bv : bit_vector) (i : Z) (b : ef_builder), le (ef_ones_loop gr n bv i b) (nd_ef_ones_loop gr n bv i b)) /\
  (forall (gr : growth) (bvb : builder) (with_rank_index : bool), le (ef_of_bits gr bvb with_rank_index) (nd_ef_of_bits gr bvb with_rank_index)) /\
  (forall (fuel : nat) (ef : elias_fano) (l_pos rank h_pos : Z), le (ef_get_loop fuel ef l_pos rank h_pos) (nd_ef_get_loop fuel ef l_pos rank h_pos)) /\
  (forall (ef : elias_fano) (pos : Z), le (ef_get ef pos) (nd_ef_get ef pos)) /\
  (forall (ef : elias_fano) (n : Z), le (ef_select ef n) (nd_ef_select ef n)) /\
  (forall (fuel : nat) (ef : elias_fano) (l_pos rank h_pos : Z), le (ef_rank_loop fuel ef l_pos rank h_pos) (nd_ef_rank_loop fuel ef l_pos rank h_pos)) /\
  (forall (ef : elias_fano) (pos : Z), le (ef_rank ef pos) (nd_ef_rank ef pos)) /\
  (forall (ef : elias_fano) (pos : Z), le (ef_predecessor1 ef pos) (nd_ef_predecessor1 ef pos)) /\
  (forall (ef : elias_fano) (pos : Z), le (ef_successor1 ef pos) (nd_ef_successor1 ef pos)) /\
  (forall (ef : elias_fano) (n : Z), le (ef_delta ef n) (nd_ef_delta ef n)) /\
  (forall (ef : elias_fano) (n : Z), le (ef_select_range ef n) (nd_ef_select_range ef n)) /\
  (forall (ef : elias_fano) (i : Z), le (se_new ef i) (nd_se_new ef i)) /\
  (forall (ef : elias_fano) (e : select_enum), le (se_next ef e) (nd_se_next ef e)) /\
  (forall (gr : growth) (ints : list Z) (cur_base : Z) (b : ef_builder), le (efl_loop gr ints cur_base b) (nd_efl_loop gr ints cur_base b)) /\
  (forall (gr : growth) (ints : list Z), le (efl_build gr ints) (nd_efl_build gr ints)) /\
  (forall (l : elias_fano) (idx : Z), le (efl_get l idx) (nd_efl_get l idx)) /\
  (forall (ints : list Z) (s : Z), le (code_sum ints s) (nd_code_sum ints s)) /\
  (forall (gr : growth) (ints : list Z) (b : ef_builder) (bits : builder), le (efc_loop gr ints b bits) (nd_efc_loop gr ints b bits)) /\
  (forall (gr : growth) (ints : list Z), le (efc_build gr ints) (nd_efc_build gr ints)) /\
  (forall (c : ef_compressed) (idx : Z), le (efc_get c idx) (nd_efc_get c idx)).
Proof. exact nd_elias_fano. Qed.
Print Assumptions C95_elias_fano.
Example C95_elias_fano_ex :
  (do ef <- efl_build C95_gr [5; 0; 9; 200]; efl_get ef 2) = Ok 9 /\ (do ef <- nd_efl_build C95_gr [5; 0; 9; 200]; nd_efl_get ef 2) = Ok 9.
Proof. split; vm_compute; reflexivity. Qed.

(** C95: gamma_vector.hpp and gamma_bit_vector.hpp *)
Theorem C95_gamma :
  (forall (gr : growth) (ints : list Z) (high : d64_builder) (low : builder), le (gv_loop gr ints high low) (nd_gv_loop gr ints high low)) /\
  (forall (gr : growth) (ints : list Z), le (gv_build gr ints) (nd_gv_build gr ints)) /\
  (forall (g : gamma) (idx pos : Z), le (gv_retrieve g idx pos) (nd_gv_retrieve g idx pos)) /\
  (forall (g : gamma) (idx : Z), le (gv_get g idx) (nd_gv_get g idx)) /\
  (forall (g : gamma) (idx : Z), le (gv_enum_new g idx) (nd_gv_enum_new g idx)) /\
  (forall (g : gamma) (u : option unary_enum), le (ge_unary_next g u) (nd_ge_unary_next g u)) /\
  (forall (g : gamma) (e : option enumerator) (l : Z), le (ge_low_take g e l) (nd_ge_low_take g e l)) /\
  (forall (g : gamma) (e : gamma_enum), le (gv_enum_next g e) (nd_gv_enum_next g e)) /\
  (forall (gr : growth) (vals : list Z) (high : d64_builder) (low : builder), le (gb_loop gr vals high low) (nd_gb_loop gr vals high low)) /\
  (forall (gr : growth) (vals : list Z), le (gb_build gr vals) (nd_gb_build gr vals)) /\
  (forall (g : gamma) (pos : Z), le (gb_retrieve g pos) (nd_gb_retrieve g pos)) /\
  (forall (g : gamma) (idx : Z), le (gb_get g idx) (nd_gb_get g idx)) /\
  (forall (g : gamma) (idx : Z), le (gb_enum_new g idx) (nd_gb_enum_new g idx)) /\
  (forall (g : gamma) (e : gamma_enum), le (gb_enum_next g e) (nd_gb_enum_next g e)) /\
  (forall (g : gamma) (e : gamma_enum) (k : nat), le (gb_enum_skip g e k) (nd_gb_enum_skip g e k)).
Proof. exact nd_gamma. Qed.
Print Assumptions C95_gamma.
Example C95_gamma_ex : (do g <- gv_build C95_gr [5; 0; 900]; gv_get g 2) = Ok 900 /\ (do g <- nd_gv_build C95_gr [5; 0; 900]; nd_gv_get g 2) = Ok 900.
Proof. split; vm_compute; reflexivity. Qed.

(** C95: vbyte.hpp and nibble_vector.hpp *)
Theorem C95_util :
  (forall (val : Z), le (vbyte_size val) (nd_vbyte_size val)) /\
  (forall (v : list Z) (val : Z), le (append_vbyte v val) (nd_append_vbyte v val)) /\
  (forall (from : list Z) (nibbles : list Z) (parity : bool) (cur_byte size : Z), le (nv_loop from nibbles parity cur_byte size) (nd_nv_loop from nibbles parity cur_byte size)) /\
  (forall (from : list Z), le (nv_build from) (nd_nv_build from)) /\
  (forall (n : nibble_vector) (pos : Z), le (nv_get n pos) (nd_nv_get n pos)).
Proof. exact nd_util. Qed.
Print Assumptions C95_util.
Example C95_util_ex : append_vbyte [7] 300 = Ok ([7; 130; 44], 2) /\ nd_append_vbyte [7] 300 = Ok ([7; 130; 44], 2) /\
  (do n <- nv_build [3; 12; 7]; nv_get n 1) = Ok 12 /\ (do n <- nd_nv_build [3; 12; 7]; nd_nv_get n 1) = Ok 12.
Proof. repeat split; vm_compute; reflexivity. Qed.

(** C95: bp_vector.hpp and bp_vector.cpp *)
Theorem C95_bp_vector :
  (forall (word byte_counts cur_exc : Z), le (find_close_in_word word byte_counts cur_exc) (nd_find_close_in_word word byte_counts cur_exc)) /\
  (forall (word byte_counts cur_exc : Z), le (find_open_in_word word byte_counts cur_exc) (nd_find_open_in_word word byte_counts cur_exc)) /\
  (forall (rs : rs_bit_vector) (block : Z), le (get_block_excess rs block) (nd_get_block_excess rs block)) /\
  (forall (bp : bp_vector) (pos : Z), le (excess bp pos) (nd_excess bp pos)) /\
  (forall (n : nat) (words : list Z) (sub_block excess : Z), le (close_block_loop n words sub_block excess) (nd_close_block_loop n words sub_block excess)) /\
  (forall (words : list Z) (block_offset excess start : Z), le (find_close_in_block words block_offset excess start) (nd_find_close_in_block words block_offset excess start)) /\
  (forall (n : nat) (words : list Z) (block_offset excess : Z), le (open_block_loop n words block_offset excess) (nd_open_block_loop n words block_offset excess)) /\
  (forall (words : list Z) (block_offset excess start : Z), le (find_open_in_block words block_offset excess start) (nd_find_open_in_block words block_offset excess start)) /\
  (forall (dir : bool) (n : nat) (mins : list Z) (cur excess superblock_excess : Z), le (block_search_loop dir n mins cur excess superblock_excess) (nd_block_search_loop dir n mins cur excess superblock_excess)) /\
  (forall (dir : bool) (bp : bp_vector) (block excess : Z), le (search_block_in_superblock dir bp block excess) (nd_search_block_in_superblock dir bp block excess)) /\
  (forall (bp : bp_vector) (node excess : Z), le (in_node_range bp node excess) (nd_in_node_range bp node excess)) /\
  (forall (fuel : nat) (dir : bool) (bp : bp_vector) (cur_node excess : Z), le (tree_up_loop fuel dir bp cur_node excess) (nd_tree_up_loop fuel dir bp cur_node excess)) /\
  (forall (fuel : nat) (dir : bool) (bp : bp_vector) (cur_node excess : Z), le (tree_down_loop fuel dir bp cur_node excess) (nd_tree_down_loop fuel dir bp cur_node excess)) /\
  (forall (dir : bool) (bp : bp_vector) (block excess : Z), le (search_min_tree dir bp block excess) (nd_search_min_tree dir bp block excess)) /\
  (forall (sp : shift_policy) (bp : bp_vector) (pos : Z), le (find_close sp bp pos) (nd_find_close sp bp pos)) /\
  (forall (sp : shift_policy) (bp : bp_vector) (pos : Z), le (find_open sp bp pos) (nd_find_open sp bp pos)) /\
  (forall (sp : shift_policy) (bp : bp_vector) (pos : Z), le (enclose sp bp pos) (nd_enclose sp bp pos)) /\
  (forall (cs : bool) (words : list Z) (start end_ exc min_exc min_exc_idx : Z), le (excess_rmq_in_block cs words start end_ exc min_exc min_exc_idx) (nd_excess_rmq_in_block cs words start end_ exc min_exc min_exc_idx)) /\
  (forall (bp : bp_vector) (block_start block_end min_exc min_idx : Z), le (excess_rmq_in_superblock bp block_start block_end min_exc min_idx) (nd_excess_rmq_in_superblock bp block_start block_end min_exc min_idx)) /\
  (forall (fuel : nat) (tree : list Z) (sb_end cur h span nme nmi : Z), le (span_up_loop fuel tree sb_end cur h span nme nmi) (nd_span_up_loop fuel tree sb_end cur h span nme nmi)) /\
  (forall (fuel : nat) (tree : list Z) (sb_end cur h span nme nmi : Z), le (span_down_loop fuel tree sb_end cur h span nme nmi) (nd_span_down_loop fuel tree sb_end cur h span nme nmi)) /\
  (forall (bp : bp_vector) (sb_start sb_end min_exc min_idx : Z), le (find_min_superblock bp sb_start sb_end min_exc min_idx) (nd_find_min_superblock bp sb_start sb_end min_exc min_idx)) /\
  (forall (cs : bool) (bp : bp_vector) (block_a block_b min_exc min_exc_idx : Z), le (excess_rmq_blocks cs bp block_a block_b min_exc min_exc_idx) (nd_excess_rmq_blocks cs bp block_a block_b min_exc min_exc_idx)) /\
  (forall (cs : bool) (bp : bp_vector) (a b : Z), le (excess_rmq cs bp a b) (nd_excess_rmq cs bp a b)) /\
  (forall (mins : list Z) (m : Z), le (push_block_min mins m) (nd_push_block_min mins m)) /\
  (forall (ws : list Z) (last sub_block : Z) (mins : list Z) (block_min sb_excess : Z), le (block_mins_loop ws last sub_block mins block_min sb_excess) (nd_block_mins_loop ws last sub_block mins block_min sb_excess)) /\
  (forall (n : nat) (rs : rs_bit_vector) (mins : list Z) (size superblock : Z), le (leaves_loop n rs mins size superblock) (nd_leaves_loop n rs mins size superblock)) /\
  (forall (uninit : Z) (rs : rs_bit_vector), le (build_min_tree uninit rs) (nd_build_min_tree uninit rs)) /\
  (forall (uninit : Z) (bv : bit_vector) (with_select_hints with_select0_hints : bool), le (bp_build uninit bv with_select_hints with_select0_hints) (nd_bp_build uninit bv with_select_hints with_select0_hints)).
Proof. exact nd_bp_vector. Qed.
Print Assumptions C95_bp_vector.
Definition C95_parens : list bool := [true; true; false; true; true; false; false; false].
Example C95_bp_vector_ex :
  (do bp <- bp_build 0 (bv_range C95_parens) false false; do c <- find_close (loose_shift (fun x _ => x)) bp 3; do r <- excess_rmq true bp 1 6; Ok (c, r)) = Ok (6, (1, 1)) /\
  (do bp <- nd_bp_build 0 (bv_range C95_parens) false false; do c <- nd_find_close (loose_shift (fun x _ => x)) bp 3; do r <- nd_excess_rmq true bp 1 6; Ok (c, r)) = Ok (6, (1, 1)).
Proof. split; vm_compute; reflexivity. Qed.

(** C95: cartesian_tree.hpp and topk_vector.hpp *)
Theorem C95_trees :
  (forall (T : Type) (gr : growth) (c : ct_builder T), le (cb_finalize gr c) (nd_cb_finalize gr c)) /\
  (forall (T : Type) (gr : growth) (uninit : Z) (c : ct_builder T), le (ct_of_builder gr uninit c) (nd_ct_of_builder gr uninit c)) /\
  (forall (T : Type) (gr : growth) (uninit : Z) (comp : T -> T -> bool) (expected_size : Z) (v : list T), le (ct_build gr uninit comp expected_size v) (nd_ct_build gr uninit comp expected_size v)) /\
  (forall (cs : bool) (bp : bp_vector) (a b : Z), le (ct_rmq cs bp a b) (nd_ct_rmq cs bp a b)) /\
  (forall (T : Type) (gr : growth) (uninit : Z) (lt : T -> T -> bool) (v : list T), le (tk_build gr uninit lt v) (nd_tk_build gr uninit lt v)) /\
  (forall (T : Type) (cs : bool) (h : heap_ops (queue_element T)) (tk : topk_vector T) (q : list (queue_element T)) (a b : Z), le (te_push cs h tk q a b) (nd_te_push cs h tk q a b)) /\
  (forall (T : Type) (cs : bool) (h : heap_ops (queue_element T)) (tk : topk_vector T) (s : tk_enum T), le (te_next cs h tk s) (nd_te_next cs h tk s)) /\
  (forall (T : Type) (cs : bool) (tk : topk_vector T) (s : tk_enum T) (a b : Z), le (te_set cs tk s a b) (nd_te_set cs tk s a b)) /\
  (forall (T : Type) (cs : bool) (h : heap_ops (queue_element T)) (tk : topk_vector T) (n : nat) (s : tk_enum T), le (topk_loop cs h tk n s) (nd_topk_loop cs h tk n s)) /\
  (forall (T : Type) (cs : bool) (h : heap_ops (queue_element T)) (tk : topk_vector T) (a b k : Z), le (topk cs h tk a b k) (nd_topk cs h tk a b k)).
Proof. exact nd_trees. Qed.
Print Assumptions C95_trees.
Definition C95_v : list Z := [4; 9; 2; 9; 7; 4; 9; 1].
Definition C95_heap := sorted_heap (value_index_comparator Z.ltb Z.eqb).
Example C95_trees_ex :
  (do ct <- ct_build C95_gr 0 Z.ltb 0 C95_v; ct_rmq true ct 1 6) = Ok 2 /\ (do ct <- nd_ct_build C95_gr 0 Z.ltb 0 C95_v; nd_ct_rmq true ct 1 6) = Ok 2 /\
  (do tk <- tk_build C95_gr 0 Z.ltb C95_v; topk true C95_heap tk 1 6 2) = Ok [Some (9, 1); Some (9, 3)] /\
  (do tk <- nd_tk_build C95_gr 0 Z.ltb C95_v; nd_topk true C95_heap tk 1 6 2) = Ok [Some (9, 1); Some (9, 3)].
Proof. repeat split; vm_compute; reflexivity. Qed.

(** C95: the line iterators of util.hpp *)
Theorem C95_lines :
  (forall (buf : list Z) (it : bl_iter), le (bl_increment buf it) (nd_bl_increment buf it)) /\
  (forall (buf : list Z), le (bl_new buf) (nd_bl_new buf)) /\
  (forall (it : bl_iter), le (bl_deref it) (nd_bl_deref it)) /\
  (forall (fuel : nat) (buf : list Z) (it : bl_iter), le (bl_visit fuel buf it) (nd_bl_visit fuel buf it)) /\
  (forall (buf : list Z), le (bl_lines buf) (nd_bl_lines buf)) /\
  (forall (buf : list Z) (it : bl_iter), le (bl_step buf it) (nd_bl_step buf it)) /\
  (forall (fuel : nat) (buf : list Z) (it : bl_iter), le (bl_walk fuel buf it) (nd_bl_walk fuel buf it)) /\
  (forall (buf : list Z), le (bl_lines_strict buf) (nd_bl_lines_strict buf)) /\
  (forall (buf : list Z) (n : nat), le (bl_nth buf n) (nd_bl_nth buf n)) /\
  (forall (m : mmap_lines) (size : Z) (it : bl_iter), le (ml_increment m size it) (nd_ml_increment m size it)) /\
  (forall (it : line_iter), le (li_increment it) (nd_li_increment it)) /\
  (forall (fuel : nat) (it : line_iter), le (li_visit fuel it) (nd_li_visit fuel it)) /\
  (forall (file : list Z) (trim : bool), le (lines_visited file trim) (nd_lines_visited file trim)) /\
  (forall (file : list Z) (it : file_iter), le (fi_increment file it) (nd_fi_increment file it)) /\
  (forall (file : list Z) (a : file_iter), le (advance_both file a) (nd_advance_both file a)) /\
  (forall (fuel : nat) (file : list Z) (it : file_iter), le (fi_visit fuel file it) (nd_fi_visit fuel file it)) /\
  (forall (file : list Z) (trim : bool), le (fi_lines file trim) (nd_fi_lines file trim)).
Proof. exact nd_lines. Qed.
Print Assumptions C95_lines.
Example C95_lines_ex : bl_lines [65; 13; 10; 66] = Ok [[65]; [66]] /\ nd_bl_lines [65; 13; 10; 66] = Ok [[65]; [66]] /\
  lines_visited [65; 10; 66; 10] true = Ok [[]; [65]; [66]] /\ nd_lines_visited [65; 10; 66; 10] true = Ok [[]; [65]; [66]] /\
  bl_increment [65] (mk_bl None []) = Ub AssertFailed /\ nd_bl_increment [65] (mk_bl None []) = Ub Dangling.
Proof. repeat split; vm_compute; reflexivity. Qed.

(** C95: size_tree_of, operator[] of mappable_vector and next() of the enumerator of topk_vector *)
Theorem C95_rest :
  (forall (l : layout) (d : data) (friendly_name : name), le (size_tree_of l d friendly_name) (nd_size_tree_of l d friendly_name)) /\
  (forall (h : heap) (v : vec) (i : Z), le (vec_get h v i) (nd_vec_get h v i)) /\
  (forall (T : Type) (cs : bool) (h : heap_ops (queue_element T)) (tk : topk_vector T) (n : nat) (s : tk_enum T), le (te_run cs h tk n s) (nd_te_run cs h tk n s)).
Proof. exact nd_rest. Qed.
Print Assumptions C95_rest.
Example C95_rest_ex :
  size_tree_of (LVec 8 false) (DVec [1; 2]) "x"%string = Ok (Node "x"%string 24 []) /\ nd_size_tree_of (LVec 8 false) (DVec [1; 2]) "x"%string = Ok (Node "x"%string 24 []) /\
  size_tree_of (LPod 8 false) (DPod 5) "x"%string = Ub AssertFailed /\ nd_size_tree_of (LPod 8 false) (DPod 5) "x"%string = Ub OutOfBounds /\
  vec_get [] (mk_vec (File [7; 8]) 2 None) 1 = Ok 8 /\ nd_vec_get [] (mk_vec (File [7; 8]) 2 None) 1 = Ok 8 /\
  (do tk <- tk_build C95_gr 0 Z.ltb C95_v; do s <- te_set true tk te_new 1 6; te_run true C95_heap tk 2 s) = Ok [Some (9, 1); Some (9, 3)] /\
  (do tk <- nd_tk_build C95_gr 0 Z.ltb C95_v; do s <- nd_te_set true tk te_new 1 6; nd_te_run true C95_heap tk 2 s) = Ok [Some (9, 1); Some (9, 3)].
Proof. repeat split; vm_compute; reflexivity. Qed.
