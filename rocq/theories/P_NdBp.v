(** Proofs for C95: bp_vector, cartesian_tree and topk_vector *)
From Verif Require Import Base Lib M_Tables M_Broadword M_BitVector M_RsBitVector M_Darray M_EliasFano M_Gamma M_Util M_Bp M_Cartesian M_Topk S_Nd M_Nd M_NdBp P_Nd.

Lemma nd_find_close_in_word_le : forall (word byte_counts cur_exc : Z), le (find_close_in_word word byte_counts cur_exc) (nd_find_close_in_word word byte_counts cur_exc).
Proof. intros. unfold find_close_in_word, nd_find_close_in_word. le_go. Qed.
#[export] Hint Resolve nd_find_close_in_word_le : le.

Lemma nd_find_open_in_word_le : forall (word byte_counts cur_exc : Z), le (find_open_in_word word byte_counts cur_exc) (nd_find_open_in_word word byte_counts cur_exc).
Proof. intros. unfold find_open_in_word, nd_find_open_in_word. le_go. Qed.
#[export] Hint Resolve nd_find_open_in_word_le : le.

Lemma nd_get_block_excess_le : forall (rs : rs_bit_vector) (block : Z), le (get_block_excess rs block) (nd_get_block_excess rs block).
Proof. intros. unfold get_block_excess, nd_get_block_excess. le_go. Qed.
#[export] Hint Resolve nd_get_block_excess_le : le.

Lemma nd_excess_le : forall (bp : bp_vector) (pos : Z), le (excess bp pos) (nd_excess bp pos).
Proof. intros. unfold excess, nd_excess. le_go. Qed.
#[export] Hint Resolve nd_excess_le : le.

Lemma nd_close_block_loop_le : forall (n : nat) (words : list Z) (sub_block excess : Z), le (close_block_loop n words sub_block excess) (nd_close_block_loop n words sub_block excess).
Proof. intros n words sub_block excess. revert words sub_block excess. induction n; intros; cbn [close_block_loop nd_close_block_loop]; le_go. Qed.
#[export] Hint Resolve nd_close_block_loop_le : le.

Lemma nd_find_close_in_block_le : forall (words : list Z) (block_offset excess start : Z), le (find_close_in_block words block_offset excess start) (nd_find_close_in_block words block_offset excess start).
Proof. intros. unfold find_close_in_block, nd_find_close_in_block. le_go. Qed.
#[export] Hint Resolve nd_find_close_in_block_le : le.

Lemma nd_open_block_loop_le : forall (n : nat) (words : list Z) (block_offset excess : Z), le (open_block_loop n words block_offset excess) (nd_open_block_loop n words block_offset excess).
Proof. intros n words block_offset excess. revert words block_offset excess. induction n; intros; cbn [open_block_loop nd_open_block_loop]; le_go. Qed.
#[export] Hint Resolve nd_open_block_loop_le : le.

Lemma nd_find_open_in_block_le : forall (words : list Z) (block_offset excess start : Z), le (find_open_in_block words block_offset excess start) (nd_find_open_in_block words block_offset excess start).
Proof. intros. unfold find_open_in_block, nd_find_open_in_block. le_go. Qed.
#[export] Hint Resolve nd_find_open_in_block_le : le.

Lemma nd_block_search_loop_le : forall (dir : bool) (n : nat) (mins : list Z) (cur excess superblock_excess : Z), le (block_search_loop dir n mins cur excess superblock_excess) (nd_block_search_loop dir n mins cur excess superblock_excess).
Proof. intros dir n mins cur excess superblock_excess. revert dir mins cur excess superblock_excess. induction n; intros; cbn [block_search_loop nd_block_search_loop]; le_go. Qed.
#[export] Hint Resolve nd_block_search_loop_le : le.

Lemma nd_search_block_in_superblock_le : forall (dir : bool) (bp : bp_vector) (block excess : Z), le (search_block_in_superblock dir bp block excess) (nd_search_block_in_superblock dir bp block excess).
Proof. intros. unfold search_block_in_superblock, nd_search_block_in_superblock. le_go. Qed.
#[export] Hint Resolve nd_search_block_in_superblock_le : le.

Lemma nd_in_node_range_le : forall (bp : bp_vector) (node excess : Z), le (in_node_range bp node excess) (nd_in_node_range bp node excess).
Proof. intros. unfold in_node_range, nd_in_node_range. le_go. Qed.
#[export] Hint Resolve nd_in_node_range_le : le.

Lemma nd_tree_up_loop_le : forall (fuel : nat) (dir : bool) (bp : bp_vector) (cur_node excess : Z), le (tree_up_loop fuel dir bp cur_node excess) (nd_tree_up_loop fuel dir bp cur_node excess).
Proof. intros fuel dir bp cur_node excess. revert dir bp cur_node excess. induction fuel; intros; cbn [tree_up_loop nd_tree_up_loop]; le_go. Qed.
#[export] Hint Resolve nd_tree_up_loop_le : le.

Lemma nd_tree_down_loop_le : forall (fuel : nat) (dir : bool) (bp : bp_vector) (cur_node excess : Z), le (tree_down_loop fuel dir bp cur_node excess) (nd_tree_down_loop fuel dir bp cur_node excess).
Proof. intros fuel dir bp cur_node excess. revert dir bp cur_node excess. induction fuel; intros; cbn [tree_down_loop nd_tree_down_loop]; le_go. Qed.
#[export] Hint Resolve nd_tree_down_loop_le : le.

Lemma nd_search_min_tree_le : forall (dir : bool) (bp : bp_vector) (block excess : Z), le (search_min_tree dir bp block excess) (nd_search_min_tree dir bp block excess).
Proof. intros. unfold search_min_tree, nd_search_min_tree. le_go. Qed.
#[export] Hint Resolve nd_search_min_tree_le : le.

Lemma nd_find_close_le : forall (sp : shift_policy) (bp : bp_vector) (pos : Z), le (find_close sp bp pos) (nd_find_close sp bp pos).
Proof. intros. unfold find_close, nd_find_close. le_go. Qed.
#[export] Hint Resolve nd_find_close_le : le.

Lemma nd_find_open_le : forall (sp : shift_policy) (bp : bp_vector) (pos : Z), le (find_open sp bp pos) (nd_find_open sp bp pos).
Proof. intros. unfold find_open, nd_find_open. le_go. Qed.
#[export] Hint Resolve nd_find_open_le : le.

Lemma nd_enclose_le : forall (sp : shift_policy) (bp : bp_vector) (pos : Z), le (enclose sp bp pos) (nd_enclose sp bp pos).
Proof. intros. unfold enclose, nd_enclose. le_go. Qed.
#[export] Hint Resolve nd_enclose_le : le.

Lemma nd_excess_rmq_in_block_le : forall (cs : bool) (words : list Z) (start end_ exc min_exc min_exc_idx : Z), le (excess_rmq_in_block cs words start end_ exc min_exc min_exc_idx) (nd_excess_rmq_in_block cs words start end_ exc min_exc min_exc_idx).
Proof. intros. unfold excess_rmq_in_block, nd_excess_rmq_in_block. le_go. Qed.
#[export] Hint Resolve nd_excess_rmq_in_block_le : le.

Lemma nd_excess_rmq_in_superblock_le : forall (bp : bp_vector) (block_start block_end min_exc min_idx : Z), le (excess_rmq_in_superblock bp block_start block_end min_exc min_idx) (nd_excess_rmq_in_superblock bp block_start block_end min_exc min_idx).
Proof. intros. unfold excess_rmq_in_superblock, nd_excess_rmq_in_superblock. le_go. Qed.
#[export] Hint Resolve nd_excess_rmq_in_superblock_le : le.

Lemma nd_span_up_loop_le : forall (fuel : nat) (tree : list Z) (sb_end cur h span nme nmi : Z), le (span_up_loop fuel tree sb_end cur h span nme nmi) (nd_span_up_loop fuel tree sb_end cur h span nme nmi).
Proof. intros fuel tree sb_end cur h span nme nmi. revert tree sb_end cur h span nme nmi. induction fuel; intros; cbn [span_up_loop nd_span_up_loop]; le_go. Qed.
#[export] Hint Resolve nd_span_up_loop_le : le.

Lemma nd_span_down_loop_le : forall (fuel : nat) (tree : list Z) (sb_end cur h span nme nmi : Z), le (span_down_loop fuel tree sb_end cur h span nme nmi) (nd_span_down_loop fuel tree sb_end cur h span nme nmi).
Proof. intros fuel tree sb_end cur h span nme nmi. revert tree sb_end cur h span nme nmi. induction fuel; intros; cbn [span_down_loop nd_span_down_loop]; le_go. Qed.
#[export] Hint Resolve nd_span_down_loop_le : le.

Lemma nd_find_min_superblock_le : forall (bp : bp_vector) (sb_start sb_end min_exc min_idx : Z), le (find_min_superblock bp sb_start sb_end min_exc min_idx) (nd_find_min_superblock bp sb_start sb_end min_exc min_idx).
Proof. intros. unfold find_min_superblock, nd_find_min_superblock. le_go. Qed.
#[export] Hint Resolve nd_find_min_superblock_le : le.

Lemma nd_excess_rmq_blocks_le : forall (cs : bool) (bp : bp_vector) (block_a block_b min_exc min_exc_idx : Z), le (excess_rmq_blocks cs bp block_a block_b min_exc min_exc_idx) (nd_excess_rmq_blocks cs bp block_a block_b min_exc min_exc_idx).
Proof. intros. unfold excess_rmq_blocks, nd_excess_rmq_blocks. le_go. Qed.
#[export] Hint Resolve nd_excess_rmq_blocks_le : le.

Lemma nd_excess_rmq_le : forall (cs : bool) (bp : bp_vector) (a b : Z), le (excess_rmq cs bp a b) (nd_excess_rmq cs bp a b).
Proof. intros. unfold excess_rmq, nd_excess_rmq. le_go. Qed.
#[export] Hint Resolve nd_excess_rmq_le : le.

Lemma nd_push_block_min_le : forall (mins : list Z) (m : Z), le (push_block_min mins m) (nd_push_block_min mins m).
Proof. intros. unfold push_block_min, nd_push_block_min. le_go. Qed.
#[export] Hint Resolve nd_push_block_min_le : le.

Lemma nd_block_mins_loop_le : forall (ws : list Z) (last sub_block : Z) (mins : list Z) (block_min sb_excess : Z), le (block_mins_loop ws last sub_block mins block_min sb_excess) (nd_block_mins_loop ws last sub_block mins block_min sb_excess).
Proof. intros ws last sub_block mins block_min sb_excess. revert last sub_block mins block_min sb_excess. induction ws; intros; cbn [block_mins_loop nd_block_mins_loop]; le_go. Qed.
#[export] Hint Resolve nd_block_mins_loop_le : le.

Lemma nd_leaves_loop_le : forall (n : nat) (rs : rs_bit_vector) (mins : list Z) (size superblock : Z), le (leaves_loop n rs mins size superblock) (nd_leaves_loop n rs mins size superblock).
Proof. intros n rs mins size superblock. revert rs mins size superblock. induction n; intros; cbn [leaves_loop nd_leaves_loop]; le_go. Qed.
#[export] Hint Resolve nd_leaves_loop_le : le.

Lemma nd_build_min_tree_le : forall (uninit : Z) (rs : rs_bit_vector), le (build_min_tree uninit rs) (nd_build_min_tree uninit rs).
Proof. intros. unfold build_min_tree, nd_build_min_tree. le_go. Qed.
#[export] Hint Resolve nd_build_min_tree_le : le.

Lemma nd_bp_build_le : forall (uninit : Z) (bv : bit_vector) (with_select_hints with_select0_hints : bool), le (bp_build uninit bv with_select_hints with_select0_hints) (nd_bp_build uninit bv with_select_hints with_select0_hints).
Proof. intros. unfold bp_build, nd_bp_build. le_go. Qed.
#[export] Hint Resolve nd_bp_build_le : le.

Lemma nd_cb_finalize_le : forall (T : Type) (gr : growth) (c : ct_builder T), le (cb_finalize gr c) (nd_cb_finalize gr c).
Proof. intros. unfold cb_finalize, nd_cb_finalize. le_go. Qed.
#[export] Hint Resolve nd_cb_finalize_le : le.

Lemma nd_ct_of_builder_le : forall (T : Type) (gr : growth) (uninit : Z) (c : ct_builder T), le (ct_of_builder gr uninit c) (nd_ct_of_builder gr uninit c).
Proof. intros. unfold ct_of_builder, nd_ct_of_builder. le_go. Qed.
#[export] Hint Resolve nd_ct_of_builder_le : le.

Lemma nd_ct_build_le : forall (T : Type) (gr : growth) (uninit : Z) (comp : T -> T -> bool) (expected_size : Z) (v : list T), le (ct_build gr uninit comp expected_size v) (nd_ct_build gr uninit comp expected_size v).
Proof. intros. unfold ct_build, nd_ct_build. le_go. Qed.
#[export] Hint Resolve nd_ct_build_le : le.

Lemma nd_ct_rmq_le : forall (cs : bool) (bp : bp_vector) (a b : Z), le (ct_rmq cs bp a b) (nd_ct_rmq cs bp a b).
Proof. intros. unfold ct_rmq, nd_ct_rmq. le_go. Qed.
#[export] Hint Resolve nd_ct_rmq_le : le.

Lemma nd_tk_build_le : forall (T : Type) (gr : growth) (uninit : Z) (lt : T -> T -> bool) (v : list T), le (tk_build gr uninit lt v) (nd_tk_build gr uninit lt v).
Proof. intros. unfold tk_build, nd_tk_build. le_go. Qed.
#[export] Hint Resolve nd_tk_build_le : le.

Lemma nd_te_push_le : forall (T : Type) (cs : bool) (h : heap_ops (queue_element T)) (tk : topk_vector T) (q : list (queue_element T)) (a b : Z), le (te_push cs h tk q a b) (nd_te_push cs h tk q a b).
Proof. intros. unfold te_push, nd_te_push. le_go. Qed.
#[export] Hint Resolve nd_te_push_le : le.

Lemma nd_te_next_le : forall (T : Type) (cs : bool) (h : heap_ops (queue_element T)) (tk : topk_vector T) (s : tk_enum T), le (te_next cs h tk s) (nd_te_next cs h tk s).
Proof. intros. unfold te_next, nd_te_next. le_go. Qed.
#[export] Hint Resolve nd_te_next_le : le.

Lemma nd_te_set_le : forall (T : Type) (cs : bool) (tk : topk_vector T) (s : tk_enum T) (a b : Z), le (te_set cs tk s a b) (nd_te_set cs tk s a b).
Proof. intros. unfold te_set, nd_te_set. le_go. Qed.
#[export] Hint Resolve nd_te_set_le : le.

Lemma nd_topk_loop_le : forall (T : Type) (cs : bool) (h : heap_ops (queue_element T)) (tk : topk_vector T) (n : nat) (s : tk_enum T), le (topk_loop cs h tk n s) (nd_topk_loop cs h tk n s).
Proof. intros T cs h tk n s. revert cs h tk s. induction n; intros; cbn [topk_loop nd_topk_loop]; le_go. Qed.
#[export] Hint Resolve nd_topk_loop_le : le.

Lemma nd_topk_le : forall (T : Type) (cs : bool) (h : heap_ops (queue_element T)) (tk : topk_vector T) (a b k : Z), le (topk cs h tk a b k) (nd_topk cs h tk a b k).
Proof. intros. unfold topk, nd_topk. le_go. Qed.
#[export] Hint Resolve nd_topk_le : le.

Lemma nd_broadword :
  (forall (popcnt : bool) (x k : Z), le (select_in_word_gen popcnt x k) (nd_select_in_word_gen popcnt x k)) /\
  (forall (x k : Z), le (select_in_word x k) (nd_select_in_word x k)) /\
  (forall (x : Z), le (bit_position x) (nd_bit_position x)) /\
  (forall (x0 : Z), le (msb_opt x0) (nd_msb_opt x0)) /\
  (forall (x : Z), le (msb x) (nd_msb x)) /\
  (forall (x : Z), le (lsb_opt x) (nd_lsb_opt x)) /\
  (forall (x : Z), le (lsb x) (nd_lsb x)).
Proof. repeat match goal with |- _ /\ _ => split end; intros; trivial with le nocore. Qed.

Lemma nd_bit_vector :
  (forall (b : builder) (pos bits len : Z), le (set_bits b pos bits len) (nd_set_bits b pos bits len)) /\
  (forall (gr : growth) (b : builder) (bits len : Z), le (append_bits gr b bits len) (nd_append_bits gr b bits len)) /\
  (forall (gr : growth) (fuel : nat) (b : builder) (n : Z), le (one_extend_loop gr fuel b n) (nd_one_extend_loop gr fuel b n)) /\
  (forall (gr : growth) (b : builder) (n : Z), le (one_extend gr b n) (nd_one_extend gr b n)) /\
  (forall (b : builder), le (reverse b) (nd_reverse b)) /\
  (forall (b : builder), le (bv_of_builder b) (nd_bv_of_builder b)) /\
  (forall (bv : bit_vector) (pos : Z), le (bv_get bv pos) (nd_bv_get bv pos)) /\
  (forall (sp : shift_policy) (bv : bit_vector) (pos len : Z), le (get_bits sp bv pos len) (nd_get_bits sp bv pos len)) /\
  (forall (bv : bit_vector) (pos : Z), le (get_word bv pos) (nd_get_word bv pos)) /\
  (forall (fuel : nat) (ws : list Z) (block word : Z), le (predecessor0_loop fuel ws block word) (nd_predecessor0_loop fuel ws block word)) /\
  (forall (bv : bit_vector) (pos : Z), le (predecessor0 bv pos) (nd_predecessor0 bv pos)) /\
  (forall (fuel : nat) (ws : list Z) (block word : Z), le (successor0_loop fuel ws block word) (nd_successor0_loop fuel ws block word)) /\
  (forall (bv : bit_vector) (pos : Z), le (successor0 bv pos) (nd_successor0 bv pos)) /\
  (forall (fuel : nat) (ws : list Z) (block word : Z), le (predecessor1_loop fuel ws block word) (nd_predecessor1_loop fuel ws block word)) /\
  (forall (bv : bit_vector) (pos : Z), le (predecessor1 bv pos) (nd_predecessor1 bv pos)) /\
  (forall (fuel : nat) (ws : list Z) (block word : Z), le (successor1_loop fuel ws block word) (nd_successor1_loop fuel ws block word)) /\
  (forall (bv : bit_vector) (pos : Z), le (successor1 bv pos) (nd_successor1 bv pos)) /\
  (forall (bv : bit_vector) (e : enumerator), le (fill_buf bv e) (nd_fill_buf bv e)) /\
  (forall (bv : bit_vector) (e : enumerator), le (enum_next bv e) (nd_enum_next bv e)) /\
  (forall (bv : bit_vector) (e : enumerator) (l : Z), le (enum_take bv e l) (nd_enum_take bv e l)) /\
  (forall (fuel : nat) (bv : bit_vector) (e : enumerator) (zs : Z), le (skip_zeros_loop fuel bv e zs) (nd_skip_zeros_loop fuel bv e zs)) /\
  (forall (bv : bit_vector) (e : enumerator), le (enum_skip_zeros bv e) (nd_enum_skip_zeros bv e)) /\
  (forall (fuel : nat) (ws : list Z) (pos buf : Z), le (unary_next_loop fuel ws pos buf) (nd_unary_next_loop fuel ws pos buf)) /\
  (forall (ws : list Z) (e : unary_enum), le (unary_next ws e) (nd_unary_next ws e)) /\
  (forall (ws : list Z) (e : unary_enum) (k : Z), le (unary_skip ws e k) (nd_unary_skip ws e k)) /\
  (forall (ws : list Z) (e : unary_enum) (k : Z), le (unary_skip_no_move ws e k) (nd_unary_skip_no_move ws e k)) /\
  (forall (ws : list Z) (e : unary_enum) (k : Z), le (unary_skip0 ws e k) (nd_unary_skip0 ws e k)).
Proof. repeat match goal with |- _ /\ _ => split end; intros; trivial with le nocore. Qed.

Lemma nd_rank_select :
  (forall (rs : rs_bit_vector) (pos : Z), le (rs_rank rs pos) (nd_rs_rank rs pos)) /\
  (forall (rs : rs_bit_vector) (pos : Z), le (rs_rank0 rs pos) (nd_rs_rank0 rs pos)) /\
  (forall (rs : rs_bit_vector) (n : Z), le (rs_select rs n) (nd_rs_select rs n)) /\
  (forall (rs : rs_bit_vector) (n : Z), le (rs_select0 rs n) (nd_rs_select0 rs n)) /\
  (forall (fuel : nat) (size cur_pos cur_word : Z) (st : dstate), le (dword_loop fuel size cur_pos cur_word st) (nd_dword_loop fuel size cur_pos cur_word st)) /\
  (forall (neg : bool) (n : nat) (ws : list Z) (size word_idx : Z) (st : dstate), le (dwords_loop neg n ws size word_idx st) (nd_dwords_loop neg n ws size word_idx st)) /\
  (forall (neg : bool) (bv : bit_vector), le (darray_build neg bv) (nd_darray_build neg bv)) /\
  (forall (neg : bool) (ws : list Z) (start_pos reminder : Z), le (darray_scan neg ws start_pos reminder) (nd_darray_scan neg ws start_pos reminder)) /\
  (forall (neg : bool) (d : darray) (bv : bit_vector) (idx : Z), le (darray_select neg d bv idx) (nd_darray_select neg d bv idx)) /\
  (forall d bv idx, le (darray1_select d bv idx) (nd_darray1_select d bv idx)) /\
  (forall d bv idx, le (darray0_select d bv idx) (nd_darray0_select d bv idx)) /\
  (forall (gr : growth) (b : d64_builder) (skip0 : Z), le (append1 gr b skip0) (nd_append1 gr b skip0)) /\
  (forall (b : d64_builder), le (d64_build b) (nd_d64_build b)) /\
  (forall (d : darray64) (idx : Z), le (d64_select d idx) (nd_d64_select d idx)).
Proof. repeat match goal with |- _ /\ _ => split end; intros; trivial with le nocore. Qed.

Lemma nd_elias_fano :
  (forall (gr : growth) (n m : Z), le (ef_builder_new gr n m) (nd_ef_builder_new gr n m)) /\
  (forall (gr : growth) (b : ef_builder) (i : Z), le (ef_push gr b i) (nd_ef_push gr b i)) /\
  (forall (b : ef_builder) (with_rank_index : bool), le (ef_build b with_rank_index) (nd_ef_build b with_rank_index)) /\
  (forall (gr : growth) (n : nat) (bv : bit_vector) (i : Z) (b : ef_builder), le (ef_ones_loop gr n bv i b) (nd_ef_ones_loop gr n bv i b)) /\
  (forall (gr : growth) (bvb : builder) (with_rank_index : bool), le (ef_of_bits gr bvb with_rank_index) (nd_ef_of_bits gr bvb with_rank_index)) /\
  (forall (fuel : nat) (ef : elias_fano) (l_pos rank h_pos : Z), le (ef_get_loop fuel ef l_pos rank h_pos) (nd_ef_get_loop fuel ef l_pos rank h_pos)) /\
  (forall (ef : elias_fano) (pos : Z), le (ef_get ef pos) (nd_ef_get ef pos)) /\
  (forall (ef : elias_fano) (n : Z), le (ef_select ef n) (nd_ef_select ef n)) /\
  (forall (fuel : nat) (ef : elias_fano) (l_pos rank h_pos : Z), le (ef_rank_loop fuel ef l_pos rank h_pos) (nd_ef_rank_loop fuel ef l_pos rank h_pos)) /\
  (forall (ef : elias_fano) (pos : Z), le (ef_rank ef pos) (nd_ef_rank ef pos)) /\
  (forall (ef : elias_fano) (pos : Z), le (ef_predecessor1 ef pos) (nd_ef_predecessor1 ef pos)) /\
  (forall (ef : elias_fano) (pos : Z), le (ef_successor1 ef pos) (nd_ef_successor1 ef pos)) /\
  (forall (ef : elias_fano) (n : Z), le (ef_delta ef n) (nd_ef_delta ef n)) /\
  (forall (ef : elias_fano) (n : Z), le (ef_select_range ef n) (nd_ef_select_range ef n)) /\
  (forall (ef : elias_fano) (i : Z), le (se_new ef i) (nd_se_new ef i)) /\
  (forall (ef : elias_fano) (e : select_enum), le (se_next ef e) (nd_se_next ef e)) /\
  (forall (gr : growth) (ints : list Z) (cur_base : Z) (b : ef_builder), le (efl_loop gr ints cur_base b) (nd_efl_loop gr ints cur_base b)) /\
  (forall (gr : growth) (ints : list Z), le (efl_build gr ints) (nd_efl_build gr ints)) /\
  (forall (l : elias_fano) (idx : Z), le (efl_get l idx) (nd_efl_get l idx)) /\
  (forall (ints : list Z) (s : Z), le (code_sum ints s) (nd_code_sum ints s)) /\
  (forall (gr : growth) (ints : list Z) (b : ef_builder) (bits : builder), le (efc_loop gr ints b bits) (nd_efc_loop gr ints b bits)) /\
  (forall (gr : growth) (ints : list Z), le (efc_build gr ints) (nd_efc_build gr ints)) /\
  (forall (c : ef_compressed) (idx : Z), le (efc_get c idx) (nd_efc_get c idx)).
Proof. repeat match goal with |- _ /\ _ => split end; intros; trivial with le nocore. Qed.

Lemma nd_gamma :
  (forall (gr : growth) (ints : list Z) (high : d64_builder) (low : builder), le (gv_loop gr ints high low) (nd_gv_loop gr ints high low)) /\
  (forall (gr : growth) (ints : list Z), le (gv_build gr ints) (nd_gv_build gr ints)) /\
  (forall (g : gamma) (idx pos : Z), le (gv_retrieve g idx pos) (nd_gv_retrieve g idx pos)) /\
  (forall (g : gamma) (idx : Z), le (gv_get g idx) (nd_gv_get g idx)) /\
  (forall (g : gamma) (idx : Z), le (gv_enum_new g idx) (nd_gv_enum_new g idx)) /\
  (forall (g : gamma) (u : option unary_enum), le (ge_unary_next g u) (nd_ge_unary_next g u)) /\
  (forall (g : gamma) (e : option enumerator) (l : Z), le (ge_low_take g e l) (nd_ge_low_take g e l)) /\
  (forall (g : gamma) (e : gamma_enum), le (gv_enum_next g e) (nd_gv_enum_next g e)) /\
  (forall (gr : growth) (vals : list Z) (high : d64_builder) (low : builder), le (gb_loop gr vals high low) (nd_gb_loop gr vals high low)) /\
  (forall (gr : growth) (vals : list Z), le (gb_build gr vals) (nd_gb_build gr vals)) /\
  (forall (g : gamma) (pos : Z), le (gb_retrieve g pos) (nd_gb_retrieve g pos)) /\
  (forall (g : gamma) (idx : Z), le (gb_get g idx) (nd_gb_get g idx)) /\
  (forall (g : gamma) (idx : Z), le (gb_enum_new g idx) (nd_gb_enum_new g idx)) /\
  (forall (g : gamma) (e : gamma_enum), le (gb_enum_next g e) (nd_gb_enum_next g e)) /\
  (forall (g : gamma) (e : gamma_enum) (k : nat), le (gb_enum_skip g e k) (nd_gb_enum_skip g e k)).
Proof. repeat match goal with |- _ /\ _ => split end; intros; trivial with le nocore. Qed.

Lemma nd_util :
  (forall (val : Z), le (vbyte_size val) (nd_vbyte_size val)) /\
  (forall (v : list Z) (val : Z), le (append_vbyte v val) (nd_append_vbyte v val)) /\
  (forall (from : list Z) (nibbles : list Z) (parity : bool) (cur_byte size : Z), le (nv_loop from nibbles parity cur_byte size) (nd_nv_loop from nibbles parity cur_byte size)) /\
  (forall (from : list Z), le (nv_build from) (nd_nv_build from)) /\
  (forall (n : nibble_vector) (pos : Z), le (nv_get n pos) (nd_nv_get n pos)).
Proof. repeat match goal with |- _ /\ _ => split end; intros; trivial with le nocore. Qed.

Lemma nd_bp_vector :
  (forall (word byte_counts cur_exc : Z), le (find_close_in_word word byte_counts cur_exc) (nd_find_close_in_word word byte_counts cur_exc)) /\
  (forall (word byte_counts cur_exc : Z), le (find_open_in_word word byte_counts cur_exc) (nd_find_open_in_word word byte_counts cur_exc)) /\
  (forall (rs : rs_bit_vector) (block : Z), le (get_block_excess rs block) (nd_get_block_excess rs block)) /\
  (forall (bp : bp_vector) (pos : Z), le (excess bp pos) (nd_excess bp pos)) /\
  (forall (n : nat) (words : list Z) (sub_block excess : Z), le (close_block_loop n words sub_block excess) (nd_close_block_loop n words sub_block excess)) /\
  (forall (words : list Z) (block_offset excess start : Z), le (find_close_in_block words block_offset excess start) (nd_find_close_in_block words block_offset excess start)) /\
  (forall (n : nat) (words : list Z) (block_offset excess : Z), le (open_block_loop n words block_offset excess) (nd_open_block_loop n words block_offset excess)) /\
  (forall (words : list Z) (block_offset excess start : Z), le (find_open_in_block words block_offset excess start) (nd_find_open_in_block words block_offset excess start)) /\
  (forall (dir : bool) (n : nat) (mins : list Z) (cur excess superblock_excess : Z), le (block_search_loop dir n mins cur excess superblock_excess) (nd_block_search_loop dir n mins cur excess superblock_excess)) /\
  (forall (dir : bool) (bp : bp_vector) (block excess : Z), le (search_block_in_superblock dir bp block excess) (nd_search_block_in_superblock dir bp block excess)) /\
  (forall (bp : bp_vector) (node excess : Z), le (in_node_range bp node excess) (nd_in_node_range bp node excess)) /\
  (forall (fuel : nat) (dir : bool) (bp : bp_vector) (cur_node excess : Z), le (tree_up_loop fuel dir bp cur_node excess) (nd_tree_up_loop fuel dir bp cur_node excess)) /\
  (forall (fuel : nat) (dir : bool) (bp : bp_vector) (cur_node excess : Z), le (tree_down_loop fuel dir bp cur_node excess) (nd_tree_down_loop fuel dir bp cur_node excess)) /\
  (forall (dir : bool) (bp : bp_vector) (block excess : Z), le (search_min_tree dir bp block excess) (nd_search_min_tree dir bp block excess)) /\
  (forall (sp : shift_policy) (bp : bp_vector) (pos : Z), le (find_close sp bp pos) (nd_find_close sp bp pos)) /\
  (forall (sp : shift_policy) (bp : bp_vector) (pos : Z), le (find_open sp bp pos) (nd_find_open sp bp pos)) /\
  (forall (sp : shift_policy) (bp : bp_vector) (pos : Z), le (enclose sp bp pos) (nd_enclose sp bp pos)) /\
  (forall (cs : bool) (words : list Z) (start end_ exc min_exc min_exc_idx : Z), le (excess_rmq_in_block cs words start end_ exc min_exc min_exc_idx) (nd_excess_rmq_in_block cs words start end_ exc min_exc min_exc_idx)) /\
  (forall (bp : bp_vector) (block_start block_end min_exc min_idx : Z), le (excess_rmq_in_superblock bp block_start block_end min_exc min_idx) (nd_excess_rmq_in_superblock bp block_start block_end min_exc min_idx)) /\
  (forall (fuel : nat) (tree : list Z) (sb_end cur h span nme nmi : Z), le (span_up_loop fuel tree sb_end cur h span nme nmi) (nd_span_up_loop fuel tree sb_end cur h span nme nmi)) /\
  (forall (fuel : nat) (tree : list Z) (sb_end cur h span nme nmi : Z), le (span_down_loop fuel tree sb_end cur h span nme nmi) (nd_span_down_loop fuel tree sb_end cur h span nme nmi)) /\
  (forall (bp : bp_vector) (sb_start sb_end min_exc min_idx : Z), le (find_min_superblock bp sb_start sb_end min_exc min_idx) (nd_find_min_superblock bp sb_start sb_end min_exc min_idx)) /\
  (forall (cs : bool) (bp : bp_vector) (block_a block_b min_exc min_exc_idx : Z), le (excess_rmq_blocks cs bp block_a block_b min_exc min_exc_idx) (nd_excess_rmq_blocks cs bp block_a block_b min_exc min_exc_idx)) /\
  (forall (cs : bool) (bp : bp_vector) (a b : Z), le (excess_rmq cs bp a b) (nd_excess_rmq cs bp a b)) /\
  (forall (mins : list Z) (m : Z), le (push_block_min mins m) (nd_push_block_min mins m)) /\
  (forall (ws : list Z) (last sub_block : Z) (mins : list Z) (block_min sb_excess : Z), le (block_mins_loop ws last sub_block mins block_min sb_excess) (nd_block_mins_loop ws last sub_block mins block_min sb_excess)) /\
  (forall (n : nat) (rs : rs_bit_vector) (mins : list Z) (size superblock : Z), le (leaves_loop n rs mins size superblock) (nd_leaves_loop n rs mins size superblock)) /\
  (forall (uninit : Z) (rs : rs_bit_vector), le (build_min_tree uninit rs) (nd_build_min_tree uninit rs)) /\
  (forall (uninit : Z) (bv : bit_vector) (with_select_hints with_select0_hints : bool), le (bp_build uninit bv with_select_hints with_select0_hints) (nd_bp_build uninit bv with_select_hints with_select0_hints)).
Proof. repeat match goal with |- _ /\ _ => split end; intros; trivial with le nocore. Qed.

Lemma nd_trees :
  (forall (T : Type) (gr : growth) (c : ct_builder T), le (cb_finalize gr c) (nd_cb_finalize gr c)) /\
  (forall (T : Type) (gr : growth) (uninit : Z) (c : ct_builder T), le (ct_of_builder gr uninit c) (nd_ct_of_builder gr uninit c)) /\
  (forall (T : Type) (gr : growth) (uninit : Z) (comp : T -> T -> bool) (expected_size : Z) (v : list T), le (ct_build gr uninit comp expected_size v) (nd_ct_build gr uninit comp expected_size v)) /\
  (forall (cs : bool) (bp : bp_vector) (a b : Z), le (ct_rmq cs bp a b) (nd_ct_rmq cs bp a b)) /\
  (forall (T : Type) (gr : growth) (uninit : Z) (lt : T -> T -> bool) (v : list T), le (tk_build gr uninit lt v) (nd_tk_build gr uninit lt v)) /\
  (forall (T : Type) (cs : bool) (h : heap_ops (queue_element T)) (tk : topk_vector T) (q : list (queue_element T)) (a b : Z), le (te_push cs h tk q a b) (nd_te_push cs h tk q a b)) /\
  (forall (T : Type) (cs : bool) (h : heap_ops (queue_element T)) (tk : topk_vector T) (s : tk_enum T), le (te_next cs h tk s) (nd_te_next cs h tk s)) /\
  (forall (T : Type) (cs : bool) (tk : topk_vector T) (s : tk_enum T) (a b : Z), le (te_set cs tk s a b) (nd_te_set cs tk s a b)) /\
  (forall (T : Type) (cs : bool) (h : heap_ops (queue_element T)) (tk : topk_vector T) (n : nat) (s : tk_enum T), le (topk_loop cs h tk n s) (nd_topk_loop cs h tk n s)) /\
  (forall (T : Type) (cs : bool) (h : heap_ops (queue_element T)) (tk : topk_vector T) (a b k : Z), le (topk cs h tk a b k) (nd_topk cs h tk a b k)).
Proof. repeat match goal with |- _ /\ _ => split end; intros; trivial with le nocore. Qed.
