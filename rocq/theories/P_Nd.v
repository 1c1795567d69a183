(** Proofs for C95 *)
From Verif Require Import Base Lib M_Tables M_Broadword M_BitVector M_RsBitVector M_Darray M_EliasFano M_Gamma M_Util S_Nd M_Nd.

Lemma le_refl A (r : res A) : le r r.
Proof. constructor. auto. Qed.
Lemma le_ub A e (r : res A) : le (Ub e) r.
Proof. constructor. discriminate. Qed.
Lemma le_assert A c (k k' : res A) : le k k' -> le (assert_ c k) k'.
Proof. intros [H]. constructor. intros x E. unfold assert_ in E. destruct c; [auto|discriminate]. Qed.
Lemma le_bind A B (m m' : res A) (k k' : A -> res B) : le m m' -> (forall x, le (k x) (k' x)) -> le (bind m k) (bind m' k').
Proof. intros [H] K. constructor. intros x E. apply bind_inv in E. destruct E as (y & E & F). rewrite (H y E). cbn [bind]. destruct (K y) as [G]. auto. Qed.
Lemma le_drop A B (m : res A) (k : A -> res B) r : (forall x, le (k x) r) -> le (bind m k) r.
Proof. intros K. constructor. intros x E. apply bind_inv in E. destruct E as (y & E & F). destruct (K y) as [G]. auto. Qed.
Create HintDb le discriminated.
#[export] Hint Constants Opaque : le.
#[export] Hint Variables Opaque : le.
Ltac le_go :=
  match goal with
  | |- le ?a ?a => apply le_refl
  | |- le (Ub _) _ => apply le_ub
  | _ => solve [trivial with le nocore]
  | IH : context [le (?f _) _] |- _ => solve [simple apply IH]
  | |- le (assert_ _ _) _ => apply le_assert; le_go
  | |- le (bind ?m ?k) (bind ?m ?k') => apply le_bind; [apply le_refl|intros; le_go]
  | |- le (bind _ _) (bind _ _) => apply le_bind; [le_go|]; intros; le_go
  | |- le (bind _ _) _ => apply le_drop; intros; le_go
  | |- le (match ?x with _ => _ end) (match ?x with _ => _ end) => destruct x; le_go
  | _ => progress cbv zeta; le_go
  end.

Lemma nd_select_in_word_gen_le : forall (popcnt : bool) (x k : Z), le (select_in_word_gen popcnt x k) (nd_select_in_word_gen popcnt x k).
Proof. intros. unfold select_in_word_gen, nd_select_in_word_gen. le_go. Qed.
#[export] Hint Resolve nd_select_in_word_gen_le : le.

Lemma nd_select_in_word_le : forall (x k : Z), le (select_in_word x k) (nd_select_in_word x k).
Proof. intros. unfold select_in_word, nd_select_in_word. le_go. Qed.
#[export] Hint Resolve nd_select_in_word_le : le.

Lemma nd_bit_position_le : forall (x : Z), le (bit_position x) (nd_bit_position x).
Proof. intros. unfold bit_position, nd_bit_position. le_go. Qed.
#[export] Hint Resolve nd_bit_position_le : le.

Lemma nd_msb_opt_le : forall (x0 : Z), le (msb_opt x0) (nd_msb_opt x0).
Proof. intros. unfold msb_opt, nd_msb_opt. le_go. Qed.
#[export] Hint Resolve nd_msb_opt_le : le.

Lemma nd_msb_le : forall (x : Z), le (msb x) (nd_msb x).
Proof. intros. unfold msb, nd_msb. le_go. Qed.
#[export] Hint Resolve nd_msb_le : le.

Lemma nd_lsb_opt_le : forall (x : Z), le (lsb_opt x) (nd_lsb_opt x).
Proof. intros. unfold lsb_opt, nd_lsb_opt. le_go. Qed.
#[export] Hint Resolve nd_lsb_opt_le : le.

Lemma nd_lsb_le : forall (x : Z), le (lsb x) (nd_lsb x).
Proof. intros. unfold lsb, nd_lsb. le_go. Qed.
#[export] Hint Resolve nd_lsb_le : le.

Lemma nd_set_bits_le : forall (b : builder) (pos bits len : Z), le (set_bits b pos bits len) (nd_set_bits b pos bits len).
Proof. intros. unfold set_bits, nd_set_bits. le_go. Qed.
#[export] Hint Resolve nd_set_bits_le : le.

Lemma nd_append_bits_le : forall (gr : growth) (b : builder) (bits len : Z), le (append_bits gr b bits len) (nd_append_bits gr b bits len).
Proof. intros. unfold append_bits, nd_append_bits. le_go. Qed.
#[export] Hint Resolve nd_append_bits_le : le.

Lemma nd_one_extend_loop_le : forall (gr : growth) (fuel : nat) (b : builder) (n : Z), le (one_extend_loop gr fuel b n) (nd_one_extend_loop gr fuel b n).
Proof. intros gr fuel b n. revert gr b n. induction fuel; intros; cbn [one_extend_loop nd_one_extend_loop]; le_go. Qed.
#[export] Hint Resolve nd_one_extend_loop_le : le.

Lemma nd_one_extend_le : forall (gr : growth) (b : builder) (n : Z), le (one_extend gr b n) (nd_one_extend gr b n).
Proof. intros. unfold one_extend, nd_one_extend. le_go. Qed.
#[export] Hint Resolve nd_one_extend_le : le.

Lemma nd_reverse_le : forall (b : builder), le (reverse b) (nd_reverse b).
Proof. intros. unfold reverse, nd_reverse. le_go. Qed.
#[export] Hint Resolve nd_reverse_le : le.

Lemma nd_bv_of_builder_le : forall (b : builder), le (bv_of_builder b) (nd_bv_of_builder b).
Proof. intros. unfold bv_of_builder, nd_bv_of_builder. le_go. Qed.
#[export] Hint Resolve nd_bv_of_builder_le : le.

Lemma nd_bv_get_le : forall (bv : bit_vector) (pos : Z), le (bv_get bv pos) (nd_bv_get bv pos).
Proof. intros. unfold bv_get, nd_bv_get. le_go. Qed.
#[export] Hint Resolve nd_bv_get_le : le.

Lemma nd_get_bits_le : forall (sp : shift_policy) (bv : bit_vector) (pos len : Z), le (get_bits sp bv pos len) (nd_get_bits sp bv pos len).
Proof. intros. unfold get_bits, nd_get_bits. le_go. Qed.
#[export] Hint Resolve nd_get_bits_le : le.

Lemma nd_get_word_le : forall (bv : bit_vector) (pos : Z), le (get_word bv pos) (nd_get_word bv pos).
Proof. intros. unfold get_word, nd_get_word. le_go. Qed.
#[export] Hint Resolve nd_get_word_le : le.

Lemma nd_predecessor0_loop_le : forall (fuel : nat) (ws : list Z) (block word : Z), le (predecessor0_loop fuel ws block word) (nd_predecessor0_loop fuel ws block word).
Proof. intros fuel ws block word. revert ws block word. induction fuel; intros; cbn [predecessor0_loop nd_predecessor0_loop]; le_go. Qed.
#[export] Hint Resolve nd_predecessor0_loop_le : le.

Lemma nd_predecessor0_le : forall (bv : bit_vector) (pos : Z), le (predecessor0 bv pos) (nd_predecessor0 bv pos).
Proof. intros. unfold predecessor0, nd_predecessor0. le_go. Qed.
#[export] Hint Resolve nd_predecessor0_le : le.

Lemma nd_successor0_loop_le : forall (fuel : nat) (ws : list Z) (block word : Z), le (successor0_loop fuel ws block word) (nd_successor0_loop fuel ws block word).
Proof. intros fuel ws block word. revert ws block word. induction fuel; intros; cbn [successor0_loop nd_successor0_loop]; le_go. Qed.
#[export] Hint Resolve nd_successor0_loop_le : le.

Lemma nd_successor0_le : forall (bv : bit_vector) (pos : Z), le (successor0 bv pos) (nd_successor0 bv pos).
Proof. intros. unfold successor0, nd_successor0. le_go. Qed.
#[export] Hint Resolve nd_successor0_le : le.

Lemma nd_predecessor1_loop_le : forall (fuel : nat) (ws : list Z) (block word : Z), le (predecessor1_loop fuel ws block word) (nd_predecessor1_loop fuel ws block word).
Proof. intros fuel ws block word. revert ws block word. induction fuel; intros; cbn [predecessor1_loop nd_predecessor1_loop]; le_go. Qed.
#[export] Hint Resolve nd_predecessor1_loop_le : le.

Lemma nd_predecessor1_le : forall (bv : bit_vector) (pos : Z), le (predecessor1 bv pos) (nd_predecessor1 bv pos).
Proof. intros. unfold predecessor1, nd_predecessor1. le_go. Qed.
#[export] Hint Resolve nd_predecessor1_le : le.

Lemma nd_successor1_loop_le : forall (fuel : nat) (ws : list Z) (block word : Z), le (successor1_loop fuel ws block word) (nd_successor1_loop fuel ws block word).
Proof. intros fuel ws block word. revert ws block word. induction fuel; intros; cbn [successor1_loop nd_successor1_loop]; le_go. Qed.
#[export] Hint Resolve nd_successor1_loop_le : le.

Lemma nd_successor1_le : forall (bv : bit_vector) (pos : Z), le (successor1 bv pos) (nd_successor1 bv pos).
Proof. intros. unfold successor1, nd_successor1. le_go. Qed.
#[export] Hint Resolve nd_successor1_le : le.

Lemma nd_fill_buf_le : forall (bv : bit_vector) (e : enumerator), le (fill_buf bv e) (nd_fill_buf bv e).
Proof. intros. unfold fill_buf, nd_fill_buf. le_go. Qed.
#[export] Hint Resolve nd_fill_buf_le : le.

Lemma nd_enum_next_le : forall (bv : bit_vector) (e : enumerator), le (enum_next bv e) (nd_enum_next bv e).
Proof. intros. unfold enum_next, nd_enum_next. le_go. Qed.
#[export] Hint Resolve nd_enum_next_le : le.

Lemma nd_enum_take_le : forall (bv : bit_vector) (e : enumerator) (l : Z), le (enum_take bv e l) (nd_enum_take bv e l).
Proof. intros. unfold enum_take, nd_enum_take. le_go. Qed.
#[export] Hint Resolve nd_enum_take_le : le.

Lemma nd_skip_zeros_loop_le : forall (fuel : nat) (bv : bit_vector) (e : enumerator) (zs : Z), le (skip_zeros_loop fuel bv e zs) (nd_skip_zeros_loop fuel bv e zs).
Proof. intros fuel bv e zs. revert bv e zs. induction fuel; intros; cbn [skip_zeros_loop nd_skip_zeros_loop]; le_go. Qed.
#[export] Hint Resolve nd_skip_zeros_loop_le : le.

Lemma nd_enum_skip_zeros_le : forall (bv : bit_vector) (e : enumerator), le (enum_skip_zeros bv e) (nd_enum_skip_zeros bv e).
Proof. intros. unfold enum_skip_zeros, nd_enum_skip_zeros. le_go. Qed.
#[export] Hint Resolve nd_enum_skip_zeros_le : le.

Lemma nd_unary_next_loop_le : forall (fuel : nat) (ws : list Z) (pos buf : Z), le (unary_next_loop fuel ws pos buf) (nd_unary_next_loop fuel ws pos buf).
Proof. intros fuel ws pos buf. revert ws pos buf. induction fuel; intros; cbn [unary_next_loop nd_unary_next_loop]; le_go. Qed.
#[export] Hint Resolve nd_unary_next_loop_le : le.

Lemma nd_unary_next_le : forall (ws : list Z) (e : unary_enum), le (unary_next ws e) (nd_unary_next ws e).
Proof. intros. unfold unary_next, nd_unary_next. le_go. Qed.
#[export] Hint Resolve nd_unary_next_le : le.

Lemma nd_unary_skip_le : forall (ws : list Z) (e : unary_enum) (k : Z), le (unary_skip ws e k) (nd_unary_skip ws e k).
Proof. intros. unfold unary_skip, nd_unary_skip. le_go. Qed.
#[export] Hint Resolve nd_unary_skip_le : le.

Lemma nd_unary_skip_no_move_le : forall (ws : list Z) (e : unary_enum) (k : Z), le (unary_skip_no_move ws e k) (nd_unary_skip_no_move ws e k).
Proof. intros. unfold unary_skip_no_move, nd_unary_skip_no_move. le_go. Qed.
#[export] Hint Resolve nd_unary_skip_no_move_le : le.

Lemma nd_unary_skip0_le : forall (ws : list Z) (e : unary_enum) (k : Z), le (unary_skip0 ws e k) (nd_unary_skip0 ws e k).
Proof. intros. unfold unary_skip0, nd_unary_skip0. le_go. Qed.
#[export] Hint Resolve nd_unary_skip0_le : le.

Lemma nd_rs_rank_le : forall (rs : rs_bit_vector) (pos : Z), le (rs_rank rs pos) (nd_rs_rank rs pos).
Proof. intros. unfold rs_rank, nd_rs_rank. le_go. Qed.
#[export] Hint Resolve nd_rs_rank_le : le.

Lemma nd_rs_rank0_le : forall (rs : rs_bit_vector) (pos : Z), le (rs_rank0 rs pos) (nd_rs_rank0 rs pos).
Proof. intros. unfold rs_rank0, nd_rs_rank0. le_go. Qed.
#[export] Hint Resolve nd_rs_rank0_le : le.

Lemma nd_rs_select_le : forall (rs : rs_bit_vector) (n : Z), le (rs_select rs n) (nd_rs_select rs n).
Proof. intros. unfold rs_select, nd_rs_select. le_go. Qed.
#[export] Hint Resolve nd_rs_select_le : le.

Lemma nd_rs_select0_le : forall (rs : rs_bit_vector) (n : Z), le (rs_select0 rs n) (nd_rs_select0 rs n).
Proof. intros. unfold rs_select0, nd_rs_select0. le_go. Qed.
#[export] Hint Resolve nd_rs_select0_le : le.

Lemma nd_dword_loop_le : forall (fuel : nat) (size cur_pos cur_word : Z) (st : dstate), le (dword_loop fuel size cur_pos cur_word st) (nd_dword_loop fuel size cur_pos cur_word st).
Proof. intros fuel size cur_pos cur_word st. revert size cur_pos cur_word st. induction fuel; intros; cbn [dword_loop nd_dword_loop]; le_go. Qed.
#[export] Hint Resolve nd_dword_loop_le : le.

Lemma nd_dwords_loop_le : forall (neg : bool) (n : nat) (ws : list Z) (size word_idx : Z) (st : dstate), le (dwords_loop neg n ws size word_idx st) (nd_dwords_loop neg n ws size word_idx st).
Proof. intros neg n ws size word_idx st. revert neg ws size word_idx st. induction n; intros; cbn [dwords_loop nd_dwords_loop]; le_go. Qed.
#[export] Hint Resolve nd_dwords_loop_le : le.

Lemma nd_darray_build_le : forall (neg : bool) (bv : bit_vector), le (darray_build neg bv) (nd_darray_build neg bv).
Proof. intros. unfold darray_build, nd_darray_build. le_go. Qed.
#[export] Hint Resolve nd_darray_build_le : le.

Lemma nd_darray_scan_le : forall (neg : bool) (ws : list Z) (start_pos reminder : Z), le (darray_scan neg ws start_pos reminder) (nd_darray_scan neg ws start_pos reminder).
Proof. intros. unfold darray_scan, nd_darray_scan. le_go. Qed.
#[export] Hint Resolve nd_darray_scan_le : le.

Lemma nd_darray_select_le : forall (neg : bool) (d : darray) (bv : bit_vector) (idx : Z), le (darray_select neg d bv idx) (nd_darray_select neg d bv idx).
Proof. intros. unfold darray_select, nd_darray_select. le_go. Qed.
#[export] Hint Resolve nd_darray_select_le : le.

Lemma nd_darray1_select_le : forall d bv idx, le (darray1_select d bv idx) (nd_darray1_select d bv idx).
Proof. intros. unfold darray1_select, nd_darray1_select. le_go. Qed.
#[export] Hint Resolve nd_darray1_select_le : le.

Lemma nd_darray0_select_le : forall d bv idx, le (darray0_select d bv idx) (nd_darray0_select d bv idx).
Proof. intros. unfold darray0_select, nd_darray0_select. le_go. Qed.
#[export] Hint Resolve nd_darray0_select_le : le.

Lemma nd_append1_le : forall (gr : growth) (b : d64_builder) (skip0 : Z), le (append1 gr b skip0) (nd_append1 gr b skip0).
Proof. intros. unfold append1, nd_append1. le_go. Qed.
#[export] Hint Resolve nd_append1_le : le.

Lemma nd_d64_build_le : forall (b : d64_builder), le (d64_build b) (nd_d64_build b).
Proof. intros. unfold d64_build, nd_d64_build. le_go. Qed.
#[export] Hint Resolve nd_d64_build_le : le.

Lemma nd_d64_select_le : forall (d : darray64) (idx : Z), le (d64_select d idx) (nd_d64_select d idx).
Proof. intros. unfold d64_select, nd_d64_select. le_go. Qed.
#[export] Hint Resolve nd_d64_select_le : le.

Lemma nd_ef_builder_new_le : forall (gr : growth) (n m : Z), le (ef_builder_new gr n m) (nd_ef_builder_new gr n m).
Proof. intros. unfold ef_builder_new, nd_ef_builder_new. le_go. Qed.
#[export] Hint Resolve nd_ef_builder_new_le : le.

Lemma nd_ef_push_le : forall (gr : growth) (b : ef_builder) (i : Z), le (ef_push gr b i) (nd_ef_push gr b i).
Proof. intros. unfold ef_push, nd_ef_push. le_go. Qed.
#[export] Hint Resolve nd_ef_push_le : le.

Lemma nd_ef_build_le : forall (b : ef_builder) (with_rank_index : bool), le (ef_build b with_rank_index) (nd_ef_build b with_rank_index).
Proof. intros. unfold ef_build, nd_ef_build. le_go. Qed.
#[export] Hint Resolve nd_ef_build_le : le.

Lemma nd_ef_ones_loop_le : forall (gr : growth) (n : nat) (bv : bit_vector) (i : Z) (b : ef_builder), le (ef_ones_loop gr n bv i b) (nd_ef_ones_loop gr n bv i b).
Proof. intros gr n bv i b. revert gr bv i b. induction n; intros; cbn [ef_ones_loop nd_ef_ones_loop]; le_go. Qed.
#[export] Hint Resolve nd_ef_ones_loop_le : le.

Lemma nd_ef_of_bits_le : forall (gr : growth) (bvb : builder) (with_rank_index : bool), le (ef_of_bits gr bvb with_rank_index) (nd_ef_of_bits gr bvb with_rank_index).
Proof. intros. unfold ef_of_bits, nd_ef_of_bits. le_go. Qed.
#[export] Hint Resolve nd_ef_of_bits_le : le.

Lemma nd_ef_get_loop_le : forall (fuel : nat) (ef : elias_fano) (l_pos rank h_pos : Z), le (ef_get_loop fuel ef l_pos rank h_pos) (nd_ef_get_loop fuel ef l_pos rank h_pos).
Proof. intros fuel ef l_pos rank h_pos. revert ef l_pos rank h_pos. induction fuel; intros; cbn [ef_get_loop nd_ef_get_loop]; le_go. Qed.
#[export] Hint Resolve nd_ef_get_loop_le : le.

Lemma nd_ef_get_le : forall (ef : elias_fano) (pos : Z), le (ef_get ef pos) (nd_ef_get ef pos).
Proof. intros. unfold ef_get, nd_ef_get. le_go. Qed.
#[export] Hint Resolve nd_ef_get_le : le.

Lemma nd_ef_select_le : forall (ef : elias_fano) (n : Z), le (ef_select ef n) (nd_ef_select ef n).
Proof. intros. unfold ef_select, nd_ef_select. le_go. Qed.
#[export] Hint Resolve nd_ef_select_le : le.

Lemma nd_ef_rank_loop_le : forall (fuel : nat) (ef : elias_fano) (l_pos rank h_pos : Z), le (ef_rank_loop fuel ef l_pos rank h_pos) (nd_ef_rank_loop fuel ef l_pos rank h_pos).
Proof. intros fuel ef l_pos rank h_pos. revert ef l_pos rank h_pos. induction fuel; intros; cbn [ef_rank_loop nd_ef_rank_loop]; le_go. Qed.
#[export] Hint Resolve nd_ef_rank_loop_le : le.

Lemma nd_ef_rank_le : forall (ef : elias_fano) (pos : Z), le (ef_rank ef pos) (nd_ef_rank ef pos).
Proof. intros. unfold ef_rank, nd_ef_rank. le_go. Qed.
#[export] Hint Resolve nd_ef_rank_le : le.

Lemma nd_ef_predecessor1_le : forall (ef : elias_fano) (pos : Z), le (ef_predecessor1 ef pos) (nd_ef_predecessor1 ef pos).
Proof. intros. unfold ef_predecessor1, nd_ef_predecessor1. le_go. Qed.
#[export] Hint Resolve nd_ef_predecessor1_le : le.

Lemma nd_ef_successor1_le : forall (ef : elias_fano) (pos : Z), le (ef_successor1 ef pos) (nd_ef_successor1 ef pos).
Proof. intros. unfold ef_successor1, nd_ef_successor1. le_go. Qed.
#[export] Hint Resolve nd_ef_successor1_le : le.

Lemma nd_ef_delta_le : forall (ef : elias_fano) (n : Z), le (ef_delta ef n) (nd_ef_delta ef n).
Proof. intros. unfold ef_delta, nd_ef_delta. le_go. Qed.
#[export] Hint Resolve nd_ef_delta_le : le.

Lemma nd_ef_select_range_le : forall (ef : elias_fano) (n : Z), le (ef_select_range ef n) (nd_ef_select_range ef n).
Proof. intros. unfold ef_select_range, nd_ef_select_range. le_go. Qed.
#[export] Hint Resolve nd_ef_select_range_le : le.

Lemma nd_se_new_le : forall (ef : elias_fano) (i : Z), le (se_new ef i) (nd_se_new ef i).
Proof. intros. unfold se_new, nd_se_new. le_go. Qed.
#[export] Hint Resolve nd_se_new_le : le.

Lemma nd_se_next_le : forall (ef : elias_fano) (e : select_enum), le (se_next ef e) (nd_se_next ef e).
Proof. intros. unfold se_next, nd_se_next. le_go. Qed.
#[export] Hint Resolve nd_se_next_le : le.

Lemma nd_efl_loop_le : forall (gr : growth) (ints : list Z) (cur_base : Z) (b : ef_builder), le (efl_loop gr ints cur_base b) (nd_efl_loop gr ints cur_base b).
Proof. intros gr ints cur_base b. revert gr cur_base b. induction ints; intros; cbn [efl_loop nd_efl_loop]; le_go. Qed.
#[export] Hint Resolve nd_efl_loop_le : le.

Lemma nd_efl_build_le : forall (gr : growth) (ints : list Z), le (efl_build gr ints) (nd_efl_build gr ints).
Proof. intros. unfold efl_build, nd_efl_build. le_go. Qed.
#[export] Hint Resolve nd_efl_build_le : le.

Lemma nd_efl_get_le : forall (l : elias_fano) (idx : Z), le (efl_get l idx) (nd_efl_get l idx).
Proof. intros. unfold efl_get, nd_efl_get. le_go. Qed.
#[export] Hint Resolve nd_efl_get_le : le.

Lemma nd_code_sum_le : forall (ints : list Z) (s : Z), le (code_sum ints s) (nd_code_sum ints s).
Proof. intros ints s. revert s. induction ints; intros; cbn [code_sum nd_code_sum]; le_go. Qed.
#[export] Hint Resolve nd_code_sum_le : le.

Lemma nd_efc_loop_le : forall (gr : growth) (ints : list Z) (b : ef_builder) (bits : builder), le (efc_loop gr ints b bits) (nd_efc_loop gr ints b bits).
Proof. intros gr ints b bits. revert gr b bits. induction ints; intros; cbn [efc_loop nd_efc_loop]; le_go. Qed.
#[export] Hint Resolve nd_efc_loop_le : le.

Lemma nd_efc_build_le : forall (gr : growth) (ints : list Z), le (efc_build gr ints) (nd_efc_build gr ints).
Proof. intros. unfold efc_build, nd_efc_build. le_go. Qed.
#[export] Hint Resolve nd_efc_build_le : le.

Lemma nd_efc_get_le : forall (c : ef_compressed) (idx : Z), le (efc_get c idx) (nd_efc_get c idx).
Proof. intros. unfold efc_get, nd_efc_get. le_go. Qed.
#[export] Hint Resolve nd_efc_get_le : le.

Lemma nd_gv_loop_le : forall (gr : growth) (ints : list Z) (high : d64_builder) (low : builder), le (gv_loop gr ints high low) (nd_gv_loop gr ints high low).
Proof. intros gr ints high low. revert gr high low. induction ints; intros; cbn [gv_loop nd_gv_loop]; le_go. Qed.
#[export] Hint Resolve nd_gv_loop_le : le.

Lemma nd_gv_build_le : forall (gr : growth) (ints : list Z), le (gv_build gr ints) (nd_gv_build gr ints).
Proof. intros. unfold gv_build, nd_gv_build. le_go. Qed.
#[export] Hint Resolve nd_gv_build_le : le.

Lemma nd_gv_retrieve_le : forall (g : gamma) (idx pos : Z), le (gv_retrieve g idx pos) (nd_gv_retrieve g idx pos).
Proof. intros. unfold gv_retrieve, nd_gv_retrieve. le_go. Qed.
#[export] Hint Resolve nd_gv_retrieve_le : le.

Lemma nd_gv_get_le : forall (g : gamma) (idx : Z), le (gv_get g idx) (nd_gv_get g idx).
Proof. intros. unfold gv_get, nd_gv_get. le_go. Qed.
#[export] Hint Resolve nd_gv_get_le : le.

Lemma nd_gv_enum_new_le : forall (g : gamma) (idx : Z), le (gv_enum_new g idx) (nd_gv_enum_new g idx).
Proof. intros. unfold gv_enum_new, nd_gv_enum_new. le_go. Qed.
#[export] Hint Resolve nd_gv_enum_new_le : le.

Lemma nd_ge_unary_next_le : forall (g : gamma) (u : option unary_enum), le (ge_unary_next g u) (nd_ge_unary_next g u).
Proof. intros. unfold ge_unary_next, nd_ge_unary_next. le_go. Qed.
#[export] Hint Resolve nd_ge_unary_next_le : le.

Lemma nd_ge_low_take_le : forall (g : gamma) (e : option enumerator) (l : Z), le (ge_low_take g e l) (nd_ge_low_take g e l).
Proof. intros. unfold ge_low_take, nd_ge_low_take. le_go. Qed.
#[export] Hint Resolve nd_ge_low_take_le : le.

Lemma nd_gv_enum_next_le : forall (g : gamma) (e : gamma_enum), le (gv_enum_next g e) (nd_gv_enum_next g e).
Proof. intros. unfold gv_enum_next, nd_gv_enum_next. le_go. Qed.
#[export] Hint Resolve nd_gv_enum_next_le : le.

Lemma nd_gb_loop_le : forall (gr : growth) (vals : list Z) (high : d64_builder) (low : builder), le (gb_loop gr vals high low) (nd_gb_loop gr vals high low).
Proof. intros gr vals high low. revert gr high low. induction vals; intros; cbn [gb_loop nd_gb_loop]; le_go. Qed.
#[export] Hint Resolve nd_gb_loop_le : le.

Lemma nd_gb_build_le : forall (gr : growth) (vals : list Z), le (gb_build gr vals) (nd_gb_build gr vals).
Proof. intros. unfold gb_build, nd_gb_build. le_go. Qed.
#[export] Hint Resolve nd_gb_build_le : le.

Lemma nd_gb_retrieve_le : forall (g : gamma) (pos : Z), le (gb_retrieve g pos) (nd_gb_retrieve g pos).
Proof. intros. unfold gb_retrieve, nd_gb_retrieve. le_go. Qed.
#[export] Hint Resolve nd_gb_retrieve_le : le.

Lemma nd_gb_get_le : forall (g : gamma) (idx : Z), le (gb_get g idx) (nd_gb_get g idx).
Proof. intros. unfold gb_get, nd_gb_get. le_go. Qed.
#[export] Hint Resolve nd_gb_get_le : le.

Lemma nd_gb_enum_new_le : forall (g : gamma) (idx : Z), le (gb_enum_new g idx) (nd_gb_enum_new g idx).
Proof. intros. unfold gb_enum_new, nd_gb_enum_new. le_go. Qed.
#[export] Hint Resolve nd_gb_enum_new_le : le.

Lemma nd_gb_enum_next_le : forall (g : gamma) (e : gamma_enum), le (gb_enum_next g e) (nd_gb_enum_next g e).
Proof. intros. unfold gb_enum_next, nd_gb_enum_next. le_go. Qed.
#[export] Hint Resolve nd_gb_enum_next_le : le.

Lemma nd_gb_enum_skip_le : forall (g : gamma) (e : gamma_enum) (k : nat), le (gb_enum_skip g e k) (nd_gb_enum_skip g e k).
Proof. intros g e k. revert g e. induction k; intros; cbn [gb_enum_skip nd_gb_enum_skip]; le_go. Qed.
#[export] Hint Resolve nd_gb_enum_skip_le : le.

Lemma nd_vbyte_size_le : forall (val : Z), le (vbyte_size val) (nd_vbyte_size val).
Proof. intros. unfold vbyte_size, nd_vbyte_size. le_go. Qed.
#[export] Hint Resolve nd_vbyte_size_le : le.

Lemma nd_append_vbyte_le : forall (v : list Z) (val : Z), le (append_vbyte v val) (nd_append_vbyte v val).
Proof. intros. unfold append_vbyte, nd_append_vbyte. le_go. Qed.
#[export] Hint Resolve nd_append_vbyte_le : le.

Lemma nd_nv_loop_le : forall (from : list Z) (nibbles : list Z) (parity : bool) (cur_byte size : Z), le (nv_loop from nibbles parity cur_byte size) (nd_nv_loop from nibbles parity cur_byte size).
Proof. intros from nibbles parity cur_byte size. revert nibbles parity cur_byte size. induction from; intros; cbn [nv_loop nd_nv_loop]; le_go. Qed.
#[export] Hint Resolve nd_nv_loop_le : le.

Lemma nd_nv_build_le : forall (from : list Z), le (nv_build from) (nd_nv_build from).
Proof. intros. unfold nv_build, nd_nv_build. le_go. Qed.
#[export] Hint Resolve nd_nv_build_le : le.

Lemma nd_nv_get_le : forall (n : nibble_vector) (pos : Z), le (nv_get n pos) (nd_nv_get n pos).
Proof. intros. unfold nv_get, nd_nv_get. le_go. Qed.
#[export] Hint Resolve nd_nv_get_le : le.
