(** C07-C11, C47: the word-level primitives of broadword.hpp. *)
From Verif Require Import Base Spec Lib M_Broadword P_Broadword P_Broadword2 P_Broadword3.

(** C07 *)
Theorem C07_popcount : forall w, is_u64 w ->
  popcount w = Z.of_nat (count true (word_bits w)) /\
  popcount_intrinsic w = Z.of_nat (count true (word_bits w)).
Proof. exact (fun w H => conj (popcount_correct w H) (popcount_intrinsic_correct w)). Qed.
Print Assumptions C07_popcount.
Example C07_popcount_ex : is_u64 0xF0F0 /\ popcount 0xF0F0 = 8.
Proof. vm_compute. intuition congruence. Qed.

Theorem C07_byte_counts : forall w i, is_u64 w -> (i < 8)%nat ->
  byte (byte_counts w) i = Z.of_nat (count true (bits_of 8 (byte w i))).
Proof. exact byte_counts_correct. Qed.
Print Assumptions C07_byte_counts.
Example C07_byte_counts_ex : is_u64 0x0700FF /\ byte (byte_counts 0x0700FF) 2 = 3.
Proof. vm_compute. intuition congruence. Qed.

Theorem C07_bytes_sum : forall w, is_u64 w ->
  fold_right Z.add 0 (map (byte w) (seq 0 8)) < 256 ->
  bytes_sum w = fold_right Z.add 0 (map (byte w) (seq 0 8)).
Proof. exact bytes_sum_correct. Qed.
Print Assumptions C07_bytes_sum.
Example C07_bytes_sum_ex :
  is_u64 0x070001 /\ fold_right Z.add 0 (map (byte 0x070001) (seq 0 8)) = 8.
Proof. vm_compute. intuition congruence. Qed.

(** C08, for the build with and without the popcnt instruction *)
Theorem C08_select_in_word : forall popcnt w k,
  is_u64 w -> 0 <= k < Z.of_nat (count true (word_bits w)) ->
  exists p, select_in_word_gen popcnt w k = Ok (Z.of_nat p) /\
            is_select true (word_bits w) (Z.to_nat k) p.
Proof. exact select_in_word_gen_correct. Qed.
Print Assumptions C08_select_in_word.
Example C08_select_in_word_ex :
  is_u64 0x8000000000000101 /\
  0 <= 2 < Z.of_nat (count true (word_bits 0x8000000000000101)) /\
  select_in_word 0x8000000000000101 2 = Ok 63.
Proof. vm_compute. intuition congruence. Qed.

(** outside that precondition the assert fires *)
Theorem C08_select_in_word_precondition : forall popcnt w k, is_u64 w ->
  Z.of_nat (count true (word_bits w)) <= k ->
  select_in_word_gen popcnt w k = Ub AssertFailed.
Proof. exact select_in_word_assert. Qed.
Print Assumptions C08_select_in_word_precondition.
Example C08_select_in_word_precondition_ex :
  is_u64 5 /\ Z.of_nat (count true (word_bits 5)) <= 2.
Proof. vm_compute. intuition congruence. Qed.

(** C09 *)
Theorem C09_reverse : forall x, is_u64 x ->
  word_bits (reverse_bits x) = rev (word_bits x) /\
  (forall i, (i < 8)%nat -> byte (reverse_bytes x) i = byte x (7 - i)) /\
  reverse_bytes_intrinsic x = reverse_bytes x.
Proof. exact reverse_both. Qed.
Print Assumptions C09_reverse.
Example C09_reverse_ex : is_u64 3 /\ reverse_bits 3 = 0xC000000000000000.
Proof. vm_compute. intuition congruence. Qed.

(** C10 *)
Theorem C10_msb : forall x c, is_u64 x ->
  (0 <= c /\ Z.testbit x c = true /\ forall i, c < i -> Z.testbit x i = false) ->
  msb_opt x = Ok (Some c) /\ msb x = Ok c /\ bsr64 x = Some c.
Proof. exact msb_all. Qed.
Print Assumptions C10_msb.
Example C10_msb_ex : is_u64 (2 ^ 40 + 7) /\ msb (2 ^ 40 + 7) = Ok 40.
Proof. vm_compute. intuition congruence. Qed.

Theorem C10_lsb : forall x c, is_u64 x ->
  (0 <= c /\ Z.testbit x c = true /\ forall i, 0 <= i < c -> Z.testbit x i = false) ->
  lsb_opt x = Ok (Some c) /\ lsb x = Ok c /\ bsf64 x = Some c.
Proof. exact lsb_all. Qed.
Print Assumptions C10_lsb.
Example C10_lsb_ex : is_u64 (2 ^ 40 + 2 ^ 50) /\ lsb (2 ^ 40 + 2 ^ 50) = Ok 40.
Proof. vm_compute. intuition congruence. Qed.

Theorem C10_zero :
  msb_opt 0 = Ok None /\ lsb_opt 0 = Ok None /\ bsr64 0 = None /\ bsf64 0 = None.
Proof. exact extreme_zero. Qed.
Print Assumptions C10_zero.
Example C10_zero_ex : msb_opt 1 = Ok (Some 0) /\ lsb_opt 1 = Ok (Some 0) /\ bsr64 1 = Some 0 /\ bsf64 1 = Some 0.
Proof. vm_compute. auto. Qed.

Theorem C10_bit_position : forall p, 0 <= p < 64 -> bit_position (2 ^ p) = Ok p.
Proof. exact bit_position_pow2. Qed.
Print Assumptions C10_bit_position.
Example C10_bit_position_ex : bit_position (2 ^ 63) = Ok 63.
Proof. reflexivity. Qed.

Theorem C10_same_msb : forall x y, is_u64 x -> is_u64 y ->
  same_msb x y = true <->
  (x = 0 /\ y = 0) \/
  (exists c, (0 <= c /\ Z.testbit x c = true /\ forall i, c < i -> Z.testbit x i = false) /\
             (0 <= c /\ Z.testbit y c = true /\ forall i, c < i -> Z.testbit y i = false)).
Proof. exact same_msb_msb. Qed.
Print Assumptions C10_same_msb.
Example C10_same_msb_ex : same_msb 5 7 = true /\ same_msb 7 8 = false.
Proof. split; reflexivity. Qed.

(** C11. Partial: [leq_step_8] and [uleq_step_8] compare correctly (signed and unsigned
    alike) only in lanes whose two top bits agree; see the refutations below. *)
Theorem C11_leq_step_8_partial : forall x y i, is_u64 x -> is_u64 y -> (i < 8)%nat ->
  (128 <= byte x i <-> 128 <= byte y i) ->
  byte (leq_step_8 x y) i = if byte x i <=? byte y i then 1 else 0.
Proof. exact leq_step_8_correct. Qed.
Print Assumptions C11_leq_step_8_partial.
Example C11_leq_step_8_partial_ex :
  leq_step_8 0x0302 0x0203 = 0x0101010101010001.
Proof. reflexivity. Qed.

Theorem C11_uleq_step_8_partial : forall x y i, is_u64 x -> is_u64 y -> (i < 8)%nat ->
  (128 <= byte x i <-> 128 <= byte y i) ->
  byte (uleq_step_8 x y) i = if byte x i <=? byte y i then 1 else 0.
Proof. exact uleq_step_8_correct. Qed.
Print Assumptions C11_uleq_step_8_partial.
Example C11_uleq_step_8_partial_ex :
  uleq_step_8 0xF3FF 0xF2FF = 0x0101010101010001.
Proof. reflexivity. Qed.

Theorem C11_zcompare_step_8 : forall x i, is_u64 x -> (i < 8)%nat ->
  byte (zcompare_step_8 x) i = if byte x i =? 0 then 0 else 1.
Proof. exact zcompare_step_8_correct. Qed.
Print Assumptions C11_zcompare_step_8.
Example C11_zcompare_step_8_ex : zcompare_step_8 0x80000100 = 0x01000100.
Proof. reflexivity. Qed.

Theorem C11_uleq_step_9 : forall x y i, 0 <= x < 2 ^ 63 -> 0 <= y < 2 ^ 63 -> (i < 7)%nat ->
  lane 9 (uleq_step_9 x y) i = if lane 9 x i <=? lane 9 y i then 1 else 0.
Proof. exact uleq_step_9_correct. Qed.
Print Assumptions C11_uleq_step_9.
Example C11_uleq_step_9_ex :
  lane 9 (uleq_step_9 256 255) 0 = 0 /\ lane 9 (uleq_step_9 255 256) 0 = 1.
Proof. split; reflexivity. Qed.

(** The signed comparison is wrong: byte -128 <= 0 but the lane is 0. *)
Theorem C11_leq_step_8_refuted : exists x y i, is_u64 x /\ is_u64 y /\ (i < 8)%nat /\
  byte (leq_step_8 x y) i <> (if i8 (byte x i) <=? i8 (byte y i) then 1 else 0).
Proof.
  exists 0x80, 0, 0%nat. repeat split; try lia; vm_compute; congruence.
Qed.
Print Assumptions C11_leq_step_8_refuted.

(** The unsigned comparison is wrong: byte 0 <= 128 but the lane is 0. *)
Theorem C11_uleq_step_8_refuted : exists x y i, is_u64 x /\ is_u64 y /\ (i < 8)%nat /\
  byte (uleq_step_8 x y) i <> (if byte x i <=? byte y i then 1 else 0).
Proof.
  exists 0, 0x80, 0%nat. repeat split; try lia; vm_compute; congruence.
Qed.
Print Assumptions C11_uleq_step_8_refuted.

(** C47: the three comparisons the other classes use *)
Theorem C47_lane_comparisons : forall x y i, is_u64 x -> is_u64 y ->
  ((i < 8)%nat -> (128 <= byte x i <-> 128 <= byte y i) ->
   byte (leq_step_8 x y) i = if byte x i <=? byte y i then 1 else 0) /\
  ((i < 8)%nat -> byte (zcompare_step_8 x) i = if byte x i =? 0 then 0 else 1) /\
  (x < 2 ^ 63 -> y < 2 ^ 63 -> (i < 7)%nat ->
   lane 9 (uleq_step_9 x y) i = if lane 9 x i <=? lane 9 y i then 1 else 0).
Proof. exact lane_comparisons. Qed.
Print Assumptions C47_lane_comparisons.
Example C47_ex : is_u64 0xFF80 /\ is_u64 0xFF00 /\ (128 <= byte 0xFF80 1 <-> 128 <= byte 0xFF00 1) /\
  byte (leq_step_8 0xFF80 0xFF00) 1 = 1 /\ byte (zcompare_step_8 0xFF00) 0 = 0 /\ lane 9 (uleq_step_9 0xFF80 0xFF00) 0 = 0.
Proof. repeat split; try lia; vm_compute; congruence. Qed.
