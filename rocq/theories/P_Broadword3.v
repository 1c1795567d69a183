(** Statements about broadword.hpp in the form used by the property theorems. *)
From Verif Require Import Base Spec Lib M_Tables M_Broadword P_Broadword P_Broadword2.
From Coq Require Import ZifyBool ZifyNat.

Lemma bytes8_dval w : is_u64 w -> digits 8 8 w = map (byte w) (seq 0 8).
Proof.
  intros Hw. apply nth_ext with (d := 0) (d' := 0).
  - rewrite digits_length. reflexivity.
  - rewrite digits_length. intros i Hi. rewrite nth_digits by lia.
    rewrite nth_indep with (d' := byte w 0%nat) by (rewrite map_length, seq_length; auto).
    rewrite map_nth, seq_nth by auto. reflexivity.
Qed.

Lemma byte_counts_correct w i : is_u64 w -> (i < 8)%nat ->
  byte (byte_counts w) i = Z.of_nat (count true (bits_of 8 (byte w i))).
Proof.
  intros Hw Hi. change (byte ?w i) with (lane 8 w i).
  rewrite (lane_digits 8 8 w), (lane_digits 8 8 _ i) by lia.
  rewrite (digits8 w Hw) at 1.
  assert (D : Forall (digit 8) (digits 8 8 w)) by (apply digits_range; lia).
  rewrite byte_counts_dval by (auto using digits_length).
  rewrite digits_dval8.
  - rewrite nth_map_Z by (rewrite digits_length; auto). reflexivity.
  - rewrite map_length, digits_length; auto.
  - eapply Forall_map; [|exact D]. intros d Hd. pose proof (proj2 (proj2 (proj2 (proj2 (bc_sweep1 d Hd))))).
    unfold digit. change (2 ^ 8) with 256. lia.
Qed.

Lemma zsum_fold l : zsum l = fold_right Z.add 0 l.
Proof. induction l; simpl; congruence. Qed.

Lemma bytes_sum_correct w : is_u64 w ->
  fold_right Z.add 0 (map (byte w) (seq 0 8)) < 256 ->
  bytes_sum w = fold_right Z.add 0 (map (byte w) (seq 0 8)).
Proof.
  intros Hw H. rewrite <- zsum_fold, <- bytes8_dval in * by auto.
  rewrite (digits8 w Hw) at 1. apply bytes_sum_spec; auto using digits_length.
  eapply Forall_impl; [|apply (digits_range 8 8 w); lia]. unfold digit. intros; lia.
Qed.

Lemma bytes_sum_byte_counts w : is_u64 w ->
  bytes_sum (byte_counts w) = Z.of_nat (count true (word_bits w)).
Proof. exact (popcount_correct w). Qed.

Lemma select_in_word_assert popcnt w k : is_u64 w ->
  Z.of_nat (count true (word_bits w)) <= k ->
  select_in_word_gen popcnt w k = Ub AssertFailed.
Proof.
  intros Hw H. unfold select_in_word_gen. rewrite popcount_correct by auto.
  replace (k <? Z.of_nat (count true (word_bits w))) with false by lia. reflexivity.
Qed.

(** position of the highest one bit *)
Definition is_msb (x c : Z) : Prop :=
  0 <= c /\ Z.testbit x c = true /\ forall i, c < i -> Z.testbit x i = false.

Lemma is_msb_log2 x c : is_u64 x -> is_msb x c -> x <> 0 /\ c = Z.log2 x.
Proof.
  intros Hx [Hc [H1 H2]]. unfold is_u64 in Hx.
  assert (N : x <> 0) by (intros ->; rewrite Z.testbit_0_l in H1; discriminate).
  split; [auto|]. destruct (Z.lt_trichotomy c (Z.log2 x)) as [H|[H|H]]; auto.
  - exfalso. specialize (H2 _ H). rewrite Z.bit_log2 in H2 by lia. discriminate.
  - rewrite Z.bits_above_log2 in H1 by lia. discriminate.
Qed.

Lemma msb_all x c : is_u64 x -> is_msb x c ->
  msb_opt x = Ok (Some c) /\ msb x = Ok c /\ bsr64 x = Some c.
Proof.
  intros Hx H. destruct (is_msb_log2 x c Hx H) as [N ->].
  auto using msb_opt_correct, msb_correct, bsr64_correct.
Qed.

Lemma lsb_all x c : is_u64 x -> is_lsb x c ->
  lsb_opt x = Ok (Some c) /\ lsb x = Ok c /\ bsf64 x = Some c.
Proof. intros. auto using lsb_opt_correct, lsb_correct, bsf64_correct. Qed.

Lemma extreme_zero :
  msb_opt 0 = Ok None /\ lsb_opt 0 = Ok None /\ bsr64 0 = None /\ bsf64 0 = None.
Proof. auto. Qed.

Lemma same_msb_msb x y : is_u64 x -> is_u64 y ->
  same_msb x y = true <-> (x = 0 /\ y = 0) \/ (exists c, is_msb x c /\ is_msb y c).
Proof.
  intros Hx Hy. rewrite same_msb_correct by auto.
  assert (L : forall x, is_u64 x -> x <> 0 -> is_msb x (Z.log2 x)).
  { intros z Hz N. unfold is_u64 in Hz. split; [apply Z.log2_nonneg|].
    split; [apply Z.bit_log2; lia|]. intros. apply Z.bits_above_log2; lia. }
  split; (intros [H|H]; [left; exact H|right]).
  - destruct H as [N1 [N2 E]]. exists (Z.log2 x). split; [auto|]. rewrite E. auto.
  - destruct H as [c [H1 H2]]. destruct (is_msb_log2 x c Hx H1), (is_msb_log2 y c Hy H2).
    subst. auto.
Qed.

Lemma reverse_both x : is_u64 x ->
  word_bits (reverse_bits x) = rev (word_bits x) /\
  (forall i, (i < 8)%nat -> byte (reverse_bytes x) i = byte x (7 - i)) /\
  reverse_bytes_intrinsic x = reverse_bytes x.
Proof.
  intros Hx. split; [apply reverse_bits_correct; auto|].
  split; [intros; apply reverse_bytes_correct; auto|].
  apply reverse_bytes_intrinsic_correct; auto.
Qed.
