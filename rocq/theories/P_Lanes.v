(** Proofs for C11: the exact results of the lane comparisons *)
From Verif Require Import Base Spec Lib M_Broadword P_Broadword P_Broadword2.

Lemma byte_range x i : 0 <= byte x i < 256.
Proof. unfold byte. apply Z.mod_pos_bound. lia. Qed.

Lemma top_split d : 0 <= d < 256 -> (128 <= d -> d mod 128 = d - 128 /\ i8 d = d - 256) /\ (d < 128 -> d mod 128 = d /\ i8 d = d).
Proof.
  intros H. unfold i8. change (2 ^ 7) with 128. change (2 ^ 8) with 256. split; intros H'; split.
  - symmetry. apply Z.mod_unique_pos with (q := 1); lia.
  - replace ((d + 128) mod 256) with (d - 128); [lia|]. apply Z.mod_unique_pos with (q := 1); lia.
  - apply Z.mod_small. lia.
  - rewrite Z.mod_small; lia.
Qed.

(** case distinctions on all comparisons of the goal *)
Ltac cases := repeat match goal with
  | |- context [?a <=? ?b] => destruct (Z.leb_spec a b)
  | |- context [?a <? ?b] => destruct (Z.ltb_spec a b)
  end; cbn [Bool.eqb].

Lemma leq_exact x y i : is_u64 x -> is_u64 y -> (i < 8)%nat -> (128 <= byte x i <-> byte y i < 128) ->
  byte (leq_step_8 x y) i = (if byte y i mod 128 <? byte x i mod 128 then 1 else 0) /\
  (byte (leq_step_8 x y) i <> (if i8 (byte x i) <=? i8 (byte y i) then 1 else 0) <->
   (128 <= byte x i <-> byte x i mod 128 <= byte y i mod 128)).
Proof.
  intros Hx Hy Hi T. rewrite leq_step_8_lanes by auto. pose proof (byte_range x i) as Rx. pose proof (byte_range y i) as Ry. revert T Rx Ry.
  generalize (byte x i) (byte y i). clear. intros d e T Rd Re. destruct (top_split d Rd) as [D1 D2], (top_split e Re) as [E1 E2].
  unfold leq8_lane. assert (C : (128 <= d /\ e < 128) \/ (d < 128 /\ 128 <= e)) by lia.
  destruct C as [[A B]|[A B]].
  - destruct (D1 A) as [-> ->], (E2 B) as [-> ->]. replace (d <? 128) with false by lia. replace (e <? 128) with true by lia. cbn [Bool.eqb]. cases; lia.
  - destruct (D2 A) as [-> ->], (E1 B) as [-> ->]. replace (d <? 128) with true by lia. replace (e <? 128) with false by lia. cbn [Bool.eqb]. cases; lia.
Qed.

Lemma uleq_exact x y i : is_u64 x -> is_u64 y -> (i < 8)%nat -> (128 <= byte x i <-> byte y i < 128) ->
  byte (uleq_step_8 x y) i = (if xorb (128 <=? byte x i) (byte y i mod 128 <? byte x i mod 128) then 1 else 0) /\
  (byte (uleq_step_8 x y) i <> (if byte x i <=? byte y i then 1 else 0) <-> byte x i mod 128 <= byte y i mod 128).
Proof.
  intros Hx Hy Hi T. rewrite uleq_step_8_lanes by auto. pose proof (byte_range x i) as Rx. pose proof (byte_range y i) as Ry. revert T Rx Ry.
  generalize (byte x i) (byte y i). clear. intros d e T Rd Re. destruct (top_split d Rd) as [D1 D2], (top_split e Re) as [E1 E2].
  unfold uleq8_lane. assert (C : (128 <= d /\ e < 128) \/ (d < 128 /\ 128 <= e)) by lia.
  destruct C as [[A B]|[A B]].
  - destruct (D1 A) as [-> _], (E2 B) as [-> _]. replace (d <? 128) with false by lia. replace (e <? 128) with true by lia. cbn [Bool.eqb]. cases; cbn [xorb]; lia.
  - destruct (D2 A) as [-> _], (E1 B) as [-> _]. replace (d <? 128) with true by lia. replace (e <? 128) with false by lia. cbn [Bool.eqb]. cases; cbn [xorb]; lia.
Qed.

(** ** The top bit of a word belongs to no lane of nine bits *)

Lemma land63 a : Z.land a (Z.ones 63) = a mod 2 ^ 63.
Proof. apply Z.land_ones. lia. Qed.

Lemma sub_low a b c d : a mod 2 ^ 63 = c mod 2 ^ 63 -> b mod 2 ^ 63 = d mod 2 ^ 63 -> Z.land (u64 (a - b)) (Z.ones 63) = Z.land (u64 (c - d)) (Z.ones 63).
Proof.
  intros A B. rewrite !land63. unfold u64.
  assert (M : forall z, (z mod 2 ^ 64) mod 2 ^ 63 = z mod 2 ^ 63).
  { intros z. change (2 ^ 64) with (2 ^ 63 * 2). rewrite Z.rem_mul_r by lia. rewrite Z.mul_comm, Z.mod_add by lia. apply Z.mod_mod. lia. }
  rewrite !M, (Zminus_mod a b), A, B, <- Zminus_mod. reflexivity.
Qed.

Lemma low_land a b m : Z.land m (Z.ones 63) = m -> Z.land a (Z.ones 63) = Z.land b (Z.ones 63) -> Z.land a m = Z.land b m.
Proof. intros M E. rewrite <- M, (Z.land_comm m), !Z.land_assoc, E. reflexivity. Qed.

Lemma low_bits a b : Z.land a (Z.ones 63) = Z.land b (Z.ones 63) <-> forall n, 0 <= n < 63 -> Z.testbit a n = Z.testbit b n.
Proof.
  split.
  - intros E n Hn. assert (Q : Z.testbit (Z.land a (Z.ones 63)) n = Z.testbit (Z.land b (Z.ones 63)) n) by (rewrite E; reflexivity).
    rewrite !Z.land_spec, Z.ones_spec_low, !andb_true_r in Q by lia. exact Q.
  - intros E. apply Z.bits_inj'. intros n Hn. rewrite !Z.land_spec. destruct (Z.lt_ge_cases n 63).
    + rewrite E by lia. reflexivity.
    + rewrite Z.ones_spec_high by lia. rewrite !andb_false_r. reflexivity.
Qed.

Lemma low_mod a b : (forall n, 0 <= n < 63 -> Z.testbit a n = Z.testbit b n) -> a mod 2 ^ 63 = b mod 2 ^ 63.
Proof. intros E. rewrite <- (land63 a), <- (land63 b). apply low_bits. exact E. Qed.

Lemma uleq9_low x y : uleq_step_9 x y = uleq_step_9 (x mod 2 ^ 63) (y mod 2 ^ 63).
Proof.
  unfold uleq_step_9. f_equal. apply low_land; [reflexivity|].
  assert (T : forall z n, 0 <= n < 63 -> Z.testbit z n = Z.testbit (z mod 2 ^ 63) n).
  { intros z n Hn. rewrite Z.mod_pow2_bits_low by lia. reflexivity. }
  assert (S : Z.land (u64 (Z.lor y msbs_step_9 - Z.land x (not64 msbs_step_9))) (Z.ones 63) =
              Z.land (u64 (Z.lor (y mod 2 ^ 63) msbs_step_9 - Z.land (x mod 2 ^ 63) (not64 msbs_step_9))) (Z.ones 63)).
  { apply sub_low; apply low_mod; intros n Hn.
    - rewrite !Z.lor_spec, (T y n Hn). reflexivity.
    - rewrite !Z.land_spec, (T x n Hn). reflexivity. }
  assert (N : forall z n, 0 <= n < 63 -> Z.testbit (not64 z) n = negb (Z.testbit z n)).
  { intros z n Hn. unfold not64, u64. rewrite Z.mod_pow2_bits_low by lia. apply Z.lnot_spec. lia. }
  apply low_bits. intros n Hn. pose proof (proj1 (low_bits _ _) S n Hn) as Sn.
  rewrite ?Z.lxor_spec, ?Z.lor_spec, ?Z.lxor_spec, ?Z.land_spec, Sn, ?N, (T x n Hn), (T y n Hn) by lia. reflexivity.
Qed.

Lemma lane_low x i : (i < 7)%nat -> lane 9 (x mod 2 ^ 63) i = lane 9 x i.
Proof.
  intros Hi. unfold lane. apply Z.bits_inj'. intros n Hn. destruct (Z.lt_ge_cases n 9).
  - rewrite !Z.mod_pow2_bits_low, !Z.div_pow2_bits, Z.mod_pow2_bits_low by lia. reflexivity.
  - rewrite !Z.mod_pow2_bits_high by lia. reflexivity.
Qed.

Lemma uleq_step_9_all x y i : is_u64 x -> is_u64 y -> (i < 7)%nat ->
  lane 9 (uleq_step_9 x y) i = if lane 9 x i <=? lane 9 y i then 1 else 0.
Proof.
  intros _ _ Hi. rewrite uleq9_low, uleq_step_9_correct by (auto; apply Z.mod_pos_bound; lia).
  rewrite !lane_low by auto. reflexivity.
Qed.
