(** C12-C14: rs_bit_vector. *)
From Verif Require Import Base Spec M_BitVector M_RsBitVector P_RsQuery.

(** C12 *)
Theorem C12_rank : forall l with_hints with_hints0, exists rs,
  rs_build (bv_range l) with_hints with_hints0 = Ok rs /\
  num_ones rs = Ok (Z.of_nat (count true l)) /\ num_zeros rs = Ok (Z.of_nat (count false l)) /\
  forall pos, 0 <= pos <= zlen l ->
    rs_rank rs pos = Ok (Z.of_nat (rank true l (Z.to_nat pos))) /\
    rs_rank0 rs pos = Ok (Z.of_nat (rank false l (Z.to_nat pos))).
Proof. exact rs_rank_all. Qed.
Print Assumptions C12_rank.
Definition C12_seq : list bool :=
  repeat false 100 ++ repeat true 900 ++ repeat false 300 ++ repeat true 600 ++ repeat false 1300.
Example C12_ex : 0 <= 2000 <= zlen C12_seq /\ rank true C12_seq 2000 = 1500%nat /\
  (do rs <- rs_build (bv_range C12_seq) true true; rs_rank rs 2000) = Ok 1500.
Proof. vm_compute. intuition congruence. Qed.

(** C13 *)
Theorem C13_select : forall l with_hints with_hints0, exists rs,
  rs_build (bv_range l) with_hints with_hints0 = Ok rs /\
  (forall n, 0 <= n < Z.of_nat (count true l) ->
     exists q, rs_select rs n = Ok (Z.of_nat q) /\ is_select true l (Z.to_nat n) q) /\
  (forall n, 0 <= n < Z.of_nat (count false l) ->
     exists q, rs_select0 rs n = Ok (Z.of_nat q) /\ is_select false l (Z.to_nat n) q).
Proof. exact rs_select_exists. Qed.
Print Assumptions C13_select.
Example C13_ex : 0 <= 1050 < Z.of_nat (count true C12_seq) /\
  0 <= 1100 < Z.of_nat (count false C12_seq) /\
  (do rs <- rs_build (bv_range C12_seq) true true; rs_select rs 1050) = Ok 1450 /\
  (do rs <- rs_build (bv_range C12_seq) false false; rs_select rs 1050) = Ok 1450 /\
  (do rs <- rs_build (bv_range C12_seq) true true; rs_select0 rs 1100) = Ok 2600.
Proof. vm_compute. intuition congruence. Qed.

(** C14 *)
Theorem C14_inverse : forall l with_hints with_hints0, exists rs,
  rs_build (bv_range l) with_hints with_hints0 = Ok rs /\
  (forall n, 0 <= n < Z.of_nat (count true l) ->
     exists p, rs_select rs n = Ok p /\ rs_rank rs p = Ok n) /\
  (forall n, 0 <= n < Z.of_nat (count false l) ->
     exists p, rs_select0 rs n = Ok p /\ rs_rank0 rs p = Ok n) /\
  (forall p, nth_error l p = Some true ->
     exists n, rs_rank rs (Z.of_nat p) = Ok n /\ rs_select rs n = Ok (Z.of_nat p)) /\
  (forall p, nth_error l p = Some false ->
     exists n, rs_rank0 rs (Z.of_nat p) = Ok n /\ rs_select0 rs n = Ok (Z.of_nat p)).
Proof. exact rs_inverse. Qed.
Print Assumptions C14_inverse.
Example C14_ex : 0 <= 700 < Z.of_nat (count true C12_seq) /\ nth_error C12_seq 150 = Some true.
Proof. vm_compute. intuition congruence. Qed.

(** C48 *)
Theorem C48_empty_range_partial : forall with_hints with_hints0, exists rs,
  rs_build (bv_range []) with_hints with_hints0 = Ok rs /\ num_ones rs = Ok 0 /\ rs_rank rs 0 = Ok 0.
Proof. exact rs_empty_range. Qed.
Print Assumptions C48_empty_range_partial.
Example C48_empty_range_ex : (do rs <- rs_build (bv_range []) true false; do n <- num_ones rs; do r <- rs_rank rs 0; Ok (n, r)) = Ok (0, 0).
Proof. vm_compute. reflexivity. Qed.
Theorem C48_refuted : num_ones rs_empty = Ub OutOfBounds /\ rs_rank rs_empty 0 = Ub OutOfBounds.
Proof. exact (conj eq_refl eq_refl). Qed.
Print Assumptions C48_refuted.
