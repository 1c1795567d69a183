(** C71: the binary search of select with hints *)
From Verif Require Import Base Spec M_BitVector M_RsBitVector M_Steps S_Hints P_Hints.

(** C71: with hints the rounds of select are the logarithm of the blocks from the start of the chunk of 1024 ones to its end, however long
    the vector is: [k] rounds suffice for at most 2^k blocks, and never for 2^(k+1) or more *)
Theorem C71_hints : forall l with_hints0, exists rs, rs_build (bv_range l) true with_hints0 = Ok rs /\
  forall n q p p' k, is_select true l n q -> chunk_start true l n p -> chunk_end true l n p' ->
    (spread p p' <= 2 ^ Z.of_nat k -> rs_select_in k rs (Z.of_nat n) = Ok (Z.of_nat q)) /\
    (2 ^ (Z.of_nat k + 1) <= spread p p' -> rs_select_in k rs (Z.of_nat n) = Ub OutOfFuel).
Proof. exact steps_hints. Qed.
Print Assumptions C71_hints.
Definition hints_seq : list bool := repeat true 1100 ++ repeat false 1000.
Example C71_hints_ex : is_select true hints_seq 1050 1050 /\ chunk_start true hints_seq 1050 1024 /\ chunk_end true hints_seq 1050 2611 /\
  spread 1024 2611 = 4 /\
  (do rs <- rs_build (bv_range hints_seq) true false; rs_select_in 2 rs 1050) = Ok 1050 /\
  (do rs <- rs_build (bv_range hints_seq) true false; rs_select_in 1 rs 1050) = Ub OutOfFuel.
Proof.
  split; [split; reflexivity|]. split; [right; split; [apply Nat.leb_le; reflexivity|split; reflexivity]|].
  split; [right; split; [apply Nat.leb_le; reflexivity|reflexivity]|]. split; [reflexivity|]. split; vm_compute; reflexivity.
Qed.

(** C71: the same for select0; padding zeros can make the last chunk end earlier *)
Theorem C71_hints0 : forall l with_hints, exists rs, rs_build (bv_range l) with_hints true = Ok rs /\
  forall n q p p' k, is_select false l n q -> chunk_start false l n p -> chunk_end false l n p' ->
    spread p p' <= 2 ^ Z.of_nat k -> rs_select0_in k rs (Z.of_nat n) = Ok (Z.of_nat q).
Proof. exact steps_hints0. Qed.
Print Assumptions C71_hints0.
Definition hints0_seq : list bool := repeat true 1000 ++ repeat false 1100.
Example C71_hints0_ex : is_select false hints0_seq 1050 2050 /\ chunk_start false hints0_seq 1050 2024 /\ chunk_end false hints0_seq 1050 2611 /\
  spread 2024 2611 = 3 /\
  (do rs <- rs_build (bv_range hints0_seq) false true; rs_select0_in 2 rs 1050) = Ok 2050.
Proof.
  split; [split; reflexivity|]. split; [right; split; [apply Nat.leb_le; reflexivity|split; reflexivity]|].
  split; [right; split; [apply Nat.leb_le; reflexivity|reflexivity]|]. split; [reflexivity|]. vm_compute; reflexivity.
Qed.
