(** C33, C51: excess_rmq of bp_vector. The first argument of [excess_rmq] says whether plain char
    is signed. *)
From Verif Require Import Base Spec M_BitVector M_RsBitVector M_Bp S_Bp P_BpSpec P_BpLimits P_BpRmq.

Definition rmq_seq : list bool := repeat true 290 ++ flat 130 ++ repeat false 40 ++ flat 15 ++ repeat false 250.
Example rmq_seq_bal : bal rmq_seq.
Proof. apply balb_sound. vm_compute. reflexivity. Qed.

(** C33, where char is signed. A sequence that is not balanced must stay 64 below the range of
    excess_t, see the next theorem. *)
Theorem C33_excess_rmq_partial : forall uninit h h0 l, zlen l < 2 ^ 31 -> prefix_ok l ->
  (bal l \/ forall p, 0 <= p <= zlen l -> depth l p < 2 ^ 31 - 64) ->
  exists bp, bp_build uninit (bv_range l) h h0 = Ok bp /\
  forall a b, 0 <= a <= b -> b <= zlen l ->
    exists p, excess_rmq true bp a b = Ok (p, depth l p) /\ leftmost_min_depth l a b p.
Proof. exact bp_rmq. Qed.
Print Assumptions C33_excess_rmq_partial.
Example C33_ex : prefix_ok rmq_seq /\ bal rmq_seq /\ 0 <= 15 <= 800 /\ 800 <= zlen rmq_seq /\
  (do bp <- bp_build 0 (bv_range rmq_seq) false false;
   do x <- excess_rmq true bp 15 800; do y <- excess_rmq true bp 300 620; do z <- excess_rmq true bp 280 570;
   Ok (x, y, z)) = Ok (15, 15, (590, 250), (570, 270)).
Proof.
  split; [exact (bal_prefix_ok _ rmq_seq_bal)|]. split; [exact rmq_seq_bal|]. vm_compute. intuition congruence.
Qed.

(** C33: past that depth the padding of a word overflows excess_t *)
Theorem C33_overflow_refuted : forall uninit h h0, exists l bp, zlen l = 2 ^ 31 - 1 /\ prefix_ok l /\
  bp_build uninit (bv_range l) h h0 = Ok bp /\ excess_rmq true bp (2 ^ 31 - 2) (2 ^ 31 - 1) = Ub SignedOverflow.
Proof. exact rmq_overflow. Qed.
Print Assumptions C33_overflow_refuted.

(** C51: where char is unsigned, excess_rmq misses the minimum *)
Theorem C51_char_refuted : exists l bp, bal l /\ bp_build 0 (bv_range l) false false = Ok bp /\
  excess_rmq true bp 16 32 = Ok (32, 0) /\ excess_rmq false bp 16 32 = Ok (24, 8).
Proof. exact char_sign. Qed.
Print Assumptions C51_char_refuted.
