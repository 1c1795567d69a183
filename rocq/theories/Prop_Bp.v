(** C28-C32, C42, C44: bp_vector. A [true] opens, a [false] closes. The value of a shift by 64
    may be anything ([f]); see C42 at the end. [uninit] is the value of a field that the
    constructor leaves unset for an empty sequence. *)
From Verif Require Import Base Spec M_BitVector M_RsBitVector M_Bp S_Bp P_BpSpec P_BpLimits.

Definition bp_seq : list bool :=
  repeat true 290 ++ flat 130 ++ repeat false 40 ++ flat 15 ++ repeat false 250.
Example bp_seq_bal : bal bp_seq.
Proof. apply balb_sound. vm_compute. reflexivity. Qed.

(** C28; for sequences whose prefixes have no closing parenthesis too many, and balanced ones *)
Theorem C28_find_close : forall f uninit h h0 l, zlen l < 2 ^ 31 -> prefix_ok l ->
  exists bp, bp_build uninit (bv_range l) h h0 = Ok bp /\
  (forall p m, matches l p m -> find_close (loose_shift f) bp p = Ok m) /\
  (bal l -> forall p, nth_error l p = Some true ->
     exists m, find_close (loose_shift f) bp (Z.of_nat p) = Ok m /\ matches l (Z.of_nat p) m).
Proof. exact bp_find_close. Qed.
Print Assumptions C28_find_close.
Example C28_ex : bal bp_seq /\ prefix_ok bp_seq /\ nth_error bp_seq 20 = Some true /\
  (do bp <- bp_build 0 (bv_range bp_seq) false false;
   do r <- find_close (loose_shift (fun _ _ => 5)) bp 20; do s <- find_close (loose_shift (fun _ _ => 5)) bp 260;
   Ok (zlen bp_seq, r, s)) = Ok (870, 849, 579).
Proof. split; [exact bp_seq_bal|]. split; [exact (bal_prefix_ok _ bp_seq_bal)|]. vm_compute. auto. Qed.

(** C28: the match is unique *)
Theorem C28_unique : forall l p m m', matches l p m -> matches l p m' -> m = m'.
Proof. exact matches_unique. Qed.
Print Assumptions C28_unique.
Example C28_unique_ex : matches [true; true; false; false] 0 3.
Proof.
  exists [], [true; false], []. split; [reflexivity|]. split; [exact (bal_pair [] [] bal_nil bal_nil)|]. split; reflexivity.
Qed.

(** C29 *)
Theorem C29_find_open : forall f uninit h h0 l, zlen l < 2 ^ 31 -> prefix_ok l ->
  exists bp, bp_build uninit (bv_range l) h h0 = Ok bp /\
  forall m, nth_error l m = Some false ->
    exists p, find_open (loose_shift f) bp (Z.of_nat m) = Ok p /\ matches l p (Z.of_nat m).
Proof. exact bp_find_open. Qed.
Print Assumptions C29_find_open.
Example C29_ex : prefix_ok bp_seq /\ nth_error bp_seq 849 = Some false /\
  (do bp <- bp_build 0 (bv_range bp_seq) false false;
   do r <- find_open (loose_shift (fun _ _ => 5)) bp 849; do s <- find_open (loose_shift (fun _ _ => 5)) bp 579;
   Ok (r, s)) = Ok (20, 260).
Proof. split; [exact (bal_prefix_ok _ bp_seq_bal)|]. vm_compute. auto. Qed.

(** C29: the match is unique *)
Theorem C29_unique : forall l p p' m, matches l p m -> matches l p' m -> p = p'.
Proof. exact matches_unique_open. Qed.
Print Assumptions C29_unique.
Example C29_unique_ex : matches [true; true; false; false] 0 3.
Proof. exact C28_unique_ex. Qed.

(** C30 *)
Theorem C30_enclose : forall f uninit h h0 l, zlen l < 2 ^ 31 -> prefix_ok l ->
  exists bp, bp_build uninit (bv_range l) h h0 = Ok bp /\
  forall p q, nth_error l p = Some true -> encloses l q (Z.of_nat p) ->
    exists r, enclose (loose_shift f) bp (Z.of_nat p) = Ok r /\ innermost l r (Z.of_nat p).
Proof. exact bp_enclose. Qed.
Print Assumptions C30_enclose.
Example C30_ex : prefix_ok bp_seq /\ nth_error bp_seq 610 = Some true /\ encloses bp_seq 0 610 /\
  (do bp <- bp_build 0 (bv_range bp_seq) false false;
   do r <- enclose (loose_shift (fun _ _ => 5)) bp 600; do s <- enclose (loose_shift (fun _ _ => 5)) bp 610;
   Ok (r, s)) = Ok (249, 249).
Proof.
  split; [exact (bal_prefix_ok _ bp_seq_bal)|]. split; [vm_compute; reflexivity|]. split; [|vm_compute; reflexivity].
  exists 869. split; [|lia]. exists [], (firstn 868 (tl bp_seq)), [].
  split; [vm_compute; reflexivity|]. split; [apply balb_sound; vm_compute; reflexivity|]. vm_compute. auto.
Qed.

(** C31 *)
Theorem C31_inverse : forall f uninit h h0 l, zlen l < 2 ^ 31 -> bal l ->
  exists bp, bp_build uninit (bv_range l) h h0 = Ok bp /\
  (forall p, nth_error l p = Some true -> exists m, find_close (loose_shift f) bp (Z.of_nat p) = Ok m /\
     0 <= m /\ nth_error l (Z.to_nat m) = Some false /\ find_open (loose_shift f) bp m = Ok (Z.of_nat p)) /\
  (forall m, nth_error l m = Some false -> exists p, find_open (loose_shift f) bp (Z.of_nat m) = Ok p /\
     0 <= p /\ nth_error l (Z.to_nat p) = Some true /\ find_close (loose_shift f) bp p = Ok (Z.of_nat m)).
Proof. exact bp_inverse. Qed.
Print Assumptions C31_inverse.
Example C31_ex : bal bp_seq /\ nth_error bp_seq 63 = Some true /\ nth_error bp_seq 768 = Some false /\
  (do bp <- bp_build 0 (bv_range bp_seq) false false;
   do r <- find_close (loose_shift (fun _ _ => 5)) bp 63; do r' <- find_open (loose_shift (fun _ _ => 5)) bp r;
   do s <- find_open (loose_shift (fun _ _ => 5)) bp 768; do s' <- find_close (loose_shift (fun _ _ => 5)) bp s;
   Ok (r, r', s, s')) = Ok (806, 63, 101, 768).
Proof. split; [exact bp_seq_bal|]. vm_compute. auto. Qed.

(** C32 *)
Theorem C32_excess : forall uninit h h0 l, zlen l < 2 ^ 31 -> prefix_ok l ->
  exists bp, bp_build uninit (bv_range l) h h0 = Ok bp /\ bp_size bp = zlen l /\
  forall p, 0 <= p <= zlen l -> excess bp p = Ok (depth l p).
Proof. exact bp_excess. Qed.
Print Assumptions C32_excess.
Example C32_ex : prefix_ok bp_seq /\ 0 <= 600 <= zlen bp_seq /\ depth bp_seq 600 = 250 /\
  (do bp <- bp_build 0 (bv_range bp_seq) true true; excess bp 600) = Ok 250.
Proof. split; [exact (bal_prefix_ok _ bp_seq_bal)|]. vm_compute. intuition congruence. Qed.

(** C44: no sequence of 2^31 to 2^32 - 1 parentheses can be built, whatever its depth: the size is
    converted to a 32-bit excess_t *)
Theorem C44_long_refuted : forall l uninit h h0, 2 ^ 31 <= zlen l < 2 ^ 32 ->
  bp_build uninit (bv_range l) h h0 = Ub AssertFailed.
Proof. exact build_too_long. Qed.
Print Assumptions C44_long_refuted.
Theorem C44_witness_refuted : forall uninit h h0, exists l, bal l /\ zlen l = 2 ^ 31 /\ (forall p, 0 <= depth l p <= 1) /\
  bp_build uninit (bv_range l) h h0 = Ub AssertFailed.
Proof. exact long_flat_fails. Qed.
Print Assumptions C44_witness_refuted.
Example C44_ex : exists l : list bool, 2 ^ 31 <= zlen l < 2 ^ 32.
Proof. destruct (C44_witness_refuted 0 false false) as (l & _ & L & _). exists l. rewrite L. split; [discriminate|reflexivity]. Qed.

(** C42 at find_close and find_open: a shift by 64 is evaluated at word boundaries *)
Theorem C42_find_close_refuted : forall l uninit h h0 p, zlen l < 2 ^ 31 -> prefix_ok l ->
  nth_error l p = Some true -> (p + 1 < length l)%nat -> (Z.of_nat p + 1) mod 64 = 0 ->
  exists bp, bp_build uninit (bv_range l) h h0 = Ok bp /\ find_close strict_shift bp (Z.of_nat p) = Ub BadShift.
Proof. exact strict_close. Qed.
Print Assumptions C42_find_close_refuted.
Example C42_find_close_ex : prefix_ok bp_seq /\ nth_error bp_seq 63 = Some true /\ (63 + 1 < length bp_seq)%nat /\
  (Z.of_nat 63 + 1) mod 64 = 0.
Proof. split; [exact (bal_prefix_ok _ bp_seq_bal)|]. split; [reflexivity|]. split; [|reflexivity]. vm_compute. repeat constructor. Qed.
Theorem C42_find_open_refuted : forall l uninit h h0 p, zlen l < 2 ^ 31 -> prefix_ok l ->
  (0 < p < length l)%nat -> Z.of_nat p mod 64 = 0 ->
  exists bp, bp_build uninit (bv_range l) h h0 = Ok bp /\ find_open strict_shift bp (Z.of_nat p) = Ub BadShift.
Proof. exact strict_open. Qed.
Print Assumptions C42_find_open_refuted.
Example C42_find_open_ex : prefix_ok bp_seq /\ (0 < 768 < length bp_seq)%nat /\ Z.of_nat 768 mod 64 = 0 /\
  nth_error bp_seq 768 = Some false.
Proof.
  split; [exact (bal_prefix_ok _ bp_seq_bal)|]. split; [|split; reflexivity].
  rewrite <- (Nat2Z.id 768), <- (Nat2Z.id (length bp_seq)). vm_compute. split; repeat constructor.
Qed.
