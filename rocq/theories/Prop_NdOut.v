(** Property C96: calls outside the contract in a build without assertions *)
From Verif Require Import Base Spec M_Broadword M_BitVector M_RsBitVector S_BitVector M_Nd S_NdOut P_NdOut M_Util M_AutoFile M_NdRest P_NdRest P_NdRank.

(** C96: append_bits with a value longer than its length, after every history: the bits of the vector are right *)
Theorem C96_append_partial : forall gr os i v len, legal_run seqs0 os -> is_u64 v -> 0 < len <= 64 ->
  let l := spec_run seqs0 os i in
  exists st b' bv, run gr builders0 os = Ok st /\ nd_append_bits gr (st i) v len = Ok b' /\ bv_of_builder b' = Ok bv /\ bv_size bv = zlen l + len /\
  (forall p, 0 <= p < zlen l + len -> bv_get bv p = Ok (nth (Z.to_nat p) (l ++ bits_of (Z.to_nat len) v) false)) /\
  bv_words bv = pack (l ++ bits_of (Z.to_nat (reach (zlen l) len)) v).
Proof. exact nd_history_append. Qed.
Print Assumptions C96_append_partial.
Definition C96_ops : list op := [PushBack 0 true; AppendBits 0 5 3].
Definition C96_gr : growth := fun c _ => 2 * c.
(** the words are not those of the vector, and rs_bit_vector counts the bits that are too many *)
Example C96_append_ex : legal_run seqs0 C96_ops /\ is_u64 13 /\ reach 4 2 = 60 /\
  (do st <- run C96_gr builders0 C96_ops; do b <- nd_append_bits C96_gr (st 0%nat) 13 2; do bv <- bv_of_builder b; do rs <- rs_build bv false false; do n <- num_ones rs;
   Ok (bv_size bv, bv_words bv, n)) = Ok (6, [13 * 16 + 11], 6) /\ count true ([true; true; false; true] ++ bits_of 2 13) = 4%nat.
Proof. vm_compute. intuition congruence. Qed.

(** C96: the next bit appended is or-ed to a bit of the value that was too many *)
Theorem C96_push_refuted : forall gr os i v len x, legal_run seqs0 os -> is_u64 v ->
  let l := spec_run seqs0 os i in 0 < len < reach (zlen l) len ->
  exists st b1 b2 w, run gr builders0 os = Ok st /\ nd_append_bits gr (st i) v len = Ok b1 /\ push_back gr b1 x = Ok b2 /\ b_size b2 = zlen l + len + 1 /\
  rd (b_bits b2) ((zlen l + len) / 64) = Ok w /\ Z.testbit w ((zlen l + len) mod 64) = Z.testbit v len || x.
Proof. exact nd_history_push. Qed.
Print Assumptions C96_push_refuted.
Example C96_push_ex : legal_run seqs0 C96_ops /\ is_u64 13 /\ 0 < 2 < reach (zlen (spec_run seqs0 C96_ops 0%nat)) 2 /\ Z.testbit 13 2 = true /\
  (do st <- run C96_gr builders0 C96_ops; do b <- nd_append_bits C96_gr (st 0%nat) 13 2; do b <- push_back C96_gr b false; do bv <- bv_of_builder b; bv_get bv 6) = Ok true.
Proof. vm_compute. intuition congruence. Qed.

(** C96: set_bits with a value longer than its length changes bits after the range *)
Theorem C96_set_bits_refuted : forall gr os i pos v len, legal_run seqs0 os -> is_u64 v ->
  let l := spec_run seqs0 os i in 0 <= pos -> 0 < len <= 64 -> pos + len <= zlen l ->
  exists st b', run gr builders0 os = Ok st /\ nd_set_bits (st i) pos v len = Ok b' /\ b_size b' = zlen l /\
  forall q, 0 <= q < 64 * ((zlen l + 63) / 64) -> Z.testbit (nth (Z.to_nat (q / 64)) (b_bits b') 0) (q mod 64) =
    if (pos <=? q) && (q <? pos + len) then Z.testbit v (q - pos)
    else nth (Z.to_nat q) l false || (pos <=? q) && (q <? pos + reach pos len) && Z.testbit v (q - pos).
Proof. exact nd_history_set. Qed.
Print Assumptions C96_set_bits_refuted.
Example C96_set_bits_ex : 0 + 2 <= zlen (spec_run seqs0 C96_ops 0%nat) /\
  (do st <- run C96_gr builders0 C96_ops; do b <- nd_set_bits (st 0%nat) 0 6 2; do bv <- bv_of_builder b; do x <- bv_get bv 2; Ok (bv_words bv, x)) = Ok ([14], true) /\
  nth 2 (spec_run seqs0 C96_ops 0%nat) false = false.
Proof. vm_compute. intuition congruence. Qed.

(** C96: reading past the end gives a zero up to the end of the last word, and then reads outside it *)
Theorem C96_get_refuted : forall l pos, zlen l <= pos -> nd_bv_get (bv_range l) pos = if pos <? 64 * ((zlen l + 63) / 64) then Ok false else Ub OutOfBounds.
Proof. exact nd_get_past. Qed.
Print Assumptions C96_get_refuted.
Example C96_get_ex : nd_bv_get (bv_range [true; true]) 2 = Ok false /\ nd_bv_get (bv_range [true; true]) 64 = Ub OutOfBounds.
Proof. split; reflexivity. Qed.

(** C96: searches for a bit that does not exist read outside the words, except successor0 in a vector whose last word is not full *)
Theorem C96_searches_refuted : forall l pos, 0 <= pos < zlen l ->
  ((forall p, 0 <= p <= pos -> nth_error l (Z.to_nat p) <> Some true) -> nd_predecessor1 (bv_range l) pos = Ub OutOfBounds) /\
  ((forall p, 0 <= p <= pos -> nth_error l (Z.to_nat p) <> Some false) -> nd_predecessor0 (bv_range l) pos = Ub OutOfBounds) /\
  ((forall p, pos <= p < zlen l -> nth_error l (Z.to_nat p) <> Some true) -> nd_successor1 (bv_range l) pos = Ub OutOfBounds) /\
  ((forall p, pos <= p < zlen l -> nth_error l (Z.to_nat p) <> Some false) ->
     nd_successor0 (bv_range l) pos = if zlen l mod 64 =? 0 then Ub OutOfBounds else Ok (zlen l)).
Proof. exact nd_no_answer. Qed.
Print Assumptions C96_searches_refuted.
Example C96_searches_ex : 0 <= 69 < zlen (repeat true 70) /\ nd_predecessor0 (bv_range (repeat true 70)) 69 = Ub OutOfBounds /\
  nd_successor0 (bv_range (repeat true 70)) 3 = Ok 70 /\ nd_successor1 (bv_range (repeat false 70)) 3 = Ub OutOfBounds.
Proof. vm_compute. intuition congruence. Qed.

(** C96: rank past the end: the number of ones where the word read exists or none is read, otherwise a read outside an array *)
Theorem C96_rank_refuted : forall l h h0, exists rs, rs_build (bv_range l) h h0 = Ok rs /\ forall pos, zlen l < pos ->
  nd_rs_rank rs pos = if (pos <? 64 * ((zlen l + 63) / 64)) || (pos mod 64 =? 0) && (pos / 512 <=? ((zlen l + 63) / 64 + 7) / 8)
                      then Ok (Z.of_nat (count true l)) else Ub OutOfBounds.
Proof. exact nd_rank_past. Qed.
Print Assumptions C96_rank_refuted.
Definition C96_bits : list bool := [true; false; true].
Example C96_rank_ex : zlen C96_bits < 5 /\ (do rs <- rs_build (bv_range C96_bits) false false; rs_rank rs 5) = Ub AssertFailed /\
  (do rs <- rs_build (bv_range C96_bits) false false; do x <- nd_rs_rank rs 5; do y <- nd_rs_rank rs 960; do z <- nd_rs_rank0 rs 5; Ok (x, y, z)) = Ok (2, 2, 3) /\
  (do rs <- rs_build (bv_range C96_bits) false false; nd_rs_rank rs 65) = Ub OutOfBounds /\
  (do rs <- rs_build (bv_range C96_bits) false false; nd_rs_rank rs 1024) = Ub OutOfBounds.
Proof. vm_compute. intuition congruence. Qed.

(** C96: msb and lsb of 0 *)
Theorem C96_zero_refuted : nd_msb 0 = Ok 255 /\ nd_lsb 0 = Ok 255.
Proof. exact nd_zero. Qed.
Print Assumptions C96_zero_refuted.
Example C96_zero_ex : msb 0 = Ub AssertFailed /\ lsb 0 = Ub AssertFailed /\ nd_msb 1 = Ok 0.
Proof. repeat split. Qed.

(** C96: dereferencing an iterator over lines that has just reached the end gives the last line again *)
Theorem C96_lines_refuted : forall buf it it', bl_increment buf it = Ok it' -> bl_pos it' = None ->
  bl_deref it' = Ub AssertFailed /\ bl_deref it = Ok (bl_value it) /\ nd_bl_deref it' = Ok (bl_value it).
Proof. exact nd_deref_end. Qed.
Print Assumptions C96_lines_refuted.
Example C96_lines_ex : bl_increment [65; 10; 66] (mk_bl (Some 4) [66]) = Ok (mk_bl None [66]) /\ nd_bl_deref (mk_bl None [66]) = Ok [66].
Proof. split; reflexivity. Qed.
