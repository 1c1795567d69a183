(** C75: enumerators asked past their last element. C63: arguments outside the contract of broadword.hpp and of the builder. *)
From Verif Require Import Base Spec M_Broadword M_BitVector M_EliasFano S_BitVector S_EliasFano S_Ends P_Ends P_Ends2.
From Coq Require Import Sorted.

(** bit_vector::enumerator: from [pos] the buffer is refilled every 64 bits, so the bits after the end up to the last refill read as 0;
    only the call that would refill past the end stops at the assertion of fill_buf *)
Theorem C75_bits_refuted : forall l pos n, 0 <= pos < zlen l ->
  erun (canonical l) (enum_new pos) (repeat ENext n) =
    if Z.of_nat n <=? 64 * ((zlen l - pos + 63) / 64) then Ok (map (fun i => Z.b2z (nth i l false)) (seq (Z.to_nat pos) n), pos + Z.of_nat n)
    else Ub AssertFailed.
Proof. exact enum_past. Qed.
Print Assumptions C75_bits_refuted.
Example C75_bits_ex : 0 <= 2 < zlen [true; false; true] /\
  erun (canonical [true; false; true]) (enum_new 2) (repeat ENext 3) = Ok ([1; 0; 0], 5) /\
  erun (canonical [true; false; true]) (enum_new 2) (repeat ENext 65) = Ub AssertFailed.
Proof. vm_compute. intuition congruence. Qed.

(** skip_zeros when no one is left, after every history (the histories whose last reading call was take(64) are missing, see C05) *)
Theorem C75_skip_zeros_partial : forall l pos os rs p, 0 <= pos -> espec_to l (pos, false) os rs (p, false) ->
  (forall j, p <= Z.of_nat j -> nth_error l j <> Some true) ->
  erun (canonical l) (enum_new pos) (os ++ [ESkipZeros]) = Ub AssertFailed.
Proof. exact enum_skip_past. Qed.
Print Assumptions C75_skip_zeros_partial.
Example C75_skip_zeros_ex : espec_to [true; false; false] (0, false) [ENext; ETake 1] [1; 0] (2, false) /\
  (forall j, 2 <= Z.of_nat j -> nth_error [true; false; false] j <> Some true) /\
  erun (canonical [true; false; false]) (enum_new 0) [ENext; ETake 1; ESkipZeros] = Ub AssertFailed.
Proof.
  split; [|split; [|reflexivity]].
  - eapply est_cons; [exact (es_next [true; false; false] 0 false true eq_refl)|].
    eapply est_cons; [|apply est_nil]. exact (es_take [true; false; false] 1 false 1 ltac:(lia) eq_refl).
  - intros [|[|[|[|j]]]] H; try discriminate; exfalso; apply H; reflexivity.
Qed.

(** unary_enumerator: next, skip and skip_no_move past the last one read outside the words, after every history *)
Theorem C75_unary_refuted : forall l pos os rs s, 0 <= pos < 64 * zlen (pack l) -> uspec_to l (pos, false) os rs s ->
  (rank true l (ustart s) = count true l -> urun_from (canonical l) pos (os ++ [UNext]) = Ub OutOfBounds) /\
  forall k, 0 <= k -> Z.of_nat (count true l) <= Z.of_nat (rank true l (ustart s)) + k ->
    urun_from (canonical l) pos (os ++ [USkip k]) = Ub OutOfBounds /\ urun_from (canonical l) pos (os ++ [USkipNoMove k]) = Ub OutOfBounds.
Proof. exact unary_past. Qed.
Print Assumptions C75_unary_refuted.
Example C75_unary_ex : uspec_to [true; false; true] (0, false) [USkip 1; UNext] [2; 2] (2, true) /\
  rank true [true; false; true] (ustart (2, true)) = count true [true; false; true] /\
  urun_from (canonical [true; false; true]) 0 [USkip 1; UNext; UNext] = Ub OutOfBounds /\
  urun_from (canonical [true; false; true]) 0 [USkip 1; USkip 1] = Ub OutOfBounds.
Proof.
  split; [|vm_compute; auto].
  eapply ust_cons; [apply (us_skip _ _ 1 2); [discriminate|split; reflexivity]|]. eapply ust_cons; [apply (us_next _ _ 2); split; reflexivity|]. apply ust_nil.
Qed.

(** skip0 past the last zero: the unused bits of the last word count as zeros, after them it reads outside the words *)
Theorem C75_skip0_refuted : forall l pos os rs p k, 0 <= pos < 64 * zlen (pack l) -> uspec_to l (pos, false) os rs (p, false) -> p <= zlen l -> 0 <= k ->
  Z.of_nat (count false l) <= Z.of_nat (rank false l (Z.to_nat p)) + k ->
  urun_from (canonical l) pos (os ++ [USkip0 k]) =
    let q := zlen l + (Z.of_nat (rank false l (Z.to_nat p)) + k - Z.of_nat (count false l)) in
    if q <? 64 * ((zlen l + 63) / 64) then Ok (rs ++ [q]) else Ub OutOfBounds.
Proof. exact skip0_past. Qed.
Print Assumptions C75_skip0_refuted.
Example C75_skip0_ex : uspec_to [true; false; true] (0, false) [USkip 1] [2] (2, false) /\ 2 <= zlen [true; false; true] /\
  urun_from (canonical [true; false; true]) 0 [USkip 1; USkip0 4] = Ok [2; 7] /\
  urun_from (canonical [true; false; true]) 0 [USkip 1; USkip0 61] = Ub OutOfBounds.
Proof.
  split; [|vm_compute; intuition congruence].
  eapply ust_cons; [apply (us_skip _ _ 1 2); [discriminate|split; reflexivity]|]. apply ust_nil.
Qed.

(** elias_fano::select_enumerator: whether the assertion of take or the read of the high bits comes first depends on where the low buffer ends *)
Theorem C75_elias_fano_refuted : forall gr n m vs idx, ef_input n m vs -> exists ef, ef_make gr n m vs idx = Ok ef /\
  forall i, (i < length vs)%nat -> exists e, se_new ef (Z.of_nat i) = Ok e /\
  se_run ef e (S (length vs - i)) =
    Ub (if (if ef_l ef =? 0 then Z.of_nat i =? 0 else (zlen vs - Z.of_nat i) mod (64 / ef_l ef) =? 0) then AssertFailed else OutOfBounds).
Proof. exact ef_enum_past. Qed.
Print Assumptions C75_elias_fano_refuted.
Example C75_elias_fano_ex : ef_input 9 3 [2; 9; 9] /\
  (do ef <- ef_make (fun c _ => 2 * c) 9 3 [2; 9; 9] true; do e <- se_new ef 1; se_run ef e 3) = Ub OutOfBounds.
Proof. split; [|vm_compute; auto]. repeat split; try (intros; discriminate); repeat constructor; discriminate. Qed.

(** C63 for broadword.hpp: the calls of msb and lsb with a result are in C11; the argument k < 0 is not a size_t *)
Theorem C63_broadword_partial :
  (forall x, is_u64 x -> (forall p, 0 <= p < 64 -> x <> 2 ^ p) -> bit_position x = Ub AssertFailed) /\
  (forall popcnt x k, is_u64 x -> Z.of_nat (count true (word_bits x)) <= k -> select_in_word_gen popcnt x k = Ub AssertFailed) /\
  msb 0 = Ub AssertFailed /\ lsb 0 = Ub AssertFailed.
Proof. exact reject_broadword. Qed.
Print Assumptions C63_broadword_partial.
Example C63_broadword_ex : is_u64 12 /\ (forall p, 0 <= p < 64 -> 12 <> 2 ^ p) /\ bit_position 12 = Ub AssertFailed /\
  Z.of_nat (count true (word_bits 12)) <= 2 /\ select_in_word_gen true 12 2 = Ub AssertFailed /\ select_in_word_gen true 12 1 = Ok 3.
Proof.
  split; [vm_compute; intuition congruence|]. split; [|vm_compute; intuition congruence].
  intros p Hp E. assert (p = 0 \/ p = 1 \/ p = 2 \/ p = 3 \/ 4 <= p) as [->|[->|[->|[->|H]]]] by lia; try discriminate.
  pose proof (Z.pow_le_mono_r 2 4 p ltac:(lia) H). lia.
Qed.

(** C63 for the builder, after every history: bits past the end and bits past the length are rejected (set, lengths above 64
    and a sum pos + len that wraps are not, see below) *)
Theorem C63_builder_partial : forall gr os i, legal_run seqs0 os ->
  (forall pos bits len, zlen (spec_run seqs0 os i) < pos + len < 2 ^ 64 -> run gr builders0 (os ++ [SetBits i pos bits len]) = Ub AssertFailed) /\
  (forall bits len, 0 <= len < 64 -> 2 ^ len <= bits -> run gr builders0 (os ++ [AppendBits i bits len]) = Ub AssertFailed /\
     forall pos, 0 <= pos -> pos + len <= zlen (spec_run seqs0 os i) -> zlen (spec_run seqs0 os i) < 2 ^ 64 -> run gr builders0 (os ++ [SetBits i pos bits len]) = Ub AssertFailed).
Proof. exact reject_builder. Qed.
Print Assumptions C63_builder_partial.
Definition en_ops : list op := [PushBack 0 true; AppendBits 0 5 3].
Definition en_grow : growth := fun c _ => 2 * c.
Example C63_builder_ex : legal_run seqs0 en_ops /\ zlen (spec_run seqs0 en_ops 0) < 2 + 3 < 2 ^ 64 /\ 2 ^ 3 <= 9 /\
  run en_grow builders0 (en_ops ++ [SetBits 0 2 1 3]) = Ub AssertFailed /\ run en_grow builders0 (en_ops ++ [AppendBits 0 9 3]) = Ub AssertFailed /\
  run en_grow builders0 (en_ops ++ [SetBits 0 1 9 3]) = Ub AssertFailed.
Proof. vm_compute. intuition congruence. Qed.

(** set_bits at a position whose sum with the length wraps passes the assertion and writes outside the words *)
Theorem C63_set_bits_refuted : forall gr os i pos bits len, legal_run seqs0 os -> zlen (spec_run seqs0 os i) < 2 ^ 63 ->
  0 < len <= 64 -> 0 <= bits < 2 ^ len -> pos < 2 ^ 64 <= pos + len -> pos + len - 2 ^ 64 <= zlen (spec_run seqs0 os i) ->
  run gr builders0 (os ++ [SetBits i pos bits len]) = Ub OutOfBounds.
Proof. exact set_bits_wraps. Qed.
Print Assumptions C63_set_bits_refuted.
Example C63_set_bits_ex : legal_run seqs0 en_ops /\ zlen (spec_run seqs0 en_ops 0) = 4 /\ 2 ^ 64 - 1 < 2 ^ 64 <= 2 ^ 64 - 1 + 3 /\
  run en_grow builders0 (en_ops ++ [SetBits 0 (2 ^ 64 - 1) 5 3]) = Ub OutOfBounds.
Proof. vm_compute. intuition congruence. Qed.

(** append_bits of more than 64 bits shifts by the length before anything is checked *)
Theorem C63_append_bits_refuted : forall gr os i bits len, legal_run seqs0 os -> 64 < len ->
  run gr builders0 (os ++ [AppendBits i bits len]) = Ub BadShift.
Proof. exact append_long. Qed.
Print Assumptions C63_append_bits_refuted.
Example C63_append_bits_ex : legal_run seqs0 en_ops /\ run en_grow builders0 (en_ops ++ [AppendBits 0 9 65]) = Ub BadShift.
Proof. vm_compute. intuition congruence. Qed.

(** bit_vector_builder::set has no assertion: past the end, but inside the last word, the bit stays behind and shows when zeros are pushed; further out
    the write is outside the words *)
Theorem C63_set_refuted : forall gr os i pos, legal_run seqs0 os -> zlen (spec_run seqs0 os i) <= pos ->
  if pos <? 64 * ((zlen (spec_run seqs0 os i) + 63) / 64) then
    exists st, run gr builders0 (os ++ SetBit i pos true :: repeat (PushBack i false) (S (Z.to_nat (pos - zlen (spec_run seqs0 os i))))) = Ok st /\
      bv_of_builder (st i) = Ok (canonical (spec_run seqs0 os i ++ repeat false (Z.to_nat (pos - zlen (spec_run seqs0 os i))) ++ [true]))
  else forall x, run gr builders0 (os ++ [SetBit i pos x]) = Ub OutOfBounds.
Proof. exact set_past. Qed.
Print Assumptions C63_set_refuted.
Example C63_set_ex : legal_run seqs0 en_ops /\ zlen (spec_run seqs0 en_ops 0) = 4 /\
  (do st <- run en_grow builders0 (en_ops ++ SetBit 0 5 true :: repeat (PushBack 0 false) 2); bv_of_builder (st 0%nat))
    = Ok (canonical [true; true; false; true; false; true]) /\
  run en_grow builders0 (en_ops ++ [SetBit 0 64 true]) = Ub OutOfBounds.
Proof. vm_compute. intuition congruence. Qed.
