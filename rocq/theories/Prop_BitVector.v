(** C01-C06, C41: bit_vector.hpp. *)
From Verif Require Import Base Spec M_BitVector S_BitVector
  P_Builder P_BitVector P_BvEnum P_BvProps.

(** C01: after any legal call history every builder yields the bit_vector of the sequence
    the same calls build; stated on the stored words and on operator[]. *)
Theorem C01_builder : forall gr os, legal_run seqs0 os ->
  exists st, run gr builders0 os = Ok st /\
  forall i, bv_of_builder (st i) = Ok (canonical (spec_run seqs0 os i)).
Proof. exact builder_history. Qed.
Print Assumptions C01_builder.
Definition C01_history : list op :=
  [New 0 70 true; PushBack 0 false; AppendBits 0 5 60; SetBits 0 60 3 10; SetBit 0 2 false;
   ZeroExtend 0 100; OneExtend 1 90; Append 1 0; Reverse 1; Swap 0 1; Reserve 1 3].
Example C01_builder_history_ex : legal_run seqs0 C01_history /\
  spec_run seqs0 [New 0 2 true; AppendBits 0 5 4; Reverse 0] 0%nat = [false; true; false; true; true; true].
Proof. cbn [legal_run C01_history legal]. vm_compute. intuition congruence. Qed.
Theorem C01_builder_bits : forall gr os, legal_run seqs0 os ->
  exists st, run gr builders0 os = Ok st /\ forall i, exists bv,
    bv_of_builder (st i) = Ok bv /\ bv_size bv = zlen (spec_run seqs0 os i) /\
    forall j b, nth_error (spec_run seqs0 os i) j = Some b -> bv_get bv (Z.of_nat j) = Ok b.
Proof. exact builder_bits. Qed.
Print Assumptions C01_builder_bits.
Example C01_builder_ex : legal_run seqs0 C01_history /\
  zlen (spec_run seqs0 C01_history 0%nat) = 321 /\
  rank true (spec_run seqs0 C01_history 0%nat) 321 = 153%nat.
Proof. cbn [legal_run C01_history legal]. vm_compute. intuition congruence. Qed.

(** C02 *)
Theorem C02_range : forall l,
  bv_size (bv_range l) = zlen l /\
  forall i b, nth_error l i = Some b -> bv_get (bv_range l) (Z.of_nat i) = Ok b.
Proof. exact range_get. Qed.
Print Assumptions C02_range.
Example C02_range_ex : nth_error (repeat false 69 ++ [true]) 69 = Some true.
Proof. reflexivity. Qed.

(** C03. A shift by 64 ([get_bits(pos, 64)]) may give any value here; see C42. *)
Theorem C03_get_bits : forall f l pos len, 0 <= pos -> 0 <= len <= 64 -> pos + len <= zlen l ->
  get_bits (loose_shift f) (canonical l) pos len =
  Ok (value (window l (Z.to_nat pos) (Z.to_nat len))).
Proof. exact get_bits_loose. Qed.
Print Assumptions C03_get_bits.
Definition C03_seq : list bool := repeat true 60 ++ repeat false 40 ++ repeat true 30.
Example C03_get_bits_ex : 0 <= 58 /\ 0 <= 64 <= 64 /\ 58 + 64 <= zlen C03_seq /\
  get_bits (loose_shift (fun x _ => x)) (canonical C03_seq) 58 64 = Ok (3 + (2 ^ 22 - 1) * 2 ^ 42).
Proof. vm_compute. intuition congruence. Qed.
Theorem C03_get_bits_strict : forall l pos len, 0 <= pos -> 0 <= len < 64 -> pos + len <= zlen l ->
  get_bits strict_shift (canonical l) pos len =
  Ok (value (window l (Z.to_nat pos) (Z.to_nat len))).
Proof. exact get_bits_strict. Qed.
Print Assumptions C03_get_bits_strict.
Example C03_get_bits_strict_ex : 58 + 44 <= zlen C03_seq /\ value (window C03_seq 58 44) = 3 + 3 * 2 ^ 42 /\
  get_bits strict_shift (canonical C03_seq) 58 44 = Ok (3 + 3 * 2 ^ 42).
Proof. vm_compute. intuition congruence. Qed.
Theorem C03_get_word : forall l pos, 0 <= pos < zlen l ->
  get_word (canonical l) pos = Ok (value (window l (Z.to_nat pos) 64)).
Proof. exact get_word_bits. Qed.
Print Assumptions C03_get_word.
Example C03_get_word_ex : 0 <= 101 < zlen C03_seq /\ get_word (canonical C03_seq) 101 = Ok (2 ^ 29 - 1).
Proof. vm_compute. intuition congruence. Qed.
Theorem C03_get_word56 : forall l pos, 0 <= pos -> pos / 8 + 8 <= 8 * zlen (pack l) ->
  exists r, get_word56 (canonical l) pos = Ok r /\
    r mod 2 ^ 56 = value (window l (Z.to_nat pos) 56).
Proof. exact get_word56_low. Qed.
Print Assumptions C03_get_word56.
Example C03_ex : 58 + 44 <= zlen C03_seq /\
  value (window C03_seq 58 44) = 3 + 3 * 2 ^ 42 /\
  get_bits strict_shift (canonical C03_seq) 58 44 = Ok (3 + 3 * 2 ^ 42) /\
  0 <= 101 < zlen C03_seq /\ get_word (canonical C03_seq) 101 = Ok (2 ^ 29 - 1) /\
  58 / 8 + 8 <= 8 * zlen (pack C03_seq) /\ 101 / 8 + 8 <= 8 * zlen (pack C03_seq).
Proof. vm_compute. intuition congruence. Qed.

(** C04 *)
Theorem C04_predecessor : forall neg l pos q, 0 <= q <= pos -> pos < zlen l ->
  nth_error l (Z.to_nat q) = Some (negb neg) ->
  (forall p, q < p <= pos -> nth_error l (Z.to_nat p) = Some neg) ->
  (if neg then predecessor0 else predecessor1) (canonical l) pos = Ok q.
Proof. exact predecessor_both. Qed.
Print Assumptions C04_predecessor.
Definition C04_seq : list bool := repeat true 2 ++ repeat false 128 ++ [true].
Example C04_predecessor_ex : 0 <= 1 <= 129 /\ 129 < zlen C04_seq /\ nth_error C04_seq (Z.to_nat 1) = Some (negb false) /\
  (forall p, 1 < p <= 129 -> nth_error C04_seq (Z.to_nat p) = Some false) /\
  predecessor1 (canonical C04_seq) 129 = Ok 1.
Proof.
  split; [lia|]. split; [reflexivity|]. split; [reflexivity|]. split; [|vm_compute; reflexivity].
  intros p Hp. unfold C04_seq. rewrite nth_error_app2, nth_error_app1; rewrite ?repeat_length; [|lia|lia].
  apply nth_error_repeat. lia.
Qed.
Theorem C04_successor : forall neg l pos q, 0 <= pos <= q ->
  nth_error l (Z.to_nat q) = Some (negb neg) ->
  (forall p, pos <= p < q -> nth_error l (Z.to_nat p) = Some neg) ->
  (if neg then successor0 else successor1) (canonical l) pos = Ok q.
Proof. exact successor_both. Qed.
Print Assumptions C04_successor.
Example C04_ex : 1 <= 129 /\ 129 < zlen (repeat true 2 ++ repeat false 128 ++ [true]) /\
  nth_error (repeat true 2 ++ repeat false 128 ++ [true]) 1 = Some true /\
  predecessor1 (canonical (repeat true 2 ++ repeat false 128 ++ [true])) 129 = Ok 1 /\
  successor1 (canonical (repeat true 2 ++ repeat false 128 ++ [true])) 2 = Ok 130 /\
  successor0 (canonical (repeat true 2 ++ repeat false 128 ++ [true])) 0 = Ok 2.
Proof. vm_compute. intuition congruence. Qed.

(** C05. Missing: [skip_zeros] directly after [take(64)], where the property fails. *)
Theorem C05_enumerator_partial : forall l pos os rs p, 0 <= pos ->
  espec_run l (pos, false) os rs p ->
  erun (canonical l) (enum_new pos) os = Ok (rs, p).
Proof. exact enum_history. Qed.
Print Assumptions C05_enumerator_partial.
Definition C05_seq : list bool := [true; false; true; false] ++ repeat false 65 ++ [true; true].
Example C05_ex : espec_run C05_seq (0, false) [ENext; ETake 2; ESkipZeros; ETake 1] [1; 2; 66; 1] 71.
Proof.
  apply esr_cons with (s' := (1, false)); [apply (es_next C05_seq 0 false true); reflexivity|].
  apply esr_cons with (s' := (3, false)); [apply (es_take C05_seq 1 false 2); vm_compute; intuition congruence|].
  apply esr_cons with (s' := (70, false)).
  - apply (es_skip C05_seq 3 69); [lia|reflexivity|].
    intros p Hp. assert (H : (3 <= Z.to_nat p < 69)%nat) by lia.
    destruct (Nat.eq_dec (Z.to_nat p) 3) as [->|N]; [reflexivity|].
    unfold C05_seq. rewrite nth_error_app2 by (cbn [length]; lia).
    rewrite nth_error_app1 by (rewrite repeat_length; cbn [length]; lia).
    apply nth_error_repeat. cbn [length]; lia.
  - apply esr_cons with (s' := (71, false)); [|apply esr_nil].
    apply (es_take C05_seq 70 false 1); vm_compute; intuition congruence.
Qed.
(** after [take(64)] the buffer still holds the bits just read *)
Definition C05_bad : list bool := repeat false 3 ++ [true] ++ repeat false 61 ++ [true].
Theorem C05_refuted :
  nth_error C05_bad 64 = Some false /\ nth_error C05_bad 65 = Some true /\
  erun (canonical C05_bad) (enum_new 0) [ETake 64; ESkipZeros] = Ok ([8; 3], 68) /\
  erun (canonical C05_bad) (enum_new 64) [ESkipZeros] = Ok ([1], 66).
Proof. exact (conj eq_refl (conj eq_refl (conj eq_refl eq_refl))). Qed.
Print Assumptions C05_refuted.

(** C06. Missing: [skip0] directly after [next], where the property fails. *)
Theorem C06_unary_enumerator_partial : forall l pos os rs, 0 <= pos < 64 * zlen (pack l) ->
  uspec_run l (pos, false) os rs -> urun_from (canonical l) pos os = Ok rs.
Proof. exact unary_history. Qed.
Print Assumptions C06_unary_enumerator_partial.
Definition C06_seq : list bool := [false; true; true; false; false] ++ repeat true 70 ++ [false].
Example C06_ex : 1 < 64 * zlen (pack C06_seq) /\
  uspec_run C06_seq (1, false) [UNext; USkipNoMove 1; USkip 1; USkip0 0] [1; 5; 5; 75].
Proof.
  split; [reflexivity|].
  eapply usr_cons; [apply (us_next C06_seq (1, false) 1); vm_compute; auto|].
  eapply usr_cons; [apply (us_skip_no_move C06_seq _ 1 5); [lia|vm_compute; auto]|].
  eapply usr_cons; [apply (us_skip C06_seq _ 1 5); [lia|vm_compute; auto]|].
  eapply usr_cons; [apply (us_skip0 C06_seq 5 0 75); [lia|vm_compute; auto]|].
  apply usr_nil.
Qed.
(** after [next] returned the one at 0, [skip0(0)] stays there instead of moving to 1 *)
Theorem C06_refuted :
  is_select false [true; false; false] 0 1 /\ rank false [true; false; false] 0 = 0%nat /\
  rank false [true; false; false] 1 = 0%nat /\
  urun_from (canonical [true; false; false]) 0 [UNext; USkip0 0] = Ok [0; 0].
Proof. exact (conj (conj eq_refl eq_refl) (conj eq_refl (conj eq_refl eq_refl))). Qed.
Print Assumptions C06_refuted.

(** C41. Missing: [reserve] to more than the size while the last word is partly filled,
    where the property fails. *)
Theorem C41_builder_memory_partial : forall gr os, legal_run seqs0 os ->
  exists st, run gr builders0 os = Ok st.
Proof. exact (fun gr os H => match builder_history gr os H with ex_intro _ st (conj E _) => ex_intro _ st E end). Qed.
Print Assumptions C41_builder_memory_partial.
Example C41_ex : legal_run seqs0 (C01_history ++ [PushBack 0 true; Swap 0 1; PushBack 0 true]).
Proof. cbn [legal_run C01_history legal app]. vm_compute. intuition congruence. Qed.
(** whatever capacity [std::vector] picks, some [reserve] leaves [m_cur_word] dangling *)
Theorem C41_refuted : forall gr, exists n,
  run gr builders0 [PushBack 0 true; Reserve 0 n; PushBack 0 true] = Ub Dangling.
Proof. exact dangling. Qed.
Print Assumptions C41_refuted.
Example C41_refuted_ex :
  run (fun c _ => 2 * c) builders0 [PushBack 0 true; Reserve 0 1000; PushBack 0 true] = Ub Dangling.
Proof. reflexivity. Qed.

(** C42 at [get_bits]: [1 << len] with len = 64 *)
Theorem C42_get_bits_refuted : forall l pos, 0 <= pos -> pos + 64 <= zlen l ->
  get_bits strict_shift (canonical l) pos 64 = Ub BadShift.
Proof. exact get_bits_strict64. Qed.
Print Assumptions C42_get_bits_refuted.
Example C42_get_bits_ex : 3 + 64 <= zlen (repeat true 70).
Proof. vm_compute. congruence. Qed.
