(** C57: appending a bit vector builder to itself. *)
From Verif Require Import Base Spec M_BitVector S_BitVector M_Alias P_Alias P_Alias2.

Definition C57_grow : growth := fun c _ => 2 * c.

(** C57 is false. A builder of 64 bits or more, however it was filled, runs past the end of its vector. *)
Theorem C57_long_refuted : forall gr os st i, legal_run seqs0 os -> run gr builders0 os = Ok st ->
  64 <= zlen (spec_run seqs0 os i) -> append_self gr (st i) = Ub OutOfBounds.
Proof. exact append_self_long. Qed.
Print Assumptions C57_long_refuted.
Example C57_long_ex : legal_run seqs0 [ZeroExtend 2 70] /\ exists st, run C57_grow builders0 [ZeroExtend 2 70] = Ok st /\
  64 <= zlen (spec_run seqs0 [ZeroExtend 2 70] 2) /\ append_self C57_grow (st 2%nat) = Ub OutOfBounds.
Proof.
  split; [vm_compute; intuition discriminate|]. eexists. split; [vm_compute; reflexivity|]. vm_compute. intuition discriminate.
Qed.

(** Between these sizes the call can return a builder that does not hold the doubled sequence. *)
Definition C57_bits : list bool := repeat true 40.
Definition C57_history : list op := map (PushBack 0) C57_bits.
Theorem C57_witness_refuted : exists st b, legal_run seqs0 C57_history /\ spec_run seqs0 C57_history 0 = C57_bits /\
  run C57_grow builders0 C57_history = Ok st /\ append_self C57_grow (st 0%nat) = Ok b /\
  bv_of_builder b <> Ok (canonical (C57_bits ++ C57_bits)).
Proof. exact append_self_wrong. Qed.
Print Assumptions C57_witness_refuted.

(** What holds: up to 32 bits the builder then holds its old sequence twice. *)
Theorem C57_short_partial : forall gr os st i, legal_run seqs0 os -> run gr builders0 os = Ok st ->
  zlen (spec_run seqs0 os i) <= 32 ->
  exists b, append_self gr (st i) = Ok b /\ bv_of_builder b = Ok (canonical (spec_run seqs0 os i ++ spec_run seqs0 os i)).
Proof. exact append_self_short. Qed.
Print Assumptions C57_short_partial.
Example C57_short_ex : let os := [PushBack 0 true; PushBack 0 false; AppendBits 0 3 30] in
  legal_run seqs0 os /\ zlen (spec_run seqs0 os 0) = 32 /\ exists st b, run C57_grow builders0 os = Ok st /\
  append_self C57_grow (st 0%nat) = Ok b /\ bv_of_builder b = Ok (canonical (spec_run seqs0 os 0 ++ spec_run seqs0 os 0)).
Proof.
  split; [vm_compute; intuition discriminate|]. split; [reflexivity|]. eexists. eexists. split; [vm_compute; reflexivity|].
  split; vm_compute; reflexivity.
Qed.

(** What happens between: from 33 to 63 bits every bit of the doubled sequence is right, and bits [n .. 2 n) of the
    sequence, [n = 64 - size], are left once more behind the end; a later push_back is or-ed onto them. *)
Theorem C57_middle_partial : forall gr os st i, legal_run seqs0 os -> run gr builders0 os = Ok st ->
  let l := spec_run seqs0 os i in let n := (64 - length l)%nat in
  let stray := firstn n (skipn n l ++ repeat false n) in 32 < zlen l < 64 ->
  exists b bv, append_self gr (st i) = Ok b /\ bv_of_builder b = Ok bv /\ bv_size bv = zlen (l ++ l) /\
  (forall p x, nth_error (l ++ l) p = Some x -> bv_get bv (Z.of_nat p) = Ok x) /\
  bv_words bv = pack (l ++ l ++ repeat false n ++ stray) /\
  (bv = canonical (l ++ l) <-> Forall (eq false) stray).
Proof. exact append_self_middle. Qed.
Print Assumptions C57_middle_partial.
Example C57_middle_ex : let os := [AppendBits 0 (2 ^ 39 + 5) 40] in
  legal_run seqs0 os /\ zlen (spec_run seqs0 os 0) = 40 /\ exists st b, run C57_grow builders0 os = Ok st /\
  append_self C57_grow (st 0%nat) = Ok b /\ b_size b = 80 /\ b_bits b = [2 ^ 39 + 5 + 5 * 2 ^ 40; 2 ^ 15 + 2 ^ 55].
Proof.
  split; [vm_compute; intuition discriminate|]. split; [reflexivity|]. eexists. eexists. split; [vm_compute; reflexivity|].
  split; [vm_compute; reflexivity|]. split; vm_compute; reflexivity.
Qed.
