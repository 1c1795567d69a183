(** C85: sizes of 64 bits. *)
From Verif Require Import Base Spec M_BitVector M_Wrap S_BitVector S_Wrap P_Wrap.

(** While every size leaves room for the rounding of words_for, 64-bit sizes behave as the exact
    integers used in the other claims, and no call throws. *)
Theorem C85_exact_partial : forall gr os, legal_run seqs0 os -> Forall sized os ->
  exists st, run gr builders0 os = Ok st /\ wrun gr builders0 os = Ok (st, map (fun _ => false) os) /\
    forall i, w_bv_of_builder (st i) = Ok (canonical (spec_run seqs0 os i)).
Proof. exact w_exact. Qed.
Print Assumptions C85_exact_partial.
Definition C85_ops : list op := [New 0 70 true; New 1 64 false; Reserve 1 500; PushBack 0 false; AppendBits 0 5 3; ZeroExtend 1 9; OneExtend 1 66; Append 0 1].
Definition C85_grow : growth := fun c _ => 2 * c.
Example C85_exact_ex : legal_run seqs0 C85_ops /\ Forall sized C85_ops /\ zlen (spec_run seqs0 C85_ops 0) = 213 /\
  (do (st, ts) <- wrun C85_grow builders0 C85_ops; Ok (b_size (st 0%nat), b_size (st 1%nat), ts)) = Ok (213, 139, repeat false 8).
Proof. split; [vm_compute; intuition congruence|]. split; [unfold C85_ops; repeat (apply Forall_cons; [cbn; unfold fits; intuition lia|]); apply Forall_nil|]. split; vm_compute; reflexivity. Qed.

(** The constructor takes back() of an empty vector for the last 63 sizes. *)
Theorem C85_new_refuted : forall n init, 2 ^ 64 - 64 < n < 2 ^ 64 -> w_new n init = Ub OutOfBounds.
Proof. exact w_new_over. Qed.
Print Assumptions C85_new_refuted.
Example C85_new_ex : 2 ^ 64 - 64 < 2 ^ 64 - 1 < 2 ^ 64.
Proof. lia. Qed.

(** For them reserve() reserves nothing. *)
Theorem C85_reserve_refuted : forall gr b n, 0 <= b_cap b -> 2 ^ 64 - 64 < n < 2 ^ 64 -> w_reserve gr b n = b.
Proof. exact w_reserve_over. Qed.
Print Assumptions C85_reserve_refuted.
Example C85_reserve_ex : 0 <= b_cap (builders0 0%nat) /\ b_cap (w_reserve C85_grow (builders0 0%nat) (2 ^ 64 - 63)) = 0 /\
  b_cap (w_reserve C85_grow (builders0 0%nat) (2 ^ 64 - 64)) = 2 ^ 58 - 1.
Proof. vm_compute. intuition congruence. Qed.

(** zero_extend(n) past 2^64 makes the builder smaller and keeps its words. It throws only if the number
    of words changes, and then the size is already wrong. *)
Theorem C85_zero_extend_refuted : forall gr os i n, legal_run seqs0 os -> Forall sized os ->
  n < 2 ^ 64 <= zlen (spec_run seqs0 os i) + n ->
  let m := zlen (spec_run seqs0 os i) + n - 2 ^ 64 in
  exists st t, wrun gr builders0 (os ++ [ZeroExtend i n]) = Ok (st, map (fun _ => false) os ++ [t]) /\
    b_size (st i) = m /\ b_bits (st i) = pack (spec_run seqs0 os i) /\
    (t = false <-> (m + 63) / 64 = (zlen (spec_run seqs0 os i) + 63) / 64).
Proof. exact w_zero_over. Qed.
Print Assumptions C85_zero_extend_refuted.
Example C85_zero_extend_ex : 2 ^ 64 - 5 < 2 ^ 64 <= zlen (spec_run seqs0 C85_ops 0) + (2 ^ 64 - 5) /\
  (do (st, ts) <- wrun C85_grow builders0 (C85_ops ++ [ZeroExtend 0 (2 ^ 64 - 5)]); Ok (b_size (st 0%nat), last ts true)) = Ok (208, false) /\
  (do (st, ts) <- wrun C85_grow builders0 (C85_ops ++ [ZeroExtend 0 (2 ^ 64 - 50)]); Ok (b_size (st 0%nat), last ts false)) = Ok (163, true).
Proof. vm_compute. intuition congruence. Qed.

(** When it does not throw, push_back(false) then adds an old bit again. *)
Theorem C85_push_back_refuted : forall gr os i n, legal_run seqs0 os -> Forall sized os ->
  n < 2 ^ 64 <= zlen (spec_run seqs0 os i) + n ->
  let m := zlen (spec_run seqs0 os i) + n - 2 ^ 64 in
  zlen (spec_run seqs0 os i) mod 64 <> 0 -> m / 64 = zlen (spec_run seqs0 os i) / 64 -> m mod 64 <> 0 ->
  exists st bv, wrun gr builders0 (os ++ [ZeroExtend i n; PushBack i false]) = Ok (st, map (fun _ => false) os ++ [false; false]) /\
    w_bv_of_builder (st i) = Ok bv /\ bv_size bv = m + 1 /\ bv_get bv m = Ok (nth (Z.to_nat m) (spec_run seqs0 os i) false).
Proof. exact w_zero_push. Qed.
Print Assumptions C85_push_back_refuted.
Example C85_push_back_ex : zlen (spec_run seqs0 C85_ops 0) mod 64 <> 0 /\ 208 / 64 = zlen (spec_run seqs0 C85_ops 0) / 64 /\
  208 mod 64 <> 0 /\ nth 208 (spec_run seqs0 C85_ops 0) false = true.
Proof. vm_compute. intuition congruence. Qed.
