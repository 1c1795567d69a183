(** C58-C61: truncated files, the largest integers, rounding up, uninitialised members. *)
From Verif Require Import Base Spec M_BitVector M_EliasFano M_Gamma M_Util M_Bp M_Mapper S_BitVector S_Bp S_Mapper S_Limits P_Limits.

Definition C58_grow : growth := fun c _ => 2 * c.

(** C58 is false: mapping any proper prefix of a frozen image reads past its end. *)
Theorem C58_truncated_refuted : forall A (M : mappable A) x flags addr k,
  typed (layout_of M) (data_of M x) -> 8 + frozen_size (layout_of M) (data_of M x) < 2 ^ 64 -> 0 <= flags < 2 ^ 64 ->
  let bytes := fst (freeze (layout_of M) (data_of M x) flags) in
  (k < length bytes)%nat -> map_at false addr (firstn k bytes) (layout_of M) 0 = Ub OutOfBounds.
Proof. exact @truncated. Qed.
Print Assumptions C58_truncated_refuted.
Example C58_ex : exists c, efc_build C58_grow [5; 0; 900] = Ok c /\ typed (layout_of efc_map) (data_of efc_map c) /\
  8 + frozen_size (layout_of efc_map) (data_of efc_map c) < 2 ^ 64 /\
  (100 < length (fst (freeze (layout_of efc_map) (data_of efc_map c) 0)))%nat.
Proof.
  eexists. split; [vm_compute; reflexivity|]. split; [apply P_Mapper.typedb_ok; vm_compute; reflexivity|].
  split; [vm_compute; reflexivity|]. apply Nat.ltb_lt. vm_compute. reflexivity.
Qed.

(** C59 is false: the largest integers are refused. The bounds in C21 to C24 are thus exact. *)
Theorem C59_gamma_vector_refuted : forall gr pre post, Forall (fun x => 0 <= x < 2 ^ 64 - 1) pre ->
  gv_build gr (pre ++ (2 ^ 64 - 1) :: post) = Ub AssertFailed.
Proof. exact gv_limit. Qed.
Print Assumptions C59_gamma_vector_refuted.
Example C59_gamma_vector_ex : Forall (fun x => 0 <= x < 2 ^ 64 - 1) [3; 2 ^ 63] /\
  gv_build C58_grow ([3; 2 ^ 63] ++ (2 ^ 64 - 1) :: [7]) = Ub AssertFailed.
Proof. split; [repeat constructor; discriminate|reflexivity]. Qed.
Theorem C59_gamma_bit_vector_refuted : forall gr pre x post, Forall (fun x => 0 <= x < 2 ^ 64 - 2) pre ->
  2 ^ 64 - 2 <= x < 2 ^ 64 -> gb_build gr (pre ++ x :: post) = Ub AssertFailed.
Proof. exact gb_limit. Qed.
Print Assumptions C59_gamma_bit_vector_refuted.
Example C59_gamma_bit_vector_ex : Forall (fun x => 0 <= x < 2 ^ 64 - 2) [3; 2 ^ 63] /\ 2 ^ 64 - 2 <= 2 ^ 64 - 2 < 2 ^ 64.
Proof. split; [repeat constructor; discriminate|split; [discriminate|reflexivity]]. Qed.
Theorem C59_compressed_list_refuted : forall gr pre post, Forall (fun x => 0 <= x < 2 ^ 64 - 1) pre ->
  efc_build gr (pre ++ (2 ^ 64 - 1) :: post) = Ub AssertFailed.
Proof. exact efc_limit. Qed.
Print Assumptions C59_compressed_list_refuted.
Example C59_compressed_list_ex : Forall (fun x => 0 <= x < 2 ^ 64 - 1) [3; 2 ^ 63] /\
  efc_build C58_grow ([3; 2 ^ 63] ++ (2 ^ 64 - 1) :: [7]) = Ub AssertFailed.
Proof. split; [repeat constructor; discriminate|reflexivity]. Qed.
Theorem C59_list_refuted : efl_build C58_grow [2 ^ 64 - 1] = Ub AssertFailed.
Proof. exact efl_limit. Qed.
Print Assumptions C59_list_refuted.

(** C60 is false when the sum of the arguments passes 2^64: the result is then 0. *)
Theorem C60_wrap_refuted : forall a b, 0 <= a < 2 ^ 64 -> 0 < b < 2 ^ 64 -> 2 ^ 64 < a + b -> ceil_div64 a b = 0.
Proof. exact ceil_div64_wrap. Qed.
Print Assumptions C60_wrap_refuted.
Example C60_wrap_ex : 2 ^ 64 < (2 ^ 64 - 1) + 64 /\ ceil_div64 (2 ^ 64 - 1) 64 = 0.
Proof. vm_compute. auto. Qed.
(** What holds: it is exact for all other arguments. *)
Theorem C60_exact_partial : forall a b, 0 <= a -> 0 < b -> a + b <= 2 ^ 64 -> least_multiple a b (ceil_div64 a b).
Proof. exact ceil_div64_ok. Qed.
Print Assumptions C60_exact_partial.
Example C60_exact_ex : 129 + 64 <= 2 ^ 64 /\ ceil_div64 129 64 = 3 /\ ceil_div64 128 64 = 2.
Proof. vm_compute. intuition discriminate. Qed.

(** C61 is false: an empty bp_vector is frozen with the indeterminate m_internal_nodes, here [u] and [v]. *)
Theorem C61_empty_refuted : forall u v hints hints0 flags, 0 <= u < 2 ^ 64 -> 0 <= v < 2 ^ 64 -> u <> v ->
  0 <= flags < 2 ^ 64 -> exists x y,
  bp_build u (bv_range []) hints hints0 = Ok x /\ bp_build v (bv_range []) hints hints0 = Ok y /\
  fst (freeze (layout_of bp_map) (data_of bp_map x) flags) <> fst (freeze (layout_of bp_map) (data_of bp_map y) flags).
Proof. exact bp_empty_image. Qed.
Print Assumptions C61_empty_refuted.
Example C61_empty_ex : 0 <= 5 < 2 ^ 64 /\ 0 <= 6 < 2 ^ 64 /\ 5 <> 6.
Proof. repeat split; discriminate. Qed.
(** What holds: the vector built from one bit or more is the same whatever the member held. *)
Theorem C61_nonempty_partial : forall u v l hints hints0, l <> [] ->
  bp_build u (bv_range l) hints hints0 = bp_build v (bv_range l) hints hints0.
Proof. exact bp_uninit. Qed.
Print Assumptions C61_nonempty_partial.
Example C61_nonempty_ex : exists x, bp_build 9 (bv_range [true; false]) false true = Ok x /\ bp_internal_nodes x = 1.
Proof. eexists. split; vm_compute; reflexivity. Qed.
