(** C107: lists built from ranges of integers of other types. *)
From Verif Require Import Base M_BitVector M_EliasFano M_Gamma M_Util M_Ranges S_Ranges P_Ranges.

(** As long as the elements can be added to, a range of any integer type gives the object the 64-bit values give; without
    negative elements these are the elements themselves. Missing: the elements of [C107_uint32_refuted] and of
    [C107_signed_refuted]. *)
Theorem C107_exact_partial : forall t gr ints, integer_type t -> Forall (value_of t) ints ->
  (Forall (adds t 1) ints -> gv_build_t gr t ints = gv_build gr (map u64 ints) /\ efc_build_t gr t ints = efc_build gr (map u64 ints)) /\
  (Forall (adds t 2) ints -> gb_build_t gr t ints = gb_build gr (map u64 ints)) /\
  efl_build_t gr ints = efl_build gr (map u64 ints).
Proof. exact lists_exact. Qed.
Print Assumptions C107_exact_partial.
Definition C107_grow : growth := fun _ n => n.
Example C107_ex :
  integer_type uint32 /\ Forall (value_of uint32) [7; 2 ^ 32 - 3; 0] /\ Forall (adds uint32 2) [7; 2 ^ 32 - 3; 0] /\
  (do g <- gv_build_t C107_grow uint32 [7; 2 ^ 32 - 3; 0]; gv_get g 1) = Ok (2 ^ 32 - 3).
Proof.
  split; [right; right; left; reflexivity|]. split; [|split; [|vm_compute; reflexivity]].
  - apply Forall_cons; [|apply Forall_cons; [|apply Forall_cons; [|apply Forall_nil]]]; vm_compute; split; congruence.
  - apply Forall_cons; [|apply Forall_cons; [|apply Forall_cons; [|apply Forall_nil]]]; right; reflexivity.
Qed.

Theorem C107_nonnegative : forall t ints, integer_type t -> Forall (value_of t) ints -> Forall (fun x => 0 <= x) ints -> map u64 ints = ints.
Proof. exact u64_nonneg. Qed.
Print Assumptions C107_nonnegative.
Example C107_nonnegative_ex : integer_type int32 /\ map u64 [2 ^ 31 - 1; 5] = [2 ^ 31 - 1; 5] /\ map u64 [-2] = [2 ^ 64 - 2].
Proof. split; [right; right; left; reflexivity|]. split; reflexivity. Qed.

(** The types for which every element can be added to: those narrower than int, and the unsigned 64-bit ones. *)
Theorem C107_types : forall t k x, integer_type t -> it_bits t < 32 \/ (it_bits t = 64 /\ it_signed t = false) -> adds t k x.
Proof. exact adds_always. Qed.
Print Assumptions C107_types.
Example C107_types_ex : adds (mk_ity 8 false) 1 255 /\ ~ adds uint32 1 (2 ^ 32 - 1) /\
  (do g <- gv_build_t C107_grow (mk_ity 8 false) [255]; gv_get g 0) = Ok 255.
Proof.
  split; [left; discriminate|]. split; [|vm_compute; reflexivity]. intros [H|H]; [apply H; reflexivity|discriminate].
Qed.

(** The greatest uint32_t is no element: one more is zero in 32 bits, and zero has no highest bit. *)
Theorem C107_uint32_refuted : forall gr pre post, zlen pre < 2 ^ 57 ->
  (Forall (fun x => 0 <= x < 2 ^ 32 - 1) pre ->
     gv_build_t gr uint32 (pre ++ (2 ^ 32 - 1) :: post) = Ub AssertFailed /\ efc_build_t gr uint32 (pre ++ (2 ^ 32 - 1) :: post) = Ub AssertFailed) /\
  (Forall (fun x => 0 <= x < 2 ^ 32 - 2) pre ->
     gb_build_t gr uint32 (pre ++ (2 ^ 32 - 2) :: post) = Ub AssertFailed /\ gb_build_t gr uint32 (pre ++ (2 ^ 32 - 1) :: post) = Ub AssertFailed).
Proof. exact uint32_last. Qed.
Print Assumptions C107_uint32_refuted.
Example C107_uint32_ex :
  gv_build_t C107_grow uint32 [3; 2 ^ 32 - 1; 4] = Ub AssertFailed /\
  (do g <- gv_build C107_grow [3; 2 ^ 32 - 1; 4]; gv_get g 1) = Ok (2 ^ 32 - 1).
Proof. split; vm_compute; reflexivity. Qed.

(** The greatest int and the greatest long overflow. *)
Theorem C107_signed_refuted : forall gr t pre post, t = int32 \/ t = int64 -> zlen pre < 2 ^ 57 -> let m := 2 ^ (it_bits t - 1) - 1 in
  (Forall (fun x => 0 <= x < m) pre ->
     gv_build_t gr t (pre ++ m :: post) = Ub SignedOverflow /\ efc_build_t gr t (pre ++ m :: post) = Ub SignedOverflow) /\
  (Forall (fun x => 0 <= x < m - 1) pre ->
     gb_build_t gr t (pre ++ (m - 1) :: post) = Ub SignedOverflow /\ gb_build_t gr t (pre ++ m :: post) = Ub SignedOverflow).
Proof. exact signed_last. Qed.
Print Assumptions C107_signed_refuted.
Example C107_signed_ex :
  gv_build_t C107_grow int32 [1; 2147483647] = Ub SignedOverflow /\ gb_build_t C107_grow int64 [2 ^ 63 - 2] = Ub SignedOverflow /\
  (do g <- gv_build C107_grow [1; 2147483647]; gv_get g 1) = Ok 2147483647.
Proof. split; [|split]; vm_compute; reflexivity. Qed.

(** Negative elements: -1 fails the assertion of msb, the others are accepted and come back as their 64-bit patterns. *)
Theorem C107_minus_one : forall gr t pre post, integer_type t -> it_signed t = true -> zlen pre < 2 ^ 57 ->
  Forall (fun x => 0 <= x /\ value_of t x /\ adds t 1 x) pre ->
  gv_build_t gr t (pre ++ (-1) :: post) = Ub AssertFailed /\ efc_build_t gr t (pre ++ (-1) :: post) = Ub AssertFailed.
Proof. exact minus_one. Qed.
Print Assumptions C107_minus_one.
Theorem C107_negative : forall gr t ints, integer_type t -> it_signed t = true -> Forall (value_of t) ints -> zlen ints < 2 ^ 57 ->
  (Forall (adds t 1) ints -> Forall (fun x => x <> -1) ints -> exists g, gv_build_t gr t ints = Ok g /\ gamma_size g = zlen ints /\
     forall i x, nth_error ints i = Some x -> gv_get g (Z.of_nat i) = Ok (x mod 2 ^ 64)).
Proof. exact negative_back. Qed.
Print Assumptions C107_negative.
Example C107_negative_ex :
  gv_build_t C107_grow int32 [4; -1] = Ub AssertFailed /\
  Forall (value_of int32) [4; -2] /\ Forall (adds int32 1) [4; -2] /\
  (do g <- gv_build_t C107_grow int32 [4; -2]; gv_get g 1) = Ok (2 ^ 64 - 2).
Proof.
  split; [vm_compute; reflexivity|]. split; [|split; [|vm_compute; reflexivity]].
  - apply Forall_cons; [|apply Forall_cons; [|apply Forall_nil]]; vm_compute; split; congruence.
  - apply Forall_cons; [|apply Forall_cons; [|apply Forall_nil]]; right; reflexivity.
Qed.

(** nibble_vector: a negative element passes the assertion "below 16" and is then shifted. *)
Theorem C107_nibbles : forall from, (Forall (fun x => 0 <= x) from -> nv_build_t from = nv_build from) /\
  (forall pre x post, Forall (fun x => 0 <= x < 16) pre -> x < 0 -> from = pre ++ x :: post -> nv_build_t from = Ub BadShift).
Proof. exact nibbles. Qed.
Print Assumptions C107_nibbles.
Example C107_nibbles_ex : nv_build_t [3; -1; 2] = Ub BadShift /\ nv_build_t [3; 16] = Ub AssertFailed /\ nv_build_t [3; 1] = Ok (mk_nv 2 [19]).
Proof. split; [|split]; reflexivity. Qed.
