(** Property C101: find_close and enclose of a parenthesis that has no counterpart *)
From Verif Require Import Base Spec M_BitVector M_RsBitVector M_Bp M_NdBp S_BitVector S_Bp S_Unmatched P_Unmatched P_UnmatchedNd.

(** C101 for find_close, exactly: a result is the matching parenthesis, or it lies outside the vector, in the padding of
    the last word, in the block of position p + 1. A result inside the vector is always right. *)
Theorem C101_find_close_partial : forall f uninit h h0 l, zlen l < 2 ^ 31 -> prefix_ok l ->
  exists bp, bp_build uninit (bv_range l) h h0 = Ok bp /\
  forall p r, nth_error l p = Some true ->
  (find_close (loose_shift f) bp (Z.of_nat p) = Ok r <->
   matches l (Z.of_nat p) r \/ (zlen l <= r /\ matches (padded l) (Z.of_nat p) r /\ (Z.of_nat p + 1) / 256 = r / 256)).
Proof. exact find_close_exact. Qed.
Print Assumptions C101_find_close_partial.
Definition C101_seq : list bool := [true; true; false].
Example C101_find_close_ex : prefix_ok C101_seq /\ nth_error C101_seq 1 = Some true /\
  (do bp <- bp_build 0 (bv_range C101_seq) false false; find_close (loose_shift (fun _ _ => 0)) bp 1) = Ok 2.
Proof. split; [apply prefix_ok_check; vm_compute; reflexivity|]. split; vm_compute; reflexivity. Qed.

(** C101 is false for find_close: it returns a position outside the vector for a parenthesis that is never closed *)
Theorem C101_outside_refuted : forall f uninit h h0 l p, zlen l < 2 ^ 31 -> prefix_ok l -> unmatched l p ->
  let r := zlen l + depth l (zlen l) - depth l p - 1 in r < 64 * ((zlen l + 63) / 64) -> (p + 1) / 256 = r / 256 ->
  exists bp, bp_build uninit (bv_range l) h h0 = Ok bp /\ find_close (loose_shift f) bp p = Ok r /\ zlen l <= r.
Proof. exact find_close_outside. Qed.
Print Assumptions C101_outside_refuted.
Example C101_outside_ex : prefix_ok C101_seq /\ unmatched C101_seq 0 /\
  (do bp <- bp_build 0 (bv_range C101_seq) false false; find_close (loose_shift (fun _ _ => 0)) bp 0) = Ok 3 /\ zlen C101_seq = 3.
Proof.
  split; [apply prefix_ok_check; vm_compute; reflexivity|]. split; [apply unmatched_check; [apply Z.le_refl|reflexivity|vm_compute; reflexivity]|].
  split; vm_compute; reflexivity.
Qed.

(** C101 for enclose, exactly: the result is the last parenthesis still open; at depth 0 no call returns *)
Theorem C101_enclose : forall f uninit h h0 l, zlen l < 2 ^ 31 -> prefix_ok l ->
  exists bp, bp_build uninit (bv_range l) h h0 = Ok bp /\
  forall p r, nth_error l p = Some true -> (enclose (loose_shift f) bp (Z.of_nat p) = Ok r <-> still_open l r (Z.of_nat p)).
Proof. exact enclose_exact. Qed.
Print Assumptions C101_enclose.
Definition C101_roots : list bool := [true; false; true; true].
Example C101_enclose_ex : prefix_ok C101_roots /\ nth_error C101_roots 2 = Some true /\ depth C101_roots 2 = 0 /\
  (do bp <- bp_build 0 (bv_range C101_roots) false false; enclose (loose_shift (fun _ _ => 0)) bp 2) = Ub OutOfBounds /\
  (do bp <- bp_build 0 (bv_range C101_roots) false false; enclose (loose_shift (fun _ _ => 0)) bp 3) = Ok 2.
Proof. split; [apply prefix_ok_check; vm_compute; reflexivity|]. repeat split; vm_compute; reflexivity. Qed.

(** C101 is false without assertions: the search leaves the tree at the root, starts again at the left end and finds 2^64-1 *)
Theorem C101_release_refuted : forall f, exists l bp r, zlen l < 2 ^ 31 /\ prefix_ok l /\ unmatched l 0 /\
  nd_bp_build 0 (bv_range l) false false = Ok bp /\ nd_find_close (loose_shift f) bp 0 = Ok r /\ u64 r = 2 ^ 64 - 1.
Proof. exact release_outside. Qed.
Print Assumptions C101_release_refuted.
(** with assertions the same call stops *)
Example C101_release_ex : (do bp <- bp_build 0 (bv_range (repeat true 200)) false false; find_close (loose_shift (fun _ _ => 0)) bp 0) = Ub AssertFailed.
Proof. vm_compute. reflexivity. Qed.

(** C101 for enclose without assertions, exactly: for a root in the first 256 positions the call reads outside an array, for every
    later root the walk up the tree gets to node 0 and never leaves it, however many rounds it is given *)
Theorem C101_release_enclose_refuted : forall f uninit h h0 l, zlen l < 2 ^ 31 -> prefix_ok l ->
  exists bp, nd_bp_build uninit (bv_range l) h h0 = Ok bp /\
  forall p, nth_error l p = Some true -> depth l (Z.of_nat p) = 0 ->
    nd_enclose (loose_shift f) bp (Z.of_nat p) = Ub (if Z.of_nat p <? 256 then OutOfBounds else OutOfFuel) /\
    (256 <= Z.of_nat p -> forall rounds, nd_tree_up_loop rounds false bp (bp_internal_nodes bp + (Z.of_nat p / 256 - 1) / 32) (-1) = Ub OutOfFuel).
Proof. exact release_enclose. Qed.
Print Assumptions C101_release_enclose_refuted.
(** two trees side by side, the second from position 280 on; with assertions the call stops *)
Definition C101_forest : list bool := repeat true 140 ++ repeat false 140 ++ repeat true 3.
Example C101_release_enclose_ex : prefix_ok C101_forest /\ nth_error C101_forest 280 = Some true /\ depth C101_forest 280 = 0 /\
  (do bp <- nd_bp_build 0 (bv_range C101_forest) false false; nd_enclose (loose_shift (fun _ _ => 0)) bp 280) = Ub OutOfFuel /\
  (do bp <- bp_build 0 (bv_range C101_forest) false false; enclose (loose_shift (fun _ _ => 0)) bp 280) = Ub AssertFailed /\
  (do bp <- nd_bp_build 0 (bv_range C101_forest) false false; nd_enclose (loose_shift (fun _ _ => 0)) bp 281) = Ok 280.
Proof. split; [apply prefix_ok_check; vm_compute; reflexivity|]. repeat split; vm_compute; reflexivity. Qed.
