(** C102: cartesian_tree with a comparator that need not be an order. *)
From Verif Require Import Base Spec M_BitVector M_RsBitVector M_Bp M_Cartesian S_Cartesian S_AnyOrder P_Cartesian P_AnyOrder.

(** C102: whatever the comparator answers, the tree is built and every range has one answer, inside the range *)
Theorem C102_any : forall T (comp : T -> T -> bool) gr uninit expected v, 2 * zlen v + 2 < 2 ^ 31 ->
  exists ct, ct_build gr uninit comp expected v = Ok ct /\ ct_size ct = zlen v /\
  forall a b, (a <= b)%nat -> (b < length v)%nat ->
    exists m, (a <= m <= b)%nat /\ ct_rmq true ct (Z.of_nat a) (Z.of_nat b) = Ok (Z.of_nat m) /\ forall k, winner comp v a b k <-> k = m.
Proof. exact @any_winner. Qed.
Print Assumptions C102_any.
Definition C102_gr : growth := fun c _ => 2 * c.
(** scissors, paper and stone: 1 beats 0, 2 beats 1, 0 beats 2 *)
Definition C102_beats (x y : Z) : bool := x =? (y + 1) mod 3.
Example C102_any_ex : 2 * zlen [0; 1; 2; 0; 0; 2; 1] + 2 < 2 ^ 31 /\ C102_beats 1 0 = true /\ C102_beats 2 1 = true /\ C102_beats 0 2 = true /\
  (do ct <- ct_build C102_gr 0 C102_beats 0 [0; 1; 2; 0; 0; 2; 1];
   do w <- ct_rmq true ct 0 3; do x <- ct_rmq true ct 0 5; do y <- ct_rmq true ct 3 6; do z <- ct_rmq true ct 4 5; Ok (w, x, y, z)) = Ok (3, 3, 3, 4) /\
  winner C102_beats [0; 1; 2] 0 2 2.
Proof.
  split; [reflexivity|]. split; [reflexivity|]. split; [reflexivity|]. split; [reflexivity|]. split; [vm_compute; reflexivity|].
  apply (takes_place _ _ 0 1 1 1 2); [|reflexivity|reflexivity|reflexivity|constructor].
  apply (takes_place _ _ 0 0 0 0 1); [constructor|reflexivity|reflexivity|reflexivity|constructor].
Qed.

(** C102: an element that is before all earlier ones of the range, with no later one before it, is the answer, whatever the comparator says of
    the other pairs *)
Theorem C102_beats_range : forall T (comp : T -> T -> bool) gr uninit expected v ct a b m, 2 * zlen v + 2 < 2 ^ 31 ->
  ct_build gr uninit comp expected v = Ok ct -> (a <= b)%nat -> (b < length v)%nat ->
  beats_range comp v a b m -> ct_rmq true ct (Z.of_nat a) (Z.of_nat b) = Ok (Z.of_nat m).
Proof. exact @any_beats. Qed.
Print Assumptions C102_beats_range.
Example C102_beats_ex : beats_range C102_beats [2; 1; 1; 2; 2; 1; 0] 1 5 3 /\
  (do ct <- ct_build C102_gr 0 C102_beats 0 [2; 1; 1; 2; 2; 1; 0]; ct_rmq true ct 1 5) = Ok 3.
Proof.
  split; [|vm_compute; reflexivity]. split; [lia|]. exists 2. split; [reflexivity|].
  split; intros j y Hj; [destruct j as [|[|[|j]]]|destruct j as [|[|[|[|[|[|j]]]]]]]; try lia; intros E; inversion E; reflexivity.
Qed.

(** C102: with less_equal for less, which the C++ requirements on a comparator rule out, rmq returns the last minimum instead of the first *)
Theorem C102_less_equal : forall T (comp : T -> T -> bool) gr uninit expected v, strict_weak_order comp -> 2 * zlen v + 2 < 2 ^ 31 ->
  exists ct, ct_build gr uninit (not_after comp) expected v = Ok ct /\
  forall a b, (a <= b)%nat -> (b < length v)%nat ->
    exists m, ct_rmq true ct (Z.of_nat a) (Z.of_nat b) = Ok (Z.of_nat m) /\ rightmost_min comp v a b m.
Proof. exact @any_less_equal. Qed.
Print Assumptions C102_less_equal.
Example C102_less_equal_ex : strict_weak_order Z.ltb /\ not_after Z.ltb 2 2 = true /\
  (do ct <- ct_build C102_gr 0 (not_after Z.ltb) 0 [5; 2; 7; 2; 2; 9]; ct_rmq true ct 0 5) = Ok 4 /\
  (do ct <- ct_build C102_gr 0 Z.ltb 0 [5; 2; 7; 2; 2; 9]; ct_rmq true ct 0 5) = Ok 1.
Proof. split; [exact ltb_order|]. vm_compute. auto. Qed.

(** C102: a range of elements among which the comparator is an order is answered as in C34, whatever it says of elements outside the range *)
Theorem C102_local : forall T (comp : T -> T -> bool) gr uninit expected v ct a b, 2 * zlen v + 2 < 2 ^ 31 ->
  ct_build gr uninit comp expected v = Ok ct -> (a <= b)%nat -> (b < length v)%nat ->
  order_on (fun x => exists i, (a <= i <= b)%nat /\ nth_error v i = Some x) comp ->
  exists m, ct_rmq true ct (Z.of_nat a) (Z.of_nat b) = Ok (Z.of_nat m) /\ leftmost_min comp v a b m.
Proof. exact @any_local. Qed.
Print Assumptions C102_local.
Definition C102_floats : list (option Z) := [Some 5; None; Some 7; Some 3; Some 4; None; Some 1].
Example C102_local_ex : order_on (fun x => exists i, (2 <= i <= 4)%nat /\ nth_error C102_floats i = Some x) float_less /\
  float_less (Some 5) None = false /\ float_less None (Some 3) = false /\ float_less (Some 3) (Some 5) = true.
Proof.
  split; [|auto]. apply float_order. intros x (i & Hi & E) ->. destruct i as [|[|[|[|[|i]]]]]; try lia; discriminate.
Qed.

(** C102 for floating point elements: ranges without a value that is not a number are answered right *)
Theorem C102_float_partial : forall gr uninit expected v ct a b, 2 * zlen v + 2 < 2 ^ 31 ->
  ct_build gr uninit float_less expected v = Ok ct -> (a <= b)%nat -> (b < length v)%nat ->
  (forall i, (a <= i <= b)%nat -> nth_error v i <> Some None) ->
  exists m, ct_rmq true ct (Z.of_nat a) (Z.of_nat b) = Ok (Z.of_nat m) /\ leftmost_min float_less v a b m.
Proof. exact any_float. Qed.
Print Assumptions C102_float_partial.
Example C102_float_ex : (forall i, (2 <= i <= 4)%nat -> nth_error C102_floats i <> Some None) /\
  (do ct <- ct_build C102_gr 0 float_less 0 C102_floats; ct_rmq true ct 2 4) = Ok 3.
Proof. split; [|vm_compute; reflexivity]. intros i Hi. destruct i as [|[|[|[|[|i]]]]]; try lia; discriminate. Qed.

(** C102: in other ranges a smaller element may be missed, since what is not a number shields the elements before it *)
Theorem C102_nan_refuted : exists v ct, ct_build C102_gr 0 float_less 0 v = Ok ct /\
  ct_rmq true ct 0 2 = Ok 0 /\ nth_error v 0 = Some (Some 5) /\ nth_error v 2 = Some (Some 3) /\ float_less (Some 3) (Some 5) = true.
Proof. exact nan_shields. Qed.
Print Assumptions C102_nan_refuted.
