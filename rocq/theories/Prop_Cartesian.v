(** C34, and C43 for cartesian_tree. *)
From Verif Require Import Base Spec M_BitVector M_RsBitVector M_Bp M_Cartesian S_Cartesian P_Cartesian.

(** C34, where char is signed. [expected] is the argument of the builder, 0 for the constructors
    from a range. *)
Theorem C34_rmq : forall T (comp : T -> T -> bool) gr uninit expected v,
  strict_weak_order comp -> 2 * zlen v + 2 < 2 ^ 31 ->
  exists ct, ct_build gr uninit comp expected v = Ok ct /\ ct_size ct = zlen v /\
  forall a b, (a <= b)%nat -> (b < length v)%nat ->
    exists m, ct_rmq true ct (Z.of_nat a) (Z.of_nat b) = Ok (Z.of_nat m) /\ leftmost_min comp v a b m.
Proof. exact @cartesian_rmq. Qed.
Print Assumptions C34_rmq.
(** the order compares first components only, so equal keys are told apart by their position *)
Definition key_order (x y : Z * Z) : bool := fst x <? fst y.
Definition C34_v : list (Z * Z) := [(3, 0); (5, 1); (2, 2); (2, 3); (8, 4); (1, 5); (9, 6); (1, 7); (4, 8)].
Example C34_ex : strict_weak_order key_order /\ 2 * zlen C34_v + 2 < 2 ^ 31 /\
  (do ct <- ct_build (fun c _ => 2 * c) 0 key_order 4 C34_v;
   do x <- ct_rmq true ct 0 4; do y <- ct_rmq true ct 3 8; do z <- ct_rmq true ct 6 8; do t <- ct_rmq true ct 1 1;
   Ok (ct_size ct, x, y, z, t)) = Ok (9, 2, 5, 7, 1).
Proof.
  split; [|split; [reflexivity|vm_compute; reflexivity]]. destruct ltb_order as (I & T & N).
  split; [intros; apply I|]. split; [intros ? ? ?; apply T|intros ? ? ?; apply N].
Qed.

(** C43: a default cartesian_tree claims 2^64 - 1 elements *)
Theorem C43_cartesian_refuted : forall n, ct_size (ct_default n) = 2 ^ 64 - 1.
Proof. exact ct_default_size. Qed.
Print Assumptions C43_cartesian_refuted.
