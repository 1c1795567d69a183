(** Property C98: bp_vector queries before and after the constructor of the excess tables *)
From Verif Require Import Base Spec M_BitVector M_RsBitVector M_Bp M_Cartesian M_BpInit S_BitVector S_Bp P_BpInit.

(** C98: once the tables are constructed, the queries are those of the other properties *)
Theorem C98_after_partial : (forall sp bp pos, i_find_close tabs_after sp bp pos = find_close sp bp pos) /\
  (forall sp bp pos, i_find_open tabs_after sp bp pos = find_open sp bp pos) /\ (forall sp bp pos, i_enclose tabs_after sp bp pos = enclose sp bp pos) /\
  (forall cs bp a b, i_excess_rmq tabs_after cs bp a b = excess_rmq cs bp a b) /\ (forall cs bp a b, i_ct_rmq tabs_after cs bp a b = ct_rmq cs bp a b).
Proof. exact after_all. Qed.
Print Assumptions C98_after_partial.
Example C98_after_ex : (do bp <- bp_build 0 (bv_range [true; true; false; false]) true true; i_find_close tabs_after (loose_shift (fun x _ => x)) bp 0) = Ok 3.
Proof. vm_compute. reflexivity. Qed.

(** C98 is false before: no call of find_close, find_open or enclose gives an answer, on any vector *)
Theorem C98_searches_refuted : forall sp bp pos r, i_find_close tabs_before sp bp pos <> Ok r /\ i_find_open tabs_before sp bp pos <> Ok r /\
  i_enclose tabs_before sp bp pos <> Ok r.
Proof. exact before_searches. Qed.
Print Assumptions C98_searches_refuted.
Example C98_searches_ex : (do bp <- bp_build 0 (bv_range [true; true; false; false]) true true; i_find_close tabs_before (loose_shift (fun x _ => x)) bp 0) = Ub OutOfBounds /\
  (do bp <- bp_build 0 (bv_range [true; true; false; false]) true true; find_close (loose_shift (fun x _ => x)) bp 0) = Ok 3.
Proof. vm_compute. auto. Qed.

(** C98 is false before: excess_rmq on a range inside a word gives its left end *)
Theorem C98_rmq_refuted : forall cs uninit h h0 l, zlen l < 2 ^ 31 -> prefix_ok l -> exists bp, bp_build uninit (bv_range l) h h0 = Ok bp /\
  forall a b, 0 <= a <= b -> b <= zlen l -> a / 64 = (b - 1) / 64 -> i_excess_rmq tabs_before cs bp a b = Ok (a, depth l a).
Proof. exact before_rmq. Qed.
Print Assumptions C98_rmq_refuted.
Definition C98_gr : growth := fun c _ => 2 * c.
(** a cartesian_tree of 1, 2, 3 then says that the least element is the last one *)
Example C98_rmq_ex : 1 / 64 = (4 - 1) / 64 /\ depth [true; true; false; false] 1 = 1 /\ depth [true; true; false; false] 4 = 0 /\
  (do bp <- bp_build 0 (bv_range [true; true; false; false]) true true; i_excess_rmq tabs_before true bp 1 4) = Ok (1, 1) /\
  (do ct <- ct_build C98_gr 0 Z.ltb 0 [1; 2; 3]; i_ct_rmq tabs_before true ct 0 2) = Ok 2 /\
  (do ct <- ct_build C98_gr 0 Z.ltb 0 [1; 2; 3]; ct_rmq true ct 0 2) = Ok 0.
Proof. vm_compute. auto 10. Qed.
