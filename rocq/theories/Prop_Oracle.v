(** C69, continued: the oracles that sample their questions accept exactly the right answers to these; test_darray.cpp
    and the elias_fano enumeration. *)
From Verif Require Import Base Spec Lib M_Broadword M_BitVector M_RsBitVector M_Darray M_EliasFano M_Bp M_Cartesian M_Topk M_Tests.
From Verif Require Import S_BitVector S_EliasFano S_Bp S_Cartesian S_Topk P_Cartesian P_Topk P_Oracle2 P_Oracle3 Prop_Tests.

(** test_bp_vector_rmq.cpp; excess_rmq and the minima it uses may be anything, the rank structure below them is right *)
Theorem C69_excess_rmq : forall cs rands h h0 l bp, zlen l < 2 ^ 31 -> rs_build (bv_range l) h h0 = Ok (bp_rs bp) ->
  test_bp_rmq cs rands l bp = Ok true <->
  forall a b, (a = 1 \/ a = 8 \/ a = 64 \/ a = 8192 \/ a = zlen l \/ exists r, In r rands /\ a = u64 r mod zlen l) ->
    a <= b -> b < zlen l \/ b = a /\ a = zlen l /\ 0 < a -> exists p e, excess_rmq cs bp a b = Ok (p, e) /\ leftmost_min_depth l a b p.
Proof. exact excess_rmq_iff. Qed.
Print Assumptions C69_excess_rmq.
Definition C69_rs : rs_bit_vector := match rs_build (bv_range C68_p) false false with Ok rs => rs | Ub _ => mk_rs (mk_bv 0 []) [] [] [] end.
Example C69_excess_rmq_ex : let bp := mk_bp C69_rs 0 [] [] in zlen C68_p < 2 ^ 31 /\
  rs_build (bv_range C68_p) false false = Ok (bp_rs bp) /\ test_bp_rmq true [3; 7] C68_p bp = Ok true.
Proof. vm_compute. auto. Qed.

(** test_cartesian_tree.cpp *)
Theorem C69_cartesian : forall T (comp : T -> T -> bool) cs rands v tree, strict_weak_order comp ->
  test_ct_rmq cs comp rands v tree = Ok true <->
  ct_size tree = zlen v /\ zlen v <> 1 /\
  forall a b, (a = 0%nat \/ a = 1%nat \/ leftmost_min comp v 0 (length v - 1) a \/ exists r, In r rands /\ Z.of_nat a = u64 r mod zlen v) ->
    (a <= b < length v)%nat -> exists m, ct_rmq cs tree (Z.of_nat a) (Z.of_nat b) = Ok (Z.of_nat m) /\ leftmost_min comp v a b m.
Proof. exact cartesian_iff. Qed.
Print Assumptions C69_cartesian.
Example C69_cartesian_ex : strict_weak_order Z.ltb /\
  (do ct <- ct_build C68_grow 0 Z.ltb 0 [4; 9; 2; 9]; test_ct_rmq true Z.ltb [3] [40; 90; 20; 90] ct) = Ok true /\
  (do ct <- ct_build C68_grow 0 Z.ltb 0 [4; 9; 2; 9]; test_ct_rmq true Z.ltb [3] [4; 2; 9; 9] ct) = Ok false.
Proof. split; [exact ltb_order|]. vm_compute. auto. Qed.

(** test_topk_vector.cpp; the values need only be equal in the sense of == *)
Theorem C69_topk : forall T cs (lt eq : T -> T -> bool) h v (tk : topk_vector T) rands, strict_weak_order lt -> eq_agrees lt eq ->
  test_topk cs lt eq h v tk rands = Ok true <->
  tk_size tk = zlen v /\
  forall r1 r2 a b r, In (r1, r2) rands -> v <> [] -> Z.of_nat a = u64 r1 mod zlen v -> Z.of_nat b = Z.of_nat a + u64 r2 mod (zlen v - Z.of_nat a) ->
    ranking lt v a b r -> exists found, topk cs h tk (Z.of_nat a) (Z.of_nat b) 10 = Ok found /\
      Forall2 (fun e f => exists x, f = Some (x, snd e) /\ eq (fst e) x = true) (firstn 10 r) found.
Proof. exact topk_iff. Qed.
Print Assumptions C69_topk.
Example C69_topk_ex : let h := sorted_heap (value_index_comparator Z.ltb Z.eqb) in
  strict_weak_order Z.ltb /\ eq_agrees Z.ltb Z.eqb /\
  (do tk <- tk_build C68_grow 0 Z.ltb [4; 9; 2; 9]; test_topk true Z.ltb Z.eqb h [4; 9; 2; 9] tk [(1, 2)]) = Ok true /\
  (do tk <- tk_build C68_grow 0 Z.ltb [4; 9; 2; 9]; test_topk true Z.ltb Z.eqb h [4; 9; 3; 9] tk [(1, 2)]) = Ok false.
Proof. cbv zeta. split; [exact ltb_order|]. split; [exact eqb_agrees|]. vm_compute. auto. Qed.

(** test_darray.cpp; the structures and the bits they refer to may be anything *)
Theorem C69_darray : forall bv d1 d0 l, test_darray_of bv d1 d0 l = Ok true <->
  da_positions d1 = Z.of_nat (count true l) /\ da_positions d0 = Z.of_nat (count false l) /\
  (forall k q, is_select true l k q -> darray1_select d1 bv (Z.of_nat k) = Ok (Z.of_nat q)) /\
  (forall k q, is_select false l k q -> darray0_select d0 bv (Z.of_nat k) = Ok (Z.of_nat q)).
Proof. exact darray_iff. Qed.
Print Assumptions C69_darray.
Example C69_darray_ex : let bv := bv_range [true; false; true] in
  (do d1 <- darray_build false bv; do d0 <- darray_build true bv; test_darray_of bv d1 d0 [true; false; true]) = Ok true /\
  (do d1 <- darray_build false bv; do d0 <- darray_build true bv; test_darray_of bv d1 d0 [true; true; false]) = Ok false.
Proof. vm_compute. auto. Qed.

(** test_delta compares delta with select, which may be wrong. *)
Theorem C69_delta : forall ef, test_delta ef = Ok true <->
  forall j, 0 <= j < ef_num_ones ef -> exists x y, ef_select ef j = Ok x /\
    (if j =? 0 then y = 0 else ef_select ef (j - 1) = Ok y) /\ ef_delta ef j = Ok (sub64 x y).
Proof. exact delta_iff. Qed.
Print Assumptions C69_delta.
Example C69_delta_ex : (do b <- push_each C68_grow (mk_builder [] 0 0 0 None) [true; false; true];
   do ef <- ef_of_bits C68_grow b true; test_delta ef) = Ok true.
Proof. vm_compute. reflexivity. Qed.

(** [se_run] is the positions that so many calls of next() return. *)
Theorem C69_select_enumeration : forall v ef, test_select_enumeration v ef = Ok true <->
  exists it xs, se_new ef 0 = Ok it /\ se_run ef it (count true v) = Ok xs /\
    forall k q, is_select true v k q -> nth_error xs k = Some (Z.of_nat q).
Proof. exact select_enumeration_iff. Qed.
Print Assumptions C69_select_enumeration.
Example C69_elias_fano_ex : exists b ef, push_each C68_grow (mk_builder [] 0 0 0 None) [true; false; true] = Ok b /\
  ef_of_bits C68_grow b true = Ok ef /\ test_delta ef = Ok true /\ test_select_enumeration [true; false; true] ef = Ok true /\
  test_select_enumeration [true; true; false] ef = Ok false.
Proof. do 2 eexists. split; [vm_compute; reflexivity|]. split; [vm_compute; reflexivity|]. vm_compute. auto. Qed.
