(** C68: the checks of the project's own test programs. C69: what those checks establish. *)
From Verif Require Import Base Spec M_Broadword M_BitVector M_RsBitVector M_Darray M_EliasFano M_Gamma M_Bp M_Cartesian M_Topk M_Tests.
From Verif Require Import S_Tests S_Bp S_Cartesian S_Topk S_Gamma.
From Verif Require Import P_Cartesian P_Topk P_Tests1 P_Tests2 P_Tests3 P_Tests4 P_Tests5 P_Oracle.

(** ** test_bit_vector.cpp *)
Theorem C68_bit_vector : forall gr v, test_push_back gr v = Ok true /\ test_set gr v = Ok true /\ test_bvb_reverse gr v = Ok true.
Proof. exact test_bits. Qed.
Print Assumptions C68_bit_vector.
Definition C68_grow : growth := fun c n => Z.max (2 * c) n.
Definition C68_v : list bool := repeat true 3 ++ repeat false 70 ++ [true; false; true].
Example C68_bit_vector_ex : test_bvb_reverse C68_grow C68_v = Ok true /\
  test_equal_bits C68_v 76 (bv_get (bv_range (rev C68_v))) = Ok false.
Proof. vm_compute. auto. Qed.

(** [loose_shift f]: a shift by 64 gives some value and is not undefined *)
Theorem C68_ints : forall gr f ints, Forall int_ok ints ->
  test_ints gr (loose_shift f) ints = Ok true /\ test_set_ints (loose_shift f) ints = Ok true.
Proof. exact test_ints_loose. Qed.
Print Assumptions C68_ints.
Example C68_ints_all_ex : Forall int_ok test_ints_values.
Proof. exact values_ok. Qed.
Theorem C68_ints_small : forall gr ints, Forall int_ok ints -> Forall (fun i => i < 2 ^ 63) ints ->
  test_ints gr strict_shift ints = Ok true /\ test_set_ints strict_shift ints = Ok true.
Proof. exact test_ints_small. Qed.
Print Assumptions C68_ints_small.
Example C68_ints_ex : Forall int_ok test_ints_values /\ Forall int_ok [5; 2 ^ 62; 1] /\ Forall (fun i => i < 2 ^ 63) [5; 2 ^ 62; 1] /\
  test_set_ints strict_shift [5; 2 ^ 62; 1] = Ok true.
Proof. split; [exact values_ok|]. repeat split; try (repeat constructor; fail); repeat constructor. Qed.

(** The integers of the test itself make get_bits shift by 64. *)
Theorem C68_ints_refuted : forall gr, test_ints gr strict_shift test_ints_values = Ub BadShift /\
  test_set_ints strict_shift test_ints_values = Ub BadShift.
Proof. exact values_strict. Qed.
Print Assumptions C68_ints_refuted.

Theorem C68_enumerators : forall v, v <> [] -> (forall rands, test_bit_enumerator v rands = Ok true) /\ test_unary v = Ok true.
Proof. exact test_enumerators. Qed.
Print Assumptions C68_enumerators.
Example C68_enumerators_ex : C68_v <> [] /\ test_bit_enumerator C68_v [1; 30; 3] = Ok true.
Proof. split; [discriminate|]. vm_compute. auto. Qed.

(** The last block reads [v[v.size()]] as soon as the vector ends with a zero. *)
Theorem C68_skip0_refuted : forall v, test_unary_skip0 (v ++ [true]) = Ok true /\ test_unary_skip0 (v ++ [false]) = Ub OutOfBounds.
Proof. exact test_unary_skip0_ok. Qed.
Print Assumptions C68_skip0_refuted.
Example C68_skip0_ex : test_unary_skip0 [false; true; false; false; true] = Ok true /\ test_unary_skip0 [true; false] = Ub OutOfBounds.
Proof. vm_compute. auto. Qed.

(** ** test_rs_bit_vector.cpp, test_darray.cpp, test_elias_fano.cpp *)
Theorem C68_rank_select : forall l h h0, exists rs, rs_build (bv_range l) h h0 = Ok rs /\
  test_equal_bits l (bv_size (rs_bv rs)) (bv_get (rs_bv rs)) = Ok true /\ test_rank_select l rs = Ok true.
Proof. exact test_rs. Qed.
Print Assumptions C68_rank_select.
Example C68_rank_select_ex : (do rs <- rs_build (bv_range C68_v) true false; test_rank_select C68_v rs) = Ok true /\
  (do rs <- rs_build (bv_range C68_v) true false; test_rank_select (rev C68_v) rs) = Ok false.
Proof. vm_compute. auto. Qed.

Theorem C68_darray : forall l, zlen l < 2 ^ 63 -> test_darray l = Ok true.
Proof. exact test_darray_ok. Qed.
Print Assumptions C68_darray.
Example C68_darray_ex : zlen C68_v < 2 ^ 63 /\ test_darray C68_v = Ok true.
Proof. vm_compute. auto. Qed.

Theorem C68_elias_fano : forall gr b l idx, bv_of_builder b = Ok (bv_range l) -> zlen l < 2 ^ 61 -> exists ef,
  ef_of_bits gr b idx = Ok ef /\ ef_num_ones ef = Z.of_nat (count true l) /\ test_delta ef = Ok true /\
  test_select_enumeration l ef = Ok true /\
  (idx = true -> test_equal_bits l (ef_size ef) (ef_get ef) = Ok true /\
     test_rank_select_of true (ef_rank ef) (ef_select ef) (ef_predecessor1 ef) (ef_successor1 ef) l = Ok true).
Proof. exact test_ef_range. Qed.
Print Assumptions C68_elias_fano.
Example C68_elias_fano_ex : exists b, push_each C68_grow (mk_builder [] 0 0 0 None) C68_v = Ok b /\
  bv_of_builder b = Ok (bv_range C68_v) /\
  (do ef <- ef_of_bits C68_grow b true; test_select_enumeration C68_v ef) = Ok true.
Proof. eexists. split; [vm_compute; reflexivity|]. vm_compute. auto. Qed.

(** ** the lists *)
Theorem C68_gamma_vector : forall gr ints, Forall (fun x => 0 <= x < 2 ^ 64 - 1) ints -> zlen ints < 2 ^ 57 -> exists g,
  gv_build gr ints = Ok g /\ test_list (gamma_size g) (gv_get g) ints = Ok true /\
  exists e, gv_enum_new g 0 = Ok e /\ forall rands, reposition_loop Z.eqb (gv_enum_new g) (gv_enum_next g) ints e 0 rands = Ok true.
Proof. exact test_gv_ok. Qed.
Print Assumptions C68_gamma_vector.
Definition C68_l : list Z := [7; 0; 2 ^ 40; 1; 0; 900].
Example C68_gamma_vector_ex : Forall (fun x => 0 <= x < 2 ^ 64 - 1) C68_l /\ zlen C68_l < 2 ^ 57 /\
  (do g <- gv_build C68_grow C68_l; do e <- gv_enum_new g 0; reposition_loop Z.eqb (gv_enum_new g) (gv_enum_next g) C68_l e 0 [1; 2]) = Ok true.
Proof. split; [repeat constructor; discriminate|]. vm_compute. auto. Qed.
Theorem C68_gamma_bit_vector : forall gr ints, Forall (fun x => 0 <= x < 2 ^ 64 - 2) ints -> zlen ints < 2 ^ 57 -> exists g,
  gb_build gr ints = Ok g /\ test_list (gamma_size g) (gb_get g) ints = Ok true /\
  exists e, gb_enum_new g 0 = Ok e /\ forall rands, reposition_loop Z.eqb (gb_enum_new g) (gb_enum_next g) ints e 0 rands = Ok true.
Proof. exact test_gb_ok. Qed.
Print Assumptions C68_gamma_bit_vector.
Example C68_gamma_bit_vector_ex : Forall (fun x => 0 <= x < 2 ^ 64 - 2) C68_l /\ zlen C68_l < 2 ^ 57 /\
  (do g <- gb_build C68_grow C68_l; do e <- gb_enum_new g 0; reposition_loop Z.eqb (gb_enum_new g) (gb_enum_next g) C68_l e 0 [1; 2]) = Ok true.
Proof. split; [repeat constructor; discriminate|]. vm_compute. auto. Qed.
Theorem C68_compressed_list : forall gr ints, Forall (fun x => 0 <= x < 2 ^ 64 - 1) ints -> zlen ints < 2 ^ 57 -> exists c,
  efc_build gr ints = Ok c /\ test_list (efc_size c) (efc_get c) ints = Ok true.
Proof. exact test_efc. Qed.
Print Assumptions C68_compressed_list.
Example C68_lists_ex : Forall (fun x => 0 <= x < 2 ^ 64 - 2) C68_l /\
  (do g <- gv_build C68_grow C68_l; do e <- gv_enum_new g 0; reposition_loop Z.eqb (gv_enum_new g) (gv_enum_next g) C68_l e 0 [1; 2]) = Ok true /\
  (do g <- gb_build C68_grow C68_l; test_list (gamma_size g) (gb_get g) C68_l) = Ok true /\
  (do c <- efc_build C68_grow C68_l; test_list (efc_size c) (efc_get c) C68_l) = Ok true.
Proof. split; [repeat constructor; discriminate|]. vm_compute. auto. Qed.

(** ** test_bp_vector.cpp and test_bp_vector_rmq.cpp; [true] as first argument of test_bp_rmq: char is signed *)
Theorem C68_parentheses : forall f uninit h h0 l, zlen l < 2 ^ 31 -> bal l -> exists bp,
  bp_build uninit (bv_range l) h h0 = Ok bp /\ bp_size bp = zlen l /\ test_parentheses (loose_shift f) l bp = Ok true.
Proof. exact test_parentheses_ok. Qed.
Print Assumptions C68_parentheses.
Example C68_parentheses_small_ex : bal [true; true; false; false; true; false] /\
  (do bp <- bp_build 0 (bv_range [true; true; false; false; true; false]) false false;
   test_parentheses strict_shift [true; true; false; false; true; false] bp) = Ok true.
Proof.
  split; [|vm_compute; auto].
  apply (bal_pair [true; false] [true; false]); apply (bal_pair [] []); constructor.
Qed.
Theorem C68_excess_rmq : forall uninit h h0 l, zlen l < 2 ^ 31 -> prefix_ok l ->
  (bal l \/ forall p, 0 <= p <= zlen l -> depth l p < 2 ^ 31 - 64) ->
  exists bp, bp_build uninit (bv_range l) h h0 = Ok bp /\ forall rands, test_bp_rmq true rands l bp = Ok true.
Proof. exact test_bp_rmq_ok. Qed.
Print Assumptions C68_excess_rmq.
Definition C68_p : list bool := [true; true; false; true; true; false; false; false; true; false].
Example C68_parentheses_ex : bal C68_p /\
  (do bp <- bp_build 0 (bv_range C68_p) false false; test_parentheses strict_shift C68_p bp) = Ok true /\
  (do bp <- bp_build 0 (bv_range C68_p) false false; test_bp_rmq true [3; 7] C68_p bp) = Ok true.
Proof.
  split; [|vm_compute; auto].
  apply (bal_pair [true; false; true; true; false; false] [true; false]).
  - apply (bal_pair [] [true; true; false; false]); [constructor|]. apply (bal_pair [true; false] []); [|constructor].
    apply (bal_pair [] []); constructor.
  - apply (bal_pair [] []); constructor.
Qed.

(** The test with 512 nested parentheses makes bp_vector shift by 64. *)
Theorem C68_parentheses_refuted : let l := repeat true 256 ++ repeat false 256 in
  (do bp <- bp_build 0 (bv_range l) false false; test_parentheses strict_shift l bp) = Ub BadShift.
Proof. exact test_parentheses_strict. Qed.
Print Assumptions C68_parentheses_refuted.
(** Where char is unsigned the test of excess_rmq can fail. *)
Theorem C68_excess_rmq_refuted : exists l rands, bal l /\
  (do bp <- bp_build 0 (bv_range l) false false; test_bp_rmq false rands l bp) = Ok false.
Proof. exact test_bp_rmq_unsigned. Qed.
Print Assumptions C68_excess_rmq_refuted.

(** ** test_cartesian_tree.cpp and test_topk_vector.cpp *)

(** The second entry of the test's list of positions, 1, is one too large for a vector of size 1. *)
Theorem C68_cartesian_refuted : forall T (comp : T -> T -> bool) gr uninit expected v, strict_weak_order comp -> 2 * zlen v + 2 < 2 ^ 31 ->
  exists ct, ct_build gr uninit comp expected v = Ok ct /\ forall rands,
    test_ct_rmq true comp rands v ct = if zlen v =? 1 then Ub OutOfBounds else Ok true.
Proof. exact test_ct_ok. Qed.
Print Assumptions C68_cartesian_refuted.
Definition C68_c : list Z := [4; 9; 2; 9; 7; 4; 1; 1].
Example C68_cartesian_ex : strict_weak_order Z.ltb /\ 2 * zlen C68_c + 2 < 2 ^ 31 /\
  (do ct <- ct_build C68_grow 0 Z.ltb 0 C68_c; test_ct_rmq true Z.ltb [3; 6] C68_c ct) = Ok true /\
  (do ct <- ct_build C68_grow 0 Z.ltb 0 [5]; test_ct_rmq true Z.ltb [] [5] ct) = Ub OutOfBounds.
Proof. split; [exact ltb_order|]. vm_compute. auto. Qed.

Theorem C68_topk : forall T (lt eq : T -> T -> bool) gr uninit (v : list T) h, strict_weak_order lt -> eq_agrees lt eq ->
  push_heap_ok (value_index_comparator lt eq) (push_heap h) -> pop_heap_ok (value_index_comparator lt eq) (pop_heap h) ->
  2 * zlen v + 2 < 2 ^ 31 ->
  exists tk, tk_build gr uninit lt v = Ok tk /\ forall rands, test_topk true lt eq h v tk rands = Ok true.
Proof. exact test_topk_ok. Qed.
Print Assumptions C68_topk.
Example C68_topk_ex : let h := sorted_heap (value_index_comparator Z.ltb Z.eqb) in
  strict_weak_order Z.ltb /\ eq_agrees Z.ltb Z.eqb /\
  push_heap_ok (value_index_comparator Z.ltb Z.eqb) (push_heap h) /\
  pop_heap_ok (value_index_comparator Z.ltb Z.eqb) (pop_heap h) /\ 2 * zlen C68_c + 2 < 2 ^ 31 /\
  (do tk <- tk_build C68_grow 0 Z.ltb C68_c; test_topk true Z.ltb Z.eqb h C68_c tk [(1, 3); (6, 0)]) = Ok true.
Proof.
  cbv zeta. split; [exact ltb_order|]. split; [exact eqb_agrees|]. split; [apply z_heap|]. split; [apply z_heap|].
  vm_compute. auto.
Qed.

(** ** C69: the oracles accept exactly the right answers, whatever functions they are run on *)
Theorem C69_equal_bits : forall v size get, test_equal_bits v size get = Ok true <->
  size = zlen v /\ forall k x, nth_error v k = Some x -> get (Z.of_nat k) = Ok x.
Proof. exact equal_bits_iff. Qed.
Print Assumptions C69_equal_bits.
Example C69_equal_bits_ex : (forall k x, nth_error [true; false] k = Some x -> (fun i => Ok (i =? 0)) (Z.of_nat k) = Ok x) /\
  test_equal_bits [true; false] 2 (fun i => Ok (i =? 0)) = Ok true /\
  test_equal_bits [true; true] 2 (fun i => Ok (i =? 0)) = Ok false.
Proof. split; [intros [|[|[|k]]] x [= <-]; reflexivity|]. vm_compute. auto. Qed.
Theorem C69_list : forall v size get, test_list size get v = Ok true <->
  size = zlen v /\ forall k x, nth_error v k = Some x -> get (Z.of_nat k) = Ok x.
Proof. exact list_iff. Qed.
Print Assumptions C69_list.
Example C69_lists_ex : (forall k x, nth_error [true; false] k = Some x -> (fun i => Ok (i =? 0)) (Z.of_nat k) = Ok x) /\
  test_equal_bits [true; false] 2 (fun i => Ok (i =? 0)) = Ok true /\
  test_equal_bits [true; true] 2 (fun i => Ok (i =? 0)) = Ok false /\ test_list 2 Ok [0; 1; 2] = Ok false.
Proof. split; [intros [|[|[|k]]] x [= <-]; reflexivity|]. vm_compute. auto. Qed.

(** rank is only checked below size(). *)
Theorem C69_rank_select : forall one rank_f select_f pred_f succ_f l, zlen l < 2 ^ 64 ->
  test_rank_select_of one rank_f select_f pred_f succ_f l = Ok true <->
  (forall p, (p < length l)%nat -> rank_f (Z.of_nat p) = Ok (Z.of_nat (rank one l p))) /\
  (forall k q, is_select one l k q -> select_f (Z.of_nat k) = Ok (Z.of_nat q)) /\
  (forall pos q, nearest_before one l pos q -> pred_f pos = Ok q) /\
  (forall pos q, nearest_after one l pos q -> succ_f pos = Ok q).
Proof. exact rank_select_iff. Qed.
Print Assumptions C69_rank_select.
Example C69_rank_select_ex : zlen [true; true] < 2 ^ 64 /\ test_rank_select_of true Ok Ok Ok Ok [true; true] = Ok true /\
  test_rank_select_of true Ok Ok Ok Ok [true; false; true] = Ok false.
Proof. vm_compute. auto. Qed.

Theorem C69_parentheses : forall sp bp l, zlen l < 2 ^ 64 -> test_parentheses sp l bp = Ok true <->
  bal l /\ (forall p m, matches l p m -> find_close sp bp p = Ok m /\ find_open sp bp m = Ok p) /\
  (forall q p, innermost l q p -> nth_error l (Z.to_nat p) = Some true -> enclose sp bp p = Ok q).
Proof. exact parentheses_iff'. Qed.
Print Assumptions C69_parentheses.
Example C69_parentheses_ex : zlen C68_p < 2 ^ 64 /\
  (do bp <- bp_build 0 (bv_range C68_p) false false; test_parentheses strict_shift [true; true; false; false] bp) = Ok false /\
  (do bp <- bp_build 0 (bv_range C68_p) false false; test_parentheses strict_shift [true; false; false; true] bp) = Ok false.
Proof. vm_compute. auto. Qed.
