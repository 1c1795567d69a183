(** C67: the generators of test_bp_vector_common.hpp. *)
From Verif Require Import Base Spec M_BitVector M_RsBitVector M_Bp M_Tests M_Gen S_Bp P_Gen2.

(** [rnd i] is the i-th value of rand() *)
Theorem C67_vector : forall rand_max rnd v, (forall size, 2 <= size < 2 ^ 64 -> size mod 2 = 0 ->
    exists u, random_binary_tree vpush rnd v size = Ok (v ++ true :: u ++ [false]) /\ bal u /\ zlen u + 2 = size) /\
  (forall size, 1 <= size < 2 ^ 31 ->
    exists u, random_bp vpush rand_max rnd v size = Ok (v ++ true :: u ++ [false]) /\ bal u /\ size + 1 <= zlen u + 2 <= 2 * size) /\
  (forall size, 0 <= size -> size mod 2 = 0 ->
    bp_path vpush v size = Ok (v ++ repeat true (Z.to_nat (size / 2)) ++ repeat false (Z.to_nat (size / 2)))).
Proof. exact gen_vector. Qed.
Print Assumptions C67_vector.
Definition C67_rnd (i : nat) : Z := Z.of_nat ((i * i * 7 + 3) mod 11) * 200000000 + Z.of_nat i.
Example C67_vector_ex : random_binary_tree vpush C67_rnd [] 12 =
    Ok [true; true; false; true; false; true; true; false; false; true; false; false] /\
  random_bp vpush (2 ^ 31 - 1) C67_rnd [] 7 = Ok [true; true; true; false; false; true; false; false] /\
  bp_path vpush [true; false] 4 = Ok [true; false; true; true; false; false].
Proof. vm_compute. auto. Qed.

Theorem C67_builder : forall gr rand_max rnd, let empty := mk_builder [] 0 0 0 None in
  (forall size, 2 <= size < 2 ^ 64 -> size mod 2 = 0 -> exists b u,
    random_binary_tree (push_back gr) rnd empty size = Ok b /\ bv_of_builder b = Ok (bv_range (true :: u ++ [false])) /\
    bal u /\ zlen u + 2 = size) /\
  (forall size, 1 <= size < 2 ^ 31 -> exists b u,
    random_bp (push_back gr) rand_max rnd empty size = Ok b /\ bv_of_builder b = Ok (bv_range (true :: u ++ [false])) /\
    bal u /\ size + 1 <= zlen u + 2 <= 2 * size) /\
  (forall size, 0 <= size -> size mod 2 = 0 -> exists b, bp_path (push_back gr) empty size = Ok b /\
    bv_of_builder b = Ok (bv_range (repeat true (Z.to_nat (size / 2)) ++ repeat false (Z.to_nat (size / 2))))).
Proof. exact gen_builder. Qed.
Print Assumptions C67_builder.
Example C67_builder_ex : (do b <- random_bp (push_back (fun c n => Z.max (2 * c) n)) (2 ^ 31 - 1) C67_rnd (mk_builder [] 0 0 0 None) 7;
  do bv <- bv_of_builder b; Ok (bv_size bv, bv_words bv)) = Ok (8, [39]).
Proof. vm_compute. auto. Qed.

(** An estimate of 2^31 or more can overflow the int that holds the excess. *)
Theorem C67_refuted : forall rand_max rnd v size, (forall i, rand_max / 2 < rnd i) -> 2 ^ 31 <= size ->
  random_bp vpush rand_max rnd v size = Ub SignedOverflow.
Proof. exact random_overflow. Qed.
Print Assumptions C67_refuted.
Example C67_refuted_ex : forall i : nat, (2 ^ 31 - 1) / 2 < (fun _ => 2 ^ 31 - 1) i.
Proof. intros i. vm_compute. auto. Qed.

(** The tests of bp_vector pass on everything the generators produce. *)
Theorem C67_tests : forall f uninit rand_max rnd rands,
  (forall size, 2 <= size < 2 ^ 31 -> size mod 2 = 0 -> exists v,
    random_binary_tree vpush rnd [] size = Ok v /\ bp_tests (loose_shift f) uninit rands v = Ok true) /\
  (forall size, 1 <= size < 2 ^ 30 -> exists v,
    random_bp vpush rand_max rnd [] size = Ok v /\ bp_tests (loose_shift f) uninit rands v = Ok true) /\
  (forall n size, 0 <= size -> size mod 2 = 0 -> Z.of_nat n * size < 2 ^ 31 -> exists v,
    bp_paths n [] size = Ok v /\ bp_tests (loose_shift f) uninit rands v = Ok true).
Proof. exact generated_pass. Qed.
Print Assumptions C67_tests.
Example C67_tests_ex : (do v <- bp_paths 3 [] 16; bp_tests (loose_shift (fun x _ => x)) 0 [5; 20] v) = Ok true.
Proof. vm_compute. auto. Qed.
