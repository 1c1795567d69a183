(** Property C100: the frozen file determines the contents *)
From Verif Require Import Base Spec M_BitVector M_RsBitVector M_Darray M_EliasFano M_Gamma M_Util M_Bp M_Cartesian M_Topk M_Mapper.
From Verif Require Import S_BitVector S_Darray S_EliasFano S_Bp S_Cartesian S_Mapper S_Ident P_Cartesian P_Ident.

Definition C100_gr : growth := fun c _ => 2 * c.

(** C100: bit_vector, rs_bit_vector with any hints, nibble_vector *)
Theorem C100_bits :
  (forall l m, zlen l < 2 ^ 64 -> zlen m < 2 ^ 64 -> same_file bv_map (bv_range l) (bv_range m) -> l = m) /\
  (forall l m h h0 k k0 x y, zlen l < 2 ^ 64 -> zlen m < 2 ^ 64 -> rs_build (bv_range l) h h0 = Ok x -> rs_build (bv_range m) k k0 = Ok y ->
     same_file rs_map x y -> l = m) /\
  (forall l m x y, Forall (fun x => 0 <= x < 16) l -> Forall (fun x => 0 <= x < 16) m -> zlen l < 2 ^ 64 -> zlen m < 2 ^ 64 ->
     nv_build l = Ok x -> nv_build m = Ok y -> same_file nv_map x y -> l = m).
Proof. exact ident_bits. Qed.
Print Assumptions C100_bits.
Example C100_bits_ex : exists x y, rs_build (bv_range [true; false]) true false = Ok x /\ rs_build (bv_range [true; false]) false false = Ok y /\
  ~ same_file rs_map x y /\ same_file bv_map (rs_bv x) (rs_bv y).
Proof.
  do 2 eexists. split; [vm_compute; reflexivity|]. split; [vm_compute; reflexivity|]. split; [|exists 0; vm_compute; intuition discriminate].
  intros (f & _ & E). apply (f_equal (@length Z)) in E. vm_compute in E. discriminate.
Qed.

(** C100: elias_fano from an elias_fano_builder or from bits, with or without index; elias_fano_list; elias_fano_compressed_list *)
Theorem C100_elias_fano :
  (forall gr gr' n m vs idx n' m' vs' idx' x y, ef_input n m vs -> ef_input n' m' vs' -> ef_make gr n m vs idx = Ok x -> ef_make gr' n' m' vs' idx' = Ok y ->
     same_file ef_map x y -> n = n' /\ vs = vs') /\
  (forall gr gr' b b' l l' idx idx' x y, bv_of_builder b = Ok (bv_range l) -> bv_of_builder b' = Ok (bv_range l') -> zlen l < 2 ^ 61 -> zlen l' < 2 ^ 61 ->
     ef_of_bits gr b idx = Ok x -> ef_of_bits gr' b' idx' = Ok y -> same_file ef_map x y -> l = l') /\
  (forall gr gr' ints ints' x y, Forall (fun x => 0 <= x) ints -> Forall (fun x => 0 <= x) ints' -> sum ints < 2 ^ 64 - 1 -> sum ints' < 2 ^ 64 - 1 ->
     zlen ints < 2 ^ 61 -> zlen ints' < 2 ^ 61 -> efl_build gr ints = Ok x -> efl_build gr' ints' = Ok y -> same_file efl_map x y -> ints = ints') /\
  (forall gr gr' ints ints' x y, Forall (fun x => 0 <= x < 2 ^ 64 - 1) ints -> Forall (fun x => 0 <= x < 2 ^ 64 - 1) ints' ->
     zlen ints < 2 ^ 57 -> zlen ints' < 2 ^ 57 -> efc_build gr ints = Ok x -> efc_build gr' ints' = Ok y -> same_file efc_map x y -> ints = ints').
Proof. exact ident_ef. Qed.
Print Assumptions C100_elias_fano.
Example C100_elias_fano_ex : ef_input 1000 3 [5; 70; 99] /\ ef_input 1000 7 [5; 70; 98] /\ exists x y, ef_make C100_gr 1000 3 [5; 70; 99] true = Ok x /\
  ef_make C100_gr 1000 7 [5; 70; 98] true = Ok y.
Proof.
  split; [|split]; [unfold ef_input; repeat split; try (intros; discriminate); repeat constructor; discriminate..|]. do 2 eexists. split; vm_compute; reflexivity.
Qed.

(** C100: darray64, gamma_vector, gamma_bit_vector *)
Theorem C100_gamma :
  (forall gr gr' skips skips' b b' x y, Forall (fun s => 0 <= s <= 64) skips -> Forall (fun s => 0 <= s <= 64) skips' -> zlen skips < 2 ^ 57 -> zlen skips' < 2 ^ 57 ->
     append1_all gr d64_new skips = Ok b -> d64_build b = Ok x -> append1_all gr' d64_new skips' = Ok b' -> d64_build b' = Ok y -> same_file d64_map x y -> skips = skips') /\
  (forall gr gr' ints ints' x y, Forall (fun x => 0 <= x < 2 ^ 64 - 1) ints -> Forall (fun x => 0 <= x < 2 ^ 64 - 1) ints' ->
     zlen ints < 2 ^ 57 -> zlen ints' < 2 ^ 57 -> gv_build gr ints = Ok x -> gv_build gr' ints' = Ok y -> same_file gamma_map x y -> ints = ints') /\
  (forall gr gr' ints ints' x y, Forall (fun x => 0 <= x < 2 ^ 64 - 2) ints -> Forall (fun x => 0 <= x < 2 ^ 64 - 2) ints' ->
     zlen ints < 2 ^ 57 -> zlen ints' < 2 ^ 57 -> gb_build gr ints = Ok x -> gb_build gr' ints' = Ok y -> same_file gamma_map x y -> ints = ints').
Proof. exact ident_gamma. Qed.
Print Assumptions C100_gamma.
Example C100_gamma_ex : Forall (fun x => 0 <= x < 2 ^ 64 - 2) [5; 0; 900] /\ exists x y, gv_build C100_gr [5; 0; 900] = Ok x /\ gb_build C100_gr [5; 0; 900] = Ok y.
Proof. split; [repeat constructor; discriminate|]. do 2 eexists. split; vm_compute; reflexivity. Qed.

(** C100: bp_vector, topk_vector of 64-bit values *)
Theorem C100_trees :
  (forall uninit uninit' l m h h0 k k0 x y, zlen l < 2 ^ 31 -> zlen m < 2 ^ 31 -> prefix_ok l -> prefix_ok m -> 0 <= uninit < 2 ^ 64 -> 0 <= uninit' < 2 ^ 64 ->
     bp_build uninit (bv_range l) h h0 = Ok x -> bp_build uninit' (bv_range m) k k0 = Ok y -> same_file bp_map x y -> l = m) /\
  (forall gr gr' uninit uninit' lt lt' v w x y, 2 * zlen v + 2 < 2 ^ 31 -> 2 * zlen w + 2 < 2 ^ 31 ->
     Forall (fun x => 0 <= x < 2 ^ 64) v -> Forall (fun x => 0 <= x < 2 ^ 64) w -> 0 <= uninit < 2 ^ 64 -> 0 <= uninit' < 2 ^ 64 ->
     tk_build gr uninit lt v = Ok x -> tk_build gr' uninit' lt' w = Ok y -> same_file tk_map x y -> v = w).
Proof. exact ident_trees. Qed.
Print Assumptions C100_trees.
Example C100_trees_ex : exists x y, bp_build 0 (bv_range [true; false]) false true = Ok x /\ tk_build C100_gr 0 Z.ltb [4; 9; 2] = Ok y /\ tk_v y = [4; 9; 2].
Proof. do 2 eexists. split; [vm_compute; reflexivity|]. split; vm_compute; reflexivity. Qed.

(** C100 for cartesian_tree, what holds: the file tells exactly the length and where the leftmost minima of all ranges are,
    even between different element types and orders. Missing: the elements (C100_cartesian_refuted). *)
Theorem C100_cartesian_partial : forall T U (comp : T -> T -> bool) (comp' : U -> U -> bool) gr gr' uninit uninit' e e' v w x y,
  strict_weak_order comp -> strict_weak_order comp' -> 2 * zlen v + 2 < 2 ^ 31 -> 2 * zlen w + 2 < 2 ^ 31 -> 0 <= uninit < 2 ^ 64 -> 0 <= uninit' < 2 ^ 64 ->
  ct_build gr uninit comp e v = Ok x -> ct_build gr' uninit' comp' e' w = Ok y ->
  (same_file ct_map x y <-> length v = length w /\
    forall a b m, (a <= b)%nat -> (b < length v)%nat -> leftmost_min comp v a b m <-> leftmost_min comp' w a b m).
Proof. exact ident_cartesian. Qed.
Print Assumptions C100_cartesian_partial.
Example C100_cartesian_ex : exists x y, ct_build C100_gr 0 Z.ltb 0 [4; 9; 2; 9] = Ok x /\ ct_build C100_gr 0 Z.gtb 0 [4; 1; 7; 1] = Ok y /\ same_file ct_map x y.
Proof. do 2 eexists. split; [vm_compute; reflexivity|]. split; [vm_compute; reflexivity|]. exists 0. vm_compute. intuition discriminate. Qed.

(** C100 is false for cartesian_tree, which keeps no elements, and for darray1, which is an index into bits kept elsewhere *)
Theorem C100_cartesian_refuted : exists x, ct_build C100_gr 0 Z.ltb 0 [4; 9; 2; 9] = Ok x /\ ct_build C100_gr 0 Z.ltb 0 [1; 2; 0; 5] = Ok x.
Proof. exact ident_ct_witness. Qed.
Print Assumptions C100_cartesian_refuted.
Theorem C100_darray_refuted : exists x, darray_build false (bv_range [true; true; false]) = Ok x /\ darray_build false (bv_range [true; false; true]) = Ok x.
Proof. exact ident_darray. Qed.
Print Assumptions C100_darray_refuted.
Example C100_darray_ex : exists x y, darray_build false (bv_range [true; true; false]) = Ok x /\ darray_build false (bv_range [false; true; true]) = Ok y /\ ~ same_file da_map x y.
Proof.
  do 2 eexists. split; [vm_compute; reflexivity|]. split; [vm_compute; reflexivity|]. intros (f & _ & E).
  apply (f_equal (@skipn Z 24)) in E. vm_compute in E. discriminate.
Qed.
