(** C36 for the structures the constructors build: no assumption on their members is needed. *)
From Verif Require Import Base Spec M_BitVector M_RsBitVector M_Darray M_EliasFano M_Gamma M_Util M_Bp M_Cartesian M_Topk M_Mapper.
From Verif Require Import S_BitVector S_Darray S_EliasFano S_Bp S_Mapper P_Typed.

(** rs_bit_vector, darray1 and darray0, nibble_vector *)
Theorem C36_built_bits : (forall l h h0, zlen l < 2 ^ 64 -> exists rs, rs_build (bv_range l) h h0 = Ok rs /\ roundtrips rs_map rs) /\
  (forall neg l, zlen l < 2 ^ 63 -> exists d, darray_build neg (bv_range l) = Ok d /\ roundtrips da_map d) /\
  (forall l, Forall (fun x => 0 <= x < 16) l -> zlen l < 2 ^ 64 -> exists v, nv_build l = Ok v /\ roundtrips nv_map v).
Proof. exact rt_bits. Qed.
Print Assumptions C36_built_bits.
Example C36_built_bits_ex : zlen [true; false; true] < 2 ^ 63 /\ Forall (fun x => 0 <= x < 16) [3; 15; 0] /\
  exists rs, rs_build (bv_range [true; false; true]) true true = Ok rs /\
  let '(bytes, written) := freeze (layout_of rs_map) (data_of rs_map rs) 0 in
  map_at false 0 ([9] ++ bytes ++ [7; 7]) (layout_of rs_map) 1 = Ok (data_of rs_map rs, written).
Proof.
  split; [vm_compute; reflexivity|]. split; [repeat constructor; discriminate|]. eexists. split; [vm_compute; reflexivity|].
  vm_compute. reflexivity.
Qed.

(** bp_vector, cartesian_tree, topk_vector of 64-bit values. [uninit] is what the member that the
    constructor leaves uninitialised for an empty vector holds. *)
Theorem C36_built_trees : (forall uninit l h h0, zlen l < 2 ^ 31 -> prefix_ok l -> 0 <= uninit < 2 ^ 64 ->
    exists bp, bp_build uninit (bv_range l) h h0 = Ok bp /\ roundtrips bp_map bp) /\
  (forall T (comp : T -> T -> bool) gr uninit e v, 2 * zlen v + 2 < 2 ^ 31 -> 0 <= uninit < 2 ^ 64 ->
    exists ct, ct_build gr uninit comp e v = Ok ct /\ roundtrips ct_map ct) /\
  (forall gr uninit lt v, 2 * zlen v + 2 < 2 ^ 31 -> Forall (fun x => 0 <= x < 2 ^ 64) v -> 0 <= uninit < 2 ^ 64 ->
    exists tk, tk_build gr uninit lt v = Ok tk /\ roundtrips tk_map tk).
Proof. exact rt_trees. Qed.
Print Assumptions C36_built_trees.
Example C36_built_trees_ex : 2 * zlen [4; 9; 2; 9; 7] + 2 < 2 ^ 31 /\ Forall (fun x => 0 <= x < 2 ^ 64) [4; 9; 2; 9; 7].
Proof. split; [vm_compute; reflexivity|]. repeat constructor; discriminate. Qed.

(** elias_fano from an elias_fano_builder and from a bit_vector_builder, elias_fano_list,
    elias_fano_compressed_list *)
Theorem C36_built_ef : (forall gr n m vs idx, ef_input n m vs -> exists ef, ef_make gr n m vs idx = Ok ef /\ roundtrips ef_map ef) /\
  (forall gr b l idx, bv_of_builder b = Ok (canonical l) -> zlen l < 2 ^ 61 -> exists ef, ef_of_bits gr b idx = Ok ef /\ roundtrips ef_map ef) /\
  (forall gr ints, Forall (fun x => 0 <= x) ints -> sum ints < 2 ^ 64 - 1 -> zlen ints < 2 ^ 61 ->
    exists c, efl_build gr ints = Ok c /\ roundtrips efl_map c) /\
  (forall gr ints, Forall (fun x => 0 <= x < 2 ^ 64 - 1) ints -> zlen ints < 2 ^ 57 ->
    exists c, efc_build gr ints = Ok c /\ roundtrips efc_map c).
Proof. exact rt_ef. Qed.
Print Assumptions C36_built_ef.
Example C36_built_ef_ex : ef_input 1000 3 [5; 5; 800] /\ sum [5; 0; 900] < 2 ^ 64 - 1 /\ zlen [5; 0; 900] < 2 ^ 57.
Proof. unfold ef_input. repeat split; try (intros; discriminate); repeat constructor; discriminate. Qed.

(** darray64, gamma_vector, gamma_bit_vector *)
Theorem C36_built_gamma : (forall gr skips, Forall (fun s => 0 <= s <= 64) skips -> zlen skips < 2 ^ 57 ->
    exists b d, append1_all gr d64_new skips = Ok b /\ d64_build b = Ok d /\ roundtrips d64_map d) /\
  (forall gr ints, Forall (fun x => 0 <= x < 2 ^ 64 - 1) ints -> zlen ints < 2 ^ 57 -> exists g, gv_build gr ints = Ok g /\ roundtrips gamma_map g) /\
  (forall gr ints, Forall (fun x => 0 <= x < 2 ^ 64 - 2) ints -> zlen ints < 2 ^ 57 -> exists g, gb_build gr ints = Ok g /\ roundtrips gamma_map g).
Proof. exact rt_gamma. Qed.
Print Assumptions C36_built_gamma.
Example C36_built_gamma_ex : Forall (fun s => 0 <= s <= 64) [0; 64; 3] /\ Forall (fun x => 0 <= x < 2 ^ 64 - 2) [5; 0; 2 ^ 63].
Proof. split; repeat constructor; discriminate. Qed.
