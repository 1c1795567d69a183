(** C36, C37, C52: freezing, mapping and sizes. *)
From Verif Require Import Base Spec M_BitVector M_RsBitVector M_Darray M_EliasFano M_Gamma M_Util M_Bp M_Cartesian M_Topk M_Mapper.
From Verif Require Import S_BitVector S_Mapper P_Mapper.

Definition C36_grow : growth := fun c n => 2 * c.
Definition C36_image {A} (M : mappable A) (x : A) : Prop :=
  typed (layout_of M) (data_of M x) /\ 8 + frozen_size (layout_of M) (data_of M x) < 2 ^ 64.

(** C36. [M] is any structure; [typed] says that the members are values of their C++ types. The
    memory holds any bytes before and after the frozen ones; unaligned reads are allowed (see C52). *)
Theorem C36_roundtrip : forall A (M : mappable A) x flags addr pre post,
  typed (layout_of M) (data_of M x) -> 8 + frozen_size (layout_of M) (data_of M x) < 2 ^ 64 -> 0 <= flags < 2 ^ 64 ->
  exists bytes written, freeze (layout_of M) (data_of M x) flags = (bytes, written) /\ written = zlen bytes /\
  map_at false addr (pre ++ bytes ++ post) (layout_of M) (zlen pre) = Ok (data_of M x, written).
Proof. exact @roundtrip. Qed.
Print Assumptions C36_roundtrip.
Example C36_ex1 : exists tk, tk_build C36_grow 0 Z.ltb [4; 9; 2; 9; 7] = Ok tk /\ C36_image tk_map tk.
Proof. eexists. split; [vm_compute; reflexivity|]. split; [apply typedb_ok; vm_compute; reflexivity|vm_compute; reflexivity]. Qed.
Example C36_ex2 : exists c, efc_build C36_grow [5; 0; 900] = Ok c /\ C36_image efc_map c /\
  let '(bytes, written) := freeze (layout_of efc_map) (data_of efc_map c) 3 in
  map_at false 0 ([1; 2; 3] ++ bytes ++ [4]) (layout_of efc_map) 3 = Ok (data_of efc_map c, written).
Proof.
  eexists. split; [vm_compute; reflexivity|]. split; [|vm_compute; reflexivity].
  split; [apply typedb_ok; vm_compute; reflexivity|vm_compute; reflexivity].
Qed.
Example C36_ex3 : exists g, gv_build C36_grow [5; 0; 900] = Ok g /\ C36_image gamma_map g.
Proof. eexists. split; [vm_compute; reflexivity|]. split; [apply typedb_ok; vm_compute; reflexivity|vm_compute; reflexivity]. Qed.
Example C36_ex4 : exists v, nv_build [5; 0; 9] = Ok v /\ C36_image nv_map v.
Proof. eexists. split; [vm_compute; reflexivity|]. split; [apply typedb_ok; vm_compute; reflexivity|vm_compute; reflexivity]. Qed.

(** The members restored are all there is to a structure. *)
Theorem C36_members : (forall size signed, injective (data_of (vec_map size signed))) /\
  injective (data_of bv_map) /\ injective (data_of rs_map) /\ injective (data_of bp_map) /\ injective (data_of ct_map) /\
  injective (data_of da_map) /\ injective (data_of d64_map) /\ injective (data_of ef_map) /\ injective (data_of efl_map) /\
  injective (data_of efc_map) /\ injective (data_of gamma_map) /\ injective (data_of nv_map) /\ injective (data_of tk_map).
Proof. exact all_inj. Qed.
Print Assumptions C36_members.
Example C36_members_ex : data_of nv_map (mk_nv 3 [5; 9]) = DObj (DCons (DPod 3) (DCons (DVec [5; 9]) DNil)).
Proof. reflexivity. Qed.

(** For bit vectors: the image of the vector of the bits [l] maps to that vector and no other. *)
Theorem C36_bits : forall l flags addr pre post, zlen l < 2 ^ 64 -> 0 <= flags < 2 ^ 64 ->
  exists bytes written, freeze (layout_of bv_map) (data_of bv_map (canonical l)) flags = (bytes, written) /\ written = zlen bytes /\
  forall bv n, map_at false addr (pre ++ bytes ++ post) (layout_of bv_map) (zlen pre) = Ok (data_of bv_map bv, n) <->
    bv = canonical l /\ n = written.
Proof. exact bits_roundtrip. Qed.
Print Assumptions C36_bits.
Example C36_bits_ex : zlen [true; false; true] < 2 ^ 64 /\
  freeze (layout_of bv_map) (data_of bv_map (canonical [true; false; true])) 7 =
  ([7; 0; 0; 0; 0; 0; 0; 0; 3; 0; 0; 0; 0; 0; 0; 0; 1; 0; 0; 0; 0; 0; 0; 0; 5; 0; 0; 0; 0; 0; 0; 0], 32).
Proof. vm_compute. auto. Qed.

(** C37. An integer on its own has no node in the size tree. *)
Theorem C37_size_of : forall A (M : mappable A) x flags nm,
  typed (layout_of M) (data_of M x) -> 8 + frozen_size (layout_of M) (data_of M x) < 2 ^ 64 -> 0 <= flags < 2 ^ 64 ->
  zlen (fst (freeze (layout_of M) (data_of M x) flags)) = size_of (layout_of M) (data_of M x) + 8 /\
  snd (freeze (layout_of M) (data_of M x) flags) = size_of (layout_of M) (data_of M x) + 8 /\
  size_of (layout_of M) (data_of M x) = frozen_size (layout_of M) (data_of M x) /\
  size_tree_of (layout_of M) (data_of M x) nm =
    match nodes (layout_of M) (data_of M x) nm with node :: _ => Ok node | [] => Ub AssertFailed end.
Proof. exact @size_of_ok. Qed.
Print Assumptions C37_size_of.
Example C37_ex : exists c, efc_build C36_grow [5; 0; 900] = Ok c /\ C36_image efc_map c /\
  size_of (layout_of efc_map) (data_of efc_map c) + 8 = zlen (fst (freeze (layout_of efc_map) (data_of efc_map c) 0)).
Proof.
  eexists. split; [vm_compute; reflexivity|]. split; [|vm_compute; reflexivity].
  split; [apply typedb_ok; vm_compute; reflexivity|vm_compute; reflexivity].
Qed.

(** C52 is false: an elias_fano ends with one byte, so the vector after it in an
    elias_fano_compressed_list is never aligned, whatever the list and however the file is aligned. *)
Theorem C52_ef_compressed_refuted : forall x flags addr, typed (layout_of efc_map) (data_of efc_map x) ->
  8 + frozen_size (layout_of efc_map) (data_of efc_map x) < 2 ^ 64 -> 0 <= flags < 2 ^ 64 -> addr mod 8 = 0 ->
  map_at true addr (fst (freeze (layout_of efc_map) (data_of efc_map x) flags)) (layout_of efc_map) 0 = Ub Misaligned.
Proof. exact efc_misaligned. Qed.
Print Assumptions C52_ef_compressed_refuted.
Example C52_ef_compressed_ex : exists c, efc_build C36_grow [5; 0; 900] = Ok c /\ C36_image efc_map c.
Proof. eexists. split; [vm_compute; reflexivity|]. split; [apply typedb_ok; vm_compute; reflexivity|vm_compute; reflexivity]. Qed.

(** Nor are bp_vector (16-bit block minima before the superblock minima) and gamma_vector (16-bit
    subblocks before the low bits). *)
Theorem C52_witnesses_refuted :
  (exists bp, bp_build 0 (canonical [true; false]) true true = Ok bp /\ C36_image bp_map bp /\
     map_at true 0 (fst (freeze (layout_of bp_map) (data_of bp_map bp) 0)) (layout_of bp_map) 0 = Ub Misaligned) /\
  (exists g, gv_build C36_grow [5; 0; 900] = Ok g /\ C36_image gamma_map g /\
     map_at true 0 (fst (freeze (layout_of gamma_map) (data_of gamma_map g) 0)) (layout_of gamma_map) 0 = Ub Misaligned).
Proof. exact other_misaligned. Qed.
Print Assumptions C52_witnesses_refuted.

(** C52 for bit_vector, rs_bit_vector and nibble_vector at 8-byte aligned addresses; missing: the
    structures above and those that contain them *)
Theorem C52_aligned_partial : aligns bv_map /\ aligns rs_map /\ aligns nv_map.
Proof. exact aligns_ok. Qed.
Print Assumptions C52_aligned_partial.
Example C52_aligned_ex : exists rs, rs_build (canonical [true; false; true]) true true = Ok rs /\ C36_image rs_map rs /\ 64 mod 8 = 0.
Proof. eexists. split; [vm_compute; reflexivity|]. split; [|reflexivity]. split; [apply typedb_ok; vm_compute; reflexivity|vm_compute; reflexivity]. Qed.
