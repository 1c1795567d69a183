(** C64: the format of the frozen file. *)
From Verif Require Import Base Spec M_BitVector M_RsBitVector M_Darray M_EliasFano M_Gamma M_Util M_Bp M_Cartesian M_Topk M_Mapper.
From Verif Require Import S_BitVector S_Mapper S_Format P_Mapper P_Format.

Theorem C64_fields :
  (forall k signed, 0 < k -> formatted (vec_map k signed) (fun xs => [Ints (Z.to_nat k) xs])) /\
  formatted bv_map bv_fields /\ formatted rs_map rs_fields /\ formatted bp_map bp_fields /\ formatted ct_map bp_fields /\
  formatted da_map da_fields /\ formatted d64_map d64_fields /\ formatted ef_map ef_fields /\ formatted efl_map ef_fields /\
  formatted efc_map efc_fields /\ formatted gamma_map gamma_fields /\ formatted nv_map nv_fields /\ formatted tk_map tk_fields.
Proof. exact all_formatted. Qed.
Print Assumptions C64_fields.
Example C64_fields_ex : exists rs, rs_build (canonical [true; false; true]) true true = Ok rs /\
  typed (layout_of rs_map) (data_of rs_map rs) /\ 8 + frozen_size (layout_of rs_map) (data_of rs_map rs) < 2 ^ 64 /\
  file 258 (rs_fields rs) = [2; 1; 0; 0; 0; 0; 0; 0] ++ le 8 3 ++ le 8 1 ++ le 8 5 ++ concat (map field_bytes [Ints 8 (rs_pairs rs); Ints 8 (rs_hints rs); Ints 8 (rs_hints0 rs)]).
Proof.
  eexists. split; [vm_compute; reflexivity|]. split; [apply typedb_ok; vm_compute; reflexivity|]. split; vm_compute; reflexivity.
Qed.

(** bit [i] of the sequence is bit [i mod 8] of byte [24 + i / 8] of the file *)
Theorem C64_bits : forall l flags, zlen l < 2 ^ 64 ->
  exists bytes, freeze (layout_of bv_map) (data_of bv_map (canonical l)) flags = (bytes, zlen bytes) /\
  zlen bytes = 24 + 8 * ((zlen l + 63) / 64) /\
  forall i, (i < length l)%nat -> Z.testbit (nth (24 + i / 8) bytes 0) (Z.of_nat i mod 8) = nth i l false.
Proof. exact bit_in_file. Qed.
Print Assumptions C64_bits.
Definition C64_l : list bool := repeat false 70 ++ [true].
Example C64_bits_ex : zlen C64_l < 2 ^ 64 /\ nth 70 C64_l false = true /\
  nth (24 + 70 / 8) (fst (freeze (layout_of bv_map) (data_of bv_map (canonical C64_l)) 0)) 0 = 2 ^ (70 mod 8).
Proof. vm_compute. auto. Qed.
