(** The format of the frozen file, field by field, stated without layouts and visitors. *)
From Verif Require Import Base Spec M_BitVector M_RsBitVector M_Darray M_EliasFano M_Gamma M_Util M_Bp M_Topk M_Mapper S_Mapper.

(** [k] bytes of [x], least significant first *)
Definition le (k : nat) (x : Z) : list Z := map (fun i => x / 256 ^ Z.of_nat i mod 256) (seq 0 k).

(** an integer of [k] bytes, or a vector of such integers after its length *)
Inductive field : Type := Int (k : nat) (x : Z) | Ints (k : nat) (xs : list Z).
Definition field_bytes (f : field) : list Z :=
  match f with
  | Int k x => le k x
  | Ints k xs => le 8 (zlen xs) ++ concat (map (le k) xs)
  end.
Definition file (flags : Z) (fs : list field) : list Z := le 8 flags ++ concat (map field_bytes fs).

Definition bv_fields (bv : bit_vector) : list field := [Int 8 (bv_size bv); Ints 8 (bv_words bv)].
Definition rs_fields (rs : rs_bit_vector) : list field :=
  [Int 8 (bv_size (rs_bv rs)); Ints 8 (bv_words (rs_bv rs)); Ints 8 (rs_pairs rs); Ints 8 (rs_hints rs); Ints 8 (rs_hints0 rs)].
Definition bp_fields (bp : bp_vector) : list field :=
  rs_fields (bp_rs bp) ++ [Int 8 (bp_internal_nodes bp); Ints 2 (bp_block_excess_min bp); Ints 4 (bp_superblock_excess_min bp)].
Definition da_fields (d : darray) : list field := [Int 8 (da_positions d); Ints 8 (da_blocks d); Ints 2 (da_subs d); Ints 8 (da_ovf d)].
Definition d64_fields (d : darray64) : list field :=
  [Int 8 (d64_num_ones d)] ++ bv_fields (d64_bits d) ++ [Ints 8 (d64_blocks d); Ints 2 (d64_subs d)].
Definition ef_fields (ef : elias_fano) : list field :=
  [Int 8 (ef_size ef)] ++ bv_fields (ef_high ef) ++ da_fields (ef_d1 ef) ++ da_fields (ef_d0 ef) ++ bv_fields (ef_low ef) ++ [Int 1 (ef_l ef)].
Definition efc_fields (c : ef_compressed) : list field := ef_fields (efc_ef c) ++ bv_fields (efc_bits c).
Definition gamma_fields (g : gamma) : list field := d64_fields (g_high g) ++ bv_fields (g_low g).
Definition nv_fields (v : nibble_vector) : list field := [Int 8 (nv_size v); Ints 1 (nv_nibbles v)].
Definition tk_fields (tk : topk_vector Z) : list field := [Ints 8 (tk_v tk)] ++ bp_fields (tk_tree tk).

(** freezing writes the flags and these fields, and returns the length of the file *)
Definition formatted {A} (M : mappable A) (fields : A -> list field) : Prop :=
  forall x flags, typed (layout_of M) (data_of M x) -> 8 + frozen_size (layout_of M) (data_of M x) < 2 ^ 64 ->
  freeze (layout_of M) (data_of M x) flags = (file flags (fields x), zlen (file flags (fields x))).
