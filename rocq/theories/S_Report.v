(** The size tree of each structure, spelled out: the names that map() gives to the members and the bytes they take,
    stated without layouts and visitors. *)
From Coq Require Import Strings.String.
From Verif Require Import Base M_BitVector M_RsBitVector M_Darray M_EliasFano M_Gamma M_Util M_Bp M_Topk M_Mapper S_Mapper.
Local Open Scope string_scope.
Local Open Scope Z_scope.

Definition size_at (t : size_node) : Z := match t with Node _ s _ => s end.
(** a vector of integers of [k] bytes after its length *)
Definition vector (nm : string) (k : Z) (xs : list Z) : size_node := Node nm (8 + k * zlen xs) [].
(** a class with [ints] bytes of integers and these members *)
Definition class (nm : string) (ints : Z) (kids : list size_node) : size_node := Node nm (ints + fold_right Z.add 0 (map size_at kids)) kids.

Definition bv_kids (bv : bit_vector) : list size_node := [vector "m_bits" 8 (bv_words bv)].
Definition rs_kids (rs : rs_bit_vector) : list size_node :=
  bv_kids (rs_bv rs) ++ [vector "m_block_rank_pairs" 8 (rs_pairs rs); vector "m_select_hints" 8 (rs_hints rs); vector "m_select0_hints" 8 (rs_hints0 rs)].
Definition bp_kids (bp : bp_vector) : list size_node :=
  rs_kids (bp_rs bp) ++ [vector "m_block_excess_min" 2 (bp_block_excess_min bp); vector "m_superblock_excess_min" 4 (bp_superblock_excess_min bp)].

Definition bv_report (nm : string) (bv : bit_vector) : size_node := class nm 8 (bv_kids bv).
Definition rs_report (nm : string) (rs : rs_bit_vector) : size_node := class nm 8 (rs_kids rs).
Definition bp_report (nm : string) (bp : bp_vector) : size_node := class nm 16 (bp_kids bp).
Definition ct_report (nm : string) (bp : bp_vector) : size_node := class nm 0 [bp_report "m_bp" bp].
Definition da_report (nm : string) (d : darray) : size_node :=
  class nm 8 [vector "m_block_inventory" 8 (da_blocks d); vector "m_subblock_inventory" 2 (da_subs d); vector "m_overflow_positions" 8 (da_ovf d)].
Definition d64_report (nm : string) (d : darray64) : size_node :=
  class nm 8 [bv_report "m_bits" (d64_bits d); vector "m_block_inventory" 8 (d64_blocks d); vector "m_subblock_inventory" 2 (d64_subs d)].
Definition ef_report (nm : string) (ef : elias_fano) : size_node :=
  class nm 9 [bv_report "m_high_bits" (ef_high ef); da_report "m_high_bits_d1" (ef_d1 ef); da_report "m_high_bits_d0" (ef_d0 ef); bv_report "m_low_bits" (ef_low ef)].
Definition efl_report (nm : string) (ef : elias_fano) : size_node := class nm 0 [ef_report "m_ef" ef].
Definition efc_report (nm : string) (c : ef_compressed) : size_node := class nm 0 [ef_report "m_ef" (efc_ef c); bv_report "m_bits" (efc_bits c)].
Definition gamma_report (nm : string) (g : gamma) : size_node := class nm 0 [d64_report "m_high_bits" (g_high g); bv_report "m_low_bits" (g_low g)].
Definition nv_report (nm : string) (v : nibble_vector) : size_node := class nm 8 [vector "m_nibbles" 1 (nv_nibbles v)].
Definition tk_report (nm : string) (tk : topk_vector Z) : size_node := class nm 0 [vector "m_v" 8 (tk_v tk); ct_report "m_cartesian_tree" (tk_tree tk)].

Definition reported {A} (M : mappable A) (report : string -> A -> size_node) : Prop :=
  forall x nm, typed (layout_of M) (data_of M x) -> 8 + frozen_size (layout_of M) (data_of M x) < 2 ^ 64 ->
  size_tree_of (layout_of M) (data_of M x) nm = Ok (report nm x) /\ size_of (layout_of M) (data_of M x) = size_at (report nm x).
