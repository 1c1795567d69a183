(** The map() members of the structures where size_t has [w] bytes: M_Mapper is [w] = 8, a 32-bit
    build [w] = 4. The length of a mappable_vector, the flags and the other members have the same
    types in both (mappable_vector.hpp:120, mapper.hpp:96, 155). The byte counts of mapper.hpp:83, 133
    and bytes_read are size_t as well; for files of less than 4 GB they are the same numbers. *)
From Coq Require Strings.String.
From Verif Require Import Base M_Mapper.
Import String.StringSyntax.
Local Open Scope string_scope.
Local Open Scope Z_scope.

(** the type size_t of a member (bit_vector.hpp:525) *)
Notation size_t w := (LPod w false).

(** bit_vector.hpp:227-232, 525-526 *)
Definition bv_members_w (w : Z) : members := MCons "m_size" (size_t w) (MCons "m_bits" vec_uint64 MNil).
(** bit_vector.hpp:227-232 *)
Definition bv_layout (w : Z) : layout := LObj (bv_members_w w).

(** rs_bit_vector.hpp:26-34 *)
Definition rs_members_w (w : Z) : members := app_members (bv_members_w w)
  (MCons "m_block_rank_pairs" vec_uint64 (MCons "m_select_hints" vec_uint64 (MCons "m_select0_hints" vec_uint64 MNil))).
(** rs_bit_vector.hpp:26-34 *)
Definition rs_layout (w : Z) : layout := LObj (rs_members_w w).

(** bp_vector.hpp:28-36, 97-99: m_internal_nodes is a uint64_t *)
Definition bp_members_w (w : Z) : members := app_members (rs_members_w w)
  (MCons "m_internal_nodes" uint64 (MCons "m_block_excess_min" (LVec 2 true) (MCons "m_superblock_excess_min" (LVec 4 true) MNil))).
(** bp_vector.hpp:28-36 *)
Definition bp_layout (w : Z) : layout := LObj (bp_members_w w).

(** cartesian_tree.hpp:149-154 *)
Definition ct_layout (w : Z) : layout := LObj (MCons "m_bp" (bp_layout w) MNil).

(** darray.hpp:57-65, 139-142 *)
Definition da_layout (w : Z) : layout :=
  LObj (MCons "m_positions" (size_t w) (MCons "m_block_inventory" (LVec 8 true) (MCons "m_subblock_inventory" (LVec 2 false) (MCons "m_overflow_positions" vec_uint64 MNil)))).

(** darray64.hpp:56-64, 109-112 *)
Definition d64_layout (w : Z) : layout :=
  LObj (MCons "m_num_ones" (size_t w) (MCons "m_bits" (bv_layout w) (MCons "m_block_inventory" vec_uint64 (MCons "m_subblock_inventory" (LVec 2 false) MNil)))).

(** elias_fano.hpp:80-90, 266-271: m_size is a uint64_t *)
Definition ef_layout (w : Z) : layout :=
  LObj (MCons "m_size" uint64 (MCons "m_high_bits" (bv_layout w) (MCons "m_high_bits_d1" (da_layout w) (MCons "m_high_bits_d0" (da_layout w)
    (MCons "m_low_bits" (bv_layout w) (MCons "m_l" (LPod 1 false) MNil)))))).

(** elias_fano_list.hpp:57-62 *)
Definition efl_layout (w : Z) : layout := LObj (MCons "m_ef" (ef_layout w) MNil).

(** elias_fano_compressed_list.hpp:61-67 *)
Definition efc_layout (w : Z) : layout := LObj (MCons "m_ef" (ef_layout w) (MCons "m_bits" (bv_layout w) MNil)).

(** gamma_vector.hpp:59-65, gamma_bit_vector.hpp:65-71 *)
Definition gamma_layout (w : Z) : layout := LObj (MCons "m_high_bits" (d64_layout w) (MCons "m_low_bits" (bv_layout w) MNil)).

(** nibble_vector.hpp:42-47, 64-65 *)
Definition nv_layout (w : Z) : layout := LObj (MCons "m_size" (size_t w) (MCons "m_nibbles" (LVec 1 false) MNil)).

(** topk_vector.hpp:168-174 with a vector of uint64_t *)
Definition tk_layout (w : Z) : layout := LObj (MCons "m_v" vec_uint64 (MCons "m_cartesian_tree" (ct_layout w) MNil)).
