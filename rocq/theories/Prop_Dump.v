(** C65: the dump of a size tree. *)
From Coq Require Import Strings.String Strings.Ascii.
From Verif Require Import Base Spec M_BitVector M_RsBitVector M_EliasFano M_Mapper M_Dump S_BitVector S_Mapper S_Dump S_Report P_Mapper P_Dump P_Report.
Local Open Scope string_scope.
Local Open Scope Z_scope.

Theorem C65_dump : forall t depth, sizes_in t ->
  exists lines, dump t depth = fold_right String.append "" lines /\ Forall2 line_for (preorder depth t) lines.
Proof. exact dump_ok. Qed.
Print Assumptions C65_dump.
Definition C65_nl : string := String "010" "".
Example C65_dump_ex : sizes_in (Node "top" 24 [Node "a" 8 []; Node "b" 16 [Node "c" 16 []]]) /\
  dump (Node "top" 24 [Node "a" 8 []; Node "b" 16 [Node "c" 16 []]]) 0 =
    "top: 24" ++ C65_nl ++ "    a: 8" ++ C65_nl ++ "    b: 16" ++ C65_nl ++ "        c: 16" ++ C65_nl.
Proof. vm_compute. intuition congruence. Qed.
Theorem C65_structures : forall A (M : mappable A) x nm t,
  typed (layout_of M) (data_of M x) -> 8 + frozen_size (layout_of M) (data_of M x) < 2 ^ 64 ->
  size_tree_of (layout_of M) (data_of M x) nm = Ok t ->
  exists lines, dump t 0 = fold_right String.append "" lines /\ Forall2 line_for (preorder 0 t) lines.
Proof. exact @dump_tree. Qed.
Print Assumptions C65_structures.
Example C65_ex : exists rs t, rs_build (canonical [true; false; true]) true true = Ok rs /\
  typed (layout_of rs_map) (data_of rs_map rs) /\ 8 + frozen_size (layout_of rs_map) (data_of rs_map rs) < 2 ^ 64 /\
  size_tree_of (layout_of rs_map) (data_of rs_map rs) "<TOP>" = Ok t /\ sizes_in t /\
  dump t 0 = "<TOP>: 96" ++ C65_nl ++ "    m_bits: 16" ++ C65_nl ++ "    m_block_rank_pairs: 40" ++ C65_nl ++
    "    m_select_hints: 16" ++ C65_nl ++ "    m_select0_hints: 16" ++ C65_nl.
Proof.
  do 2 eexists. split; [vm_compute; reflexivity|]. split; [apply typedb_ok; vm_compute; reflexivity|]. split; [vm_compute; reflexivity|].
  split; [vm_compute; reflexivity|]. split; [vm_compute; intuition congruence|vm_compute; reflexivity].
Qed.

(** C65: the names and sizes in the tree of each structure *)
Theorem C65_report :
  (forall k signed, reported (vec_map k signed) (fun nm => vector nm k)) /\
  reported bv_map bv_report /\ reported rs_map rs_report /\ reported bp_map bp_report /\ reported ct_map ct_report /\
  reported da_map da_report /\ reported d64_map d64_report /\ reported ef_map ef_report /\ reported efl_map efl_report /\
  reported efc_map efc_report /\ reported gamma_map gamma_report /\ reported nv_map nv_report /\ reported tk_map tk_report.
Proof. exact all_reported. Qed.
Print Assumptions C65_report.
Definition C65_grow : growth := fun c _ => 2 * c + 8.
Example C65_report_ex : exists c, efc_build C65_grow [5; 0; 900] = Ok c /\
  typed (layout_of efc_map) (data_of efc_map c) /\ 8 + frozen_size (layout_of efc_map) (data_of efc_map c) < 2 ^ 64 /\
  map (fun n => snd (fst n)) (preorder 0 (efc_report "<TOP>" c)) = ["<TOP>"; "m_ef"; "m_high_bits"; "m_bits"; "m_high_bits_d1"; "m_block_inventory";
    "m_subblock_inventory"; "m_overflow_positions"; "m_high_bits_d0"; "m_block_inventory"; "m_subblock_inventory"; "m_overflow_positions";
    "m_low_bits"; "m_bits"; "m_bits"; "m_bits"] /\ size_at (efc_report "<TOP>" c) = size_of (layout_of efc_map) (data_of efc_map c).
Proof.
  eexists. split; [vm_compute; reflexivity|]. split; [apply typedb_ok; vm_compute; reflexivity|]. split; [vm_compute; reflexivity|].
  split; vm_compute; reflexivity.
Qed.
