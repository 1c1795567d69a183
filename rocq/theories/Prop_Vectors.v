(** C36: vectors of one integer type *)
From Verif Require Import Base Spec M_Mapper P_Vectors.

(** values in the range of the type come back from the file, whatever is around it *)
Theorem C36_vectors k (signed : bool) xs flags addr pre post : 0 < k ->
  Forall (fun x => if signed then - 2 ^ (8 * k - 1) <= x < 2 ^ (8 * k - 1) else 0 <= x < 2 ^ (8 * k)) xs -> 16 + k * zlen xs < 2 ^ 64 -> 0 <= flags < 2 ^ 64 ->
  exists bytes, freeze (layout_of (vec_map k signed)) (DVec xs) flags = (bytes, zlen bytes) /\ zlen bytes = 16 + k * zlen xs /\
    map_at false addr (pre ++ bytes ++ post) (layout_of (vec_map k signed)) (zlen pre) = Ok (DVec xs, zlen bytes).
Proof. exact (vectors_use k signed xs flags addr pre post). Qed.
Print Assumptions C36_vectors.
Example C36_vectors_ex : 0 < 2 /\ Forall (fun x => 0 <= x < 2 ^ (8 * 2)) [65535; 1] /\ Forall (fun x => - 2 ^ (8 * 2 - 1) <= x < 2 ^ (8 * 2 - 1)) [-1; 1] /\
  16 + 2 * zlen [65535; 1] < 2 ^ 64 /\
  map_at false 0 (fst (freeze (LVec 2 false) (DVec [65535; 1]) 0)) (layout_of (vec_map 2 false)) 0 = Ok (DVec [65535; 1], 20) /\
  map_at false 0 (fst (freeze (LVec 2 true) (DVec [-1; 1]) 0)) (layout_of (vec_map 2 true)) 0 = Ok (DVec [-1; 1], 20).
Proof.
  split; [lia|]. split; [repeat (apply Forall_cons; [lia|]); apply Forall_nil|]. split; [repeat (apply Forall_cons; [lia|]); apply Forall_nil|].
  split; [vm_compute; reflexivity|]. split; vm_compute; reflexivity.
Qed.
