(** Proofs for C36: vectors of one integer type *)
From Verif Require Import Base Spec Lib M_Mapper S_Mapper P_Mapper.

Theorem vectors_use k (signed : bool) xs flags addr pre post : 0 < k ->
  Forall (fun x => if signed then - 2 ^ (8 * k - 1) <= x < 2 ^ (8 * k - 1) else 0 <= x < 2 ^ (8 * k)) xs -> 16 + k * zlen xs < 2 ^ 64 -> 0 <= flags < 2 ^ 64 ->
  exists bytes, freeze (layout_of (vec_map k signed)) (DVec xs) flags = (bytes, zlen bytes) /\ zlen bytes = 16 + k * zlen xs /\
    map_at false addr (pre ++ bytes ++ post) (layout_of (vec_map k signed)) (zlen pre) = Ok (DVec xs, zlen bytes).
Proof.
  intros Hk T B F. destruct (freeze_map_gen false addr (LVec k signed) (DVec xs) flags pre post) as (E1 & E2 & E3); [split; auto|cbn [frozen_size]; lia|exact F|].
  cbv zeta in *. cbn [layout_of vec_map]. destruct (freeze (LVec k signed) (DVec xs) flags) as [bytes n]. cbn [fst snd negb orb] in *. cbn [frozen_size] in E2. subst n.
  exists bytes. split; [reflexivity|]. split; [lia|exact E3].
Qed.
