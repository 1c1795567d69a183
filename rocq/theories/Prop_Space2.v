(** C54: the lengths of the select indices and of the excess tree. *)
From Verif Require Import Base Spec M_BitVector M_RsBitVector M_Darray M_Bp S_Darray S_EliasFano S_Bp P_Space2.

Theorem C54_rs_hints : forall l h h0 rs, rs_build (bv_range l) h h0 = Ok rs ->
  zlen (rs_hints rs) <= (if h then Z.of_nat (count true l) / 1024 + 1 else 0) /\
  zlen (rs_hints0 rs) <= (if h0 then (Z.of_nat (count false l) + 510) / 1024 + 1 else 0).
Proof. exact rs_hints_space. Qed.
Print Assumptions C54_rs_hints.
Example C54_rs_hints_ex : Z.of_nat (count true (repeat true 2100)) / 1024 + 1 = 3 /\
  (do rs <- rs_build (bv_range (repeat true 2100)) true false; Ok (zlen (rs_hints rs), zlen (rs_hints0 rs))) = Ok (3, 0).
Proof. vm_compute. auto. Qed.

(** at most one stored position for 64 bits, however the bits lie *)
Theorem C54_darray : forall neg l, zlen l < 2 ^ 63 -> exists d, darray_build neg (bv_range l) = Ok d /\
  let m := Z.of_nat (count (negb neg) l) in
  zlen (da_blocks d) = (m + 1023) / 1024 /\ zlen (da_subs d) = (m + 31) / 32 /\ zlen (da_ovf d) <= m /\ 64 * zlen (da_ovf d) <= zlen l.
Proof. exact darray_space. Qed.
Print Assumptions C54_darray.
Example C54_darray_ex : zlen (repeat true 40) < 2 ^ 63 /\
  (do d <- darray_build false (bv_range (repeat true 40)); Ok (zlen (da_blocks d), zlen (da_subs d), zlen (da_ovf d))) = Ok (1, 2, 0).
Proof. vm_compute. auto. Qed.

Theorem C54_darray64 : forall gr skips, Forall (fun s => 0 <= s <= 64) skips -> zlen skips < 2 ^ 57 -> exists b d,
  append1_all gr d64_new skips = Ok b /\ d64_build b = Ok d /\
  zlen (d64_blocks d) = (zlen skips + 1023) / 1024 /\ zlen (d64_subs d) = (zlen skips + 63) / 64 /\
  bv_size (d64_bits d) = sum skips + zlen skips.
Proof. exact darray64_space. Qed.
Print Assumptions C54_darray64.
Example C54_darray64_ex : Forall (fun s => 0 <= s <= 64) [0; 64; 3] /\ zlen [0; 64; 3] < 2 ^ 57.
Proof. split; [repeat constructor; discriminate|reflexivity]. Qed.

(** a 16-bit minimum for 256 bits, and a 32-bit one for each leaf of 8192 bits and each node of the
    smallest complete tree above them *)
Theorem C54_bp : forall uninit h h0 l, zlen l < 2 ^ 31 -> prefix_ok l -> 0 < zlen l -> exists bp, bp_build uninit (bv_range l) h h0 = Ok bp /\
  zlen (bp_block_excess_min bp) = (zlen l + 255) / 256 /\
  (let leaves := (zlen l + 8191) / 8192 in
   leaves <= bp_internal_nodes bp < 2 * leaves /\ zlen (bp_superblock_excess_min bp) = bp_internal_nodes bp + leaves).
Proof. exact bp_space. Qed.
Print Assumptions C54_bp.
Example C54_bp_ex : exists bp, bp_build 0 (bv_range (repeat true 150 ++ repeat false 150)) false false = Ok bp /\
  zlen (bp_block_excess_min bp) = 2 /\ bp_internal_nodes bp = 1 /\ zlen (bp_superblock_excess_min bp) = 2.
Proof. eexists. split; [vm_compute; reflexivity|]. auto. Qed.
