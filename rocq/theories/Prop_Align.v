(** C52: exactly which structures map with aligned reads. *)
From Verif Require Import Base Spec M_BitVector M_RsBitVector M_Darray M_EliasFano M_Gamma M_Util M_Bp M_Cartesian M_Topk M_Mapper.
From Verif Require Import S_BitVector S_Darray S_EliasFano S_Bp S_Mapper S_Align P_Mapper P_Align P_Align2.

(** darray64 is always aligned, elias_fano_compressed_list never; the others are if their 16-bit
    arrays fill whole words. *)
Theorem C52_exact_refuted :
  aligned_iff da_map (fun d => fills (zlen (da_subs d))) /\
  aligned_iff d64_map (fun _ => true) /\
  aligned_iff ef_map (fun ef => fills (zlen (da_subs (ef_d1 ef))) && fills (zlen (da_subs (ef_d0 ef)))) /\
  aligned_iff efl_map (fun ef => fills (zlen (da_subs (ef_d1 ef))) && fills (zlen (da_subs (ef_d0 ef)))) /\
  aligned_iff efc_map (fun _ => false) /\
  aligned_iff gamma_map (fun g => fills (zlen (d64_subs (g_high g)))) /\
  aligned_iff bp_map (fun bp => fills (zlen (bp_block_excess_min bp))) /\
  aligned_iff ct_map (fun bp => fills (zlen (bp_block_excess_min bp))) /\
  aligned_iff tk_map (fun tk => fills (zlen (bp_block_excess_min (tk_tree tk)))).
Proof. exact alignments. Qed.
Print Assumptions C52_exact_refuted.
Example C52_exact_ex : exists g, gv_build (fun c n => 2 * c) [5; 0; 900] = Ok g /\
  typed (layout_of gamma_map) (data_of gamma_map g) /\ 8 + frozen_size (layout_of gamma_map) (data_of gamma_map g) < 2 ^ 64 /\
  64 mod 8 = 0 /\ fills (zlen (d64_subs (g_high g))) = false.
Proof.
  eexists. split; [vm_compute; reflexivity|]. split; [apply typedb_ok; vm_compute; reflexivity|].
  split; [vm_compute; reflexivity|]. split; reflexivity.
Qed.

(** The same for the structures the constructors build, in terms of what they are built from. *)
Theorem C52_darray_refuted : forall neg l, zlen l < 2 ^ 63 -> exists d, darray_build neg (bv_range l) = Ok d /\
  maps_aligned da_map d (fills ((Z.of_nat (count (negb neg) l) + 31) / 32)).
Proof. exact da_maps. Qed.
Print Assumptions C52_darray_refuted.
Example C52_darray_ex : (zlen (repeat true 97) < 2 ^ 63) /\ fills ((Z.of_nat (count true (repeat true 97)) + 31) / 32) = true /\
  fills ((Z.of_nat (count true (repeat true 96)) + 31) / 32) = false.
Proof. vm_compute. auto. Qed.
Theorem C52_elias_fano_refuted : forall gr n m vs idx, ef_input n m vs -> exists ef, ef_make gr n m vs idx = Ok ef /\
  maps_aligned ef_map ef
    (fills ((zlen vs + 31) / 32) && (negb idx || fills ((m - zlen vs + 2 + n / 2 ^ Z.log2 (n / m) + 31) / 32))).
Proof. exact ef_maps. Qed.
Print Assumptions C52_elias_fano_refuted.
Example C52_elias_fano_ex : ef_input 4 2 [1; 4] /\ fills ((zlen [1; 4] + 31) / 32) = false.
Proof.
  split; [|reflexivity]. unfold ef_input. change (zlen [1; 4]) with 2. repeat split; try lia.
  - repeat constructor; lia.
  - repeat constructor; lia.
Qed.
Theorem C52_bp_vector_refuted : forall uninit h h0 l, zlen l < 2 ^ 31 -> prefix_ok l -> 0 < zlen l -> 0 <= uninit < 2 ^ 64 ->
  exists bp, bp_build uninit (bv_range l) h h0 = Ok bp /\ maps_aligned bp_map bp (fills ((zlen l + 255) / 256)).
Proof. exact bp_maps. Qed.
Print Assumptions C52_bp_vector_refuted.
Example C52_bp_vector_ex : prefix_ok [true; false] /\ 0 < zlen [true; false] < 2 ^ 31 /\ fills ((zlen [true; false] + 255) / 256) = false.
Proof.
  split; [|vm_compute; auto].
  intros p Hp. change (zlen [true; false]) with 2 in Hp. assert (p = 0 \/ p = 1 \/ p = 2) as [-> | [-> | ->]] by lia; vm_compute; discriminate.
Qed.
Theorem C52_trees_refuted : forall gr uninit lt v, 2 * zlen v + 2 < 2 ^ 31 -> Forall (fun x => 0 <= x < 2 ^ 64) v -> 0 <= uninit < 2 ^ 64 ->
  exists tk, tk_build gr uninit lt v = Ok tk /\ maps_aligned tk_map tk (fills ((2 * zlen v + 257) / 256)).
Proof. exact tk_maps. Qed.
Print Assumptions C52_trees_refuted.
Example C52_trees_ex : 2 * zlen [4; 9; 2] + 2 < 2 ^ 31 /\ Forall (fun x => 0 <= x < 2 ^ 64) [4; 9; 2] /\
  fills ((2 * zlen [4; 9; 2] + 257) / 256) = false /\ prefix_ok [true; false] /\ fills ((zlen [true; false] + 255) / 256) = false.
Proof.
  split; [reflexivity|]. split; [repeat constructor; discriminate|]. split; [reflexivity|]. split; [|reflexivity].
  intros p Hp. change (zlen [true; false]) with 2 in Hp. assert (p = 0 \/ p = 1 \/ p = 2) as [-> | [-> | ->]] by lia; vm_compute; discriminate.
Qed.
Theorem C52_gamma_vector_refuted : forall gr ints, Forall (fun x => 0 <= x < 2 ^ 64 - 1) ints -> zlen ints < 2 ^ 57 ->
  exists g, gv_build gr ints = Ok g /\ maps_aligned gamma_map g (fills ((zlen ints + 64) / 64)).
Proof. exact gv_maps. Qed.
Print Assumptions C52_gamma_vector_refuted.
Example C52_gamma_vector_ex : Forall (fun x => 0 <= x < 2 ^ 64 - 1) [5; 0; 900] /\ zlen [5; 0; 900] < 2 ^ 57 /\
  fills ((zlen [5; 0; 900] + 64) / 64) = false.
Proof. split; [repeat constructor; discriminate|]. vm_compute. auto. Qed.
Theorem C52_gamma_bit_vector_refuted : forall gr ints, Forall (fun x => 0 <= x < 2 ^ 64 - 2) ints -> zlen ints < 2 ^ 57 ->
  exists g, gb_build gr ints = Ok g /\ maps_aligned gamma_map g (fills ((zlen ints + 64) / 64)).
Proof. exact gb_maps. Qed.
Print Assumptions C52_gamma_bit_vector_refuted.
Example C52_gamma_ex : Forall (fun x => 0 <= x < 2 ^ 64 - 2) [5; 0; 900] /\ zlen [5; 0; 900] < 2 ^ 57 /\
  fills ((zlen [5; 0; 900] + 64) / 64) = false /\ fills ((zlen (repeat 7 200) + 64) / 64) = true.
Proof. split; [repeat constructor; discriminate|]. vm_compute. auto. Qed.
