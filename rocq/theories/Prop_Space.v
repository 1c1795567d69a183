(** C43 (containers modelled so far), C46. *)
From Verif Require Import Base M_BitVector M_RsBitVector M_Darray M_EliasFano S_EliasFano M_Gamma M_Util S_Util P_Util P_Space.

(** C46 *)
Theorem C46_rs_space : forall l h h0 rs, rs_build (bv_range l) h h0 = Ok rs ->
  zlen (bv_words (rs_bv rs)) = (zlen l + 63) / 64 /\
  zlen (rs_pairs rs) = 2 * ((zlen (bv_words (rs_bv rs)) + 7) / 8) + 2.
Proof. exact rs_space. Qed.
Print Assumptions C46_rs_space.
Example C46_rs_ex :
  (do rs <- rs_build (bv_range (repeat true 600)) true true; Ok (zlen (bv_words (rs_bv rs)), zlen (rs_pairs rs))) = Ok (10, 6).
Proof. vm_compute. reflexivity. Qed.

Theorem C46_ef_space : forall gr n m vs index, ef_input n m vs -> 0 < m -> exists ef,
  ef_make gr n m vs index = Ok ef /\
  (let l := Z.log2 (n / m) in ef_l ef = l /\
   bv_size (ef_low ef) = zlen vs * l /\ bv_size (ef_high ef) = m + n / 2 ^ l + 2).
Proof. exact ef_space. Qed.
Print Assumptions C46_ef_space.
Example C46_input : ef_input 1000 3 [5; 5; 800].
Proof. unfold ef_input. repeat split; try (intros; discriminate); repeat constructor; discriminate. Qed.
Example C46_ef_ex : ef_input 1000 3 [5; 5; 800] /\
  (do ef <- ef_make (fun c _ => 2 * c) 1000 3 [5; 5; 800] false; Ok (ef_l ef, bv_size (ef_low ef), bv_size (ef_high ef))) =
  Ok (8, 24, 8).
Proof. split; [exact C46_input|]. vm_compute. reflexivity. Qed.

Theorem C46_vbyte_space : forall val, 0 <= val < 2 ^ 64 -> vbyte_size val = Ok (vbytes_spec val).
Proof. exact vbyte_space. Qed.
Print Assumptions C46_vbyte_space.
Example C46_vbyte_ex : 0 <= 2 ^ 63 < 2 ^ 64 /\ vbyte_size (2 ^ 63) = Ok 10 /\ vbyte_size (2 ^ 62) = Ok 9.
Proof. vm_compute. intuition congruence. Qed.

(** C43: those whose default is empty; missing: the ones refuted below and those not modelled *)
Theorem C43_sizes_partial : bv_size bv_empty = 0 /\ ef_size (ef_empty 0) = 0 /\ nv_size nv_default = 0 /\
  bv_size (rs_bv rs_empty) = 0 /\ (forall l, efl_size (ef_empty l) = 0).
Proof. exact default_sizes. Qed.
Print Assumptions C43_sizes_partial.
Example C43_sizes_ex : bv_size bv_empty = 0 /\ efl_size (ef_empty 7) = 0.
Proof. vm_compute. auto. Qed.

(** a default gamma_vector (and gamma_bit_vector, the same class layout) claims 2^64 - 1
    elements, and an enumerator cannot be made for it *)
Theorem C43_gamma_refuted : gamma_size gamma_default = 2 ^ 64 - 1 /\
  gv_enum_new gamma_default 0 = Ub AssertFailed.
Proof. exact gamma_default_size. Qed.
Print Assumptions C43_gamma_refuted.

(** likewise elias_fano_compressed_list::size and elias_fano_list::sum *)
Theorem C43_lists_refuted : forall l,
  efc_size (mk_efc (ef_empty l) bv_empty) = 2 ^ 64 - 1 /\ efl_sum (ef_empty l) = 2 ^ 64 - 1.
Proof. exact efc_default_size. Qed.
Print Assumptions C43_lists_refuted.
