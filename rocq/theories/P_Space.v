From Verif Require Import Base Spec Lib M_BitVector P_BvLib P_BitVector M_RsBitVector P_RsBuild P_RsQuery M_EliasFano S_BitVector S_EliasFano
  P_EliasFano P_EliasFano2 M_Darray M_Gamma M_Util P_RsGen.
From Coq Require Import Lia.

Lemma rs_space l h h0 rs : rs_build (bv_range l) h h0 = Ok rs ->
  zlen (bv_words (rs_bv rs)) = (zlen l + 63) / 64 /\
  zlen (rs_pairs rs) = 2 * ((zlen (bv_words (rs_bv rs)) + 7) / 8) + 2.
Proof.
  intros H. rewrite rs_build_eq in H. unfold rs_build_gen in H. rewrite bv_range_ok in H. unfold canonical in H. cbn [bv_words] in H.
  destruct (build_pairs_ok l) as (pairs & E & L & _). rewrite E in H. cbn [bind] in H.
  destruct (if h then hints_gen false pairs else Ok []) as [hs|]; [|discriminate]. cbn [bind] in H.
  destruct (if h0 then hints_gen true pairs else Ok []) as [hs0|]; [|discriminate]. cbn [bind] in H.
  injection H as <-. cbn [rs_bv bv_words rs_pairs]. split; [apply zlen_pack|]. rewrite L. reflexivity.
Qed.

Lemma ef_space gr n m vs idx : ef_input n m vs -> 0 < m -> exists ef, ef_make gr n m vs idx = Ok ef /\
  (let l := Z.log2 (n / m) in ef_l ef = l /\
   bv_size (ef_low ef) = zlen vs * l /\ bv_size (ef_high ef) = m + n / 2 ^ l + 2).
Proof.
  intros Hi Hm. destruct (ef_make_ok gr n m vs idx Hi) as (ef & H & E & OK). exists ef. split; [exact E|].
  destruct OK as (R & E1 & E2 & E3 & E4 & _). cbv zeta.
  assert (El : low_len n m = Z.log2 (n / m)).
  { unfold low_len. replace (m =? 0) with false by lia. cbn [orb]. destruct (Z.eqb_spec (n / m) 0) as [->|]; reflexivity. }
  rewrite El in *. split; [exact E2|]. rewrite E3, E4. unfold canonical. cbn [bv_size].
  destruct R as (Hl & _ & _ & _ & _ & HH & _). rewrite zlen_pieces by lia. split; [lia|].
  rewrite HH, Z.shiftr_div_pow2 by lia. lia.
Qed.

(** default-constructed containers *)
Lemma default_sizes : bv_size bv_empty = 0 /\ ef_size (ef_empty 0) = 0 /\ nv_size nv_default = 0 /\
  bv_size (rs_bv rs_empty) = 0 /\ (forall l, efl_size (ef_empty l) = 0).
Proof. repeat split. Qed.

Lemma gamma_default_size : gamma_size gamma_default = 2 ^ 64 - 1 /\
  gv_enum_new gamma_default 0 = Ub AssertFailed.
Proof. split; vm_compute; reflexivity. Qed.

Lemma efc_default_size l : efc_size (mk_efc (ef_empty l) bv_empty) = 2 ^ 64 - 1 /\ efl_sum (ef_empty l) = 2 ^ 64 - 1.
Proof. split; reflexivity. Qed.
