(** Proofs for C115: elias_fano *)
From Verif Require Import Base Spec Lib M_BitVector M_Darray M_EliasFano S_BitVector S_Darray S_EliasFano P_BvLib P_Darray P_EliasFano P_EliasFano2 S_Local P_Local P_LocalSel.

Lemma local_ef_built gr n m vs index : ef_input n m vs -> exists ef, ef_make gr n m vs index = Ok ef /\ 0 <= ef_l ef /\
  forall high low i v v0, nth_error vs i = Some v -> nth_error vs (32 * (i / 32)) = Some v0 -> bv_size (ef_low ef) = bv_size low ->
  same_at (fun j => (v0 / 2 ^ ef_l ef + Z.of_nat (32 * (i / 32))) / 64 <= j <= (v / 2 ^ ef_l ef + Z.of_nat i) / 64) (bv_words (ef_high ef)) (bv_words high) ->
  same_at (fun j => Z.of_nat i * ef_l ef / 64 <= j <= (Z.of_nat i * ef_l ef + ef_l ef - 1) / 64) (bv_words (ef_low ef)) (bv_words low) ->
  ef_select (mk_ef (ef_size ef) high (ef_d1 ef) (ef_d0 ef) low (ef_l ef)) (Z.of_nat i) = Ok v.
Proof.
  intros I. destruct (ef_make_ok gr n m vs index I) as (ef & H & E & OK). exists ef. split; [exact E|].
  assert (Hl : 0 <= ef_l ef) by (rewrite (ef_l_eq _ _ _ _ _ _ _ OK); apply OK). split; [exact Hl|].
  intros high low i v v0 Hv Hv0 Hz Sh Sl.
  apply W_of_nth in Hv. destruct Hv as [Hi Ev]. apply W_of_nth in Hv0. destruct Hv0 as [Hi0 Ev0].
  set (i0 := (32 * (i / 32))%nat) in *.
  pose proof (hp_select _ _ _ _ _ _ _ OK _ Hi) as Q. pose proof (hp_select _ _ _ _ _ _ _ OK _ Hi0) as P. rewrite Nat2Z.id in P, Q.
  pose proof (hp_range _ _ _ _ _ _ _ OK _ Hi) as Rq. pose proof (hp_range _ _ _ _ _ _ _ OK _ Hi0) as Rp.
  pose proof (d1_select _ _ _ _ _ _ _ OK _ Hi) as D. unfold darray1_select in D.
  assert (D' : darray1_select (ef_d1 ef) high (Z.of_nat i) = darray1_select (ef_d1 ef) (ef_high ef) (Z.of_nat i)).
  { unfold darray1_select. rewrite D. destruct OK as (_ & _ & L & Eh & _ & Dk & _).
    assert (X := local_darray_gen false H (ef_d1 ef) (fun j => darray_select_ok false H (ef_d1 ef) j Dk) high i _ _ P Q).
    rewrite !Z2Nat.id in X by lia. apply X. rewrite Eh in Sh. unfold hp. rewrite Ev, Ev0, !Z.shiftr_div_pow2, <- L by lia. exact Sh. }
  rewrite <- Ev, <- (ef_select_ok _ _ _ _ _ _ _ OK _ Hi). rewrite (local_ef ef low) by auto.
  unfold ef_select. cbn [ef_d1 ef_high ef_l ef_low]. rewrite D'. reflexivity.
Qed.
