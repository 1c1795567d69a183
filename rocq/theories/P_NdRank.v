(** Proofs for C96: rank past the end in a build without assertions *)
From Verif Require Import Base Spec Lib M_Broadword P_Broadword P_Broadword2 M_BitVector S_BitVector P_BvLib P_BitVector P_BvRank M_RsBitVector P_RsGen P_RsBuild P_RsQuery M_Nd.
From Coq Require Import ZifyBool.

Lemma count_zeros : forall n m, count true (firstn n (repeat false m)) = 0%nat.
Proof. induction n as [|n IH]; intros [|m]; cbn [repeat firstn]; auto. rewrite count_cons, IH. reflexivity. Qed.

Lemma sub_block_rank_past l pairs k : pinv l pairs -> zlen (pack l) <= k ->
  sub_block_rank pairs k = if k / 8 <=? nb l then Ok (Z.of_nat (count true l)) else Ub OutOfBounds.
Proof.
  intros P Hk. pose proof (zlen_nonneg (pack l)) as Z0. pose proof (nb_nonneg l) as N0. pose proof (nb_words l) as Nw.
  pose proof (Z.div_mod k 8 ltac:(lia)) as D. pose proof (Z.mod_pos_bound k 8 ltac:(lia)) as M.
  destruct (Z_lt_le_dec k (8 * nb l)) as [L|L].
  - rewrite (sub_block_rank_ok l) by (auto; lia). rewrite G_words by exact Hk. replace (k / 8 <=? nb l) with true by lia. reflexivity.
  - unfold sub_block_rank, block_size. set (b := k / 8) in *. set (s := k mod 8) in *. clearbody b s. pose proof P as (Lp & _ & W0).
    destruct (Z.leb_spec b (nb l)) as [Lb|Lb].
    + replace b with (nb l) by lia. change (block_rank pairs (nb l)) with (block_rank_gen false pairs (nb l)).
      rewrite (block_rank_ok false l) by (auto; lia). cbn [bind]. rewrite G_words by lia. unfold sub_block_ranks. rewrite W_rd by lia.
      replace (nb l * 2 + 1) with (2 * nb l + 1) by lia. rewrite W0. cbn [bind]. rewrite shr_ok by lia. cbn [bind]. rewrite Z.shiftr_0_l, Z.land_0_l, Z.add_0_r. reflexivity.
    + unfold block_rank. rewrite rd_oob by lia. reflexivity.
Qed.

Lemma nd_rank_past l h h0 : exists rs, rs_build (bv_range l) h h0 = Ok rs /\ forall pos, zlen l < pos ->
  nd_rs_rank rs pos = if (pos <? 64 * ((zlen l + 63) / 64)) || (pos mod 64 =? 0) && (pos / 512 <=? ((zlen l + 63) / 64 + 7) / 8)
                      then Ok (Z.of_nat (count true l)) else Ub OutOfBounds.
Proof.
  rewrite bv_range_ok. destruct (rs_build_ok l h h0) as (rs & Er & R). exists rs. split; [exact Er|]. intros pos Hp.
  pose proof R as (Ebv & P & _). unfold nd_rs_rank. rewrite Ebv. cbn [canonical bv_size bv_words].
  replace (pos =? zlen l) with false by lia. pose proof (zlen_nonneg l) as Z0. pose proof (words_ok_pack l) as (_ & EW & _).
  pose proof (nb_words l) as Nw. pose proof (nb_nonneg l) as N0.
  assert (Enb : ((zlen l + 63) / 64 + 7) / 8 = nb l) by (unfold nb; rewrite EW; reflexivity). rewrite Enb.
  rewrite <- EW. clear Enb.
  pose proof (Z.div_mod pos 64 ltac:(lia)) as D. pose proof (Z.mod_pos_bound pos 64 ltac:(lia)) as M.
  assert (E8 : pos / 512 = pos / 64 / 8) by (rewrite Z.div_div by lia; reflexivity). rewrite E8. clear E8.
  destruct (Z.ltb_spec pos (64 * zlen (pack l))) as [L|L]; cbn [orb].
  - assert (Hk : 0 <= pos / 64 < zlen (pack l)) by lia.
    rewrite (sub_block_rank_ok l) by (auto; lia). cbn [bind].
    assert (T : rank true (bpad l) (Z.to_nat pos) = count true l).
    { unfold bpad. rewrite rank_app2 by (unfold zlen in *; lia). unfold rank. rewrite count_zeros. lia. }
    rewrite <- T. clear T. set (k := pos / 64) in *. set (s := pos mod 64) in *. clearbody k s. rewrite D.
    destruct (Z.eqb_spec s 0) as [->|Hs].
    + rewrite Z.add_0_r. reflexivity.
    + rewrite W_rd by auto. cbn [bind]. rewrite shl_ok by lia. cbn [bind].
      rewrite (rank_low (W (pack l) k)); try lia; auto.
      * apply W_bpad; lia.
      * rewrite zlen_bpad. lia.
  - assert (Hk : zlen (pack l) <= pos / 64) by (apply Z.div_le_lower_bound; lia).
    rewrite (sub_block_rank_past l) by auto. destruct (pos / 64 / 8 <=? nb l); cbn [bind]; destruct (Z.eqb_spec (pos mod 64) 0) as [Es|Es]; cbn [andb]; try reflexivity.
    rewrite rd_oob by lia. reflexivity.
Qed.
