(** Limits of bp_vector: long sequences, shifts by 64. *)
From Verif Require Import Base Spec Lib M_BitVector M_RsBitVector M_Bp S_BitVector P_BvLib P_Util P_BitVector P_RsBuild P_RsQuery P_BpWord P_BpBuild P_BpSpec S_Bp.
From Coq Require Import ZifyBool ZifyNat.

Lemma i32_high x : 2 ^ 31 <= x < 2 ^ 32 -> i32 x = x - 2 ^ 32.
Proof.
  intros H. unfold i32. replace ((x + 2 ^ 31) mod 2 ^ 32) with (x - 2 ^ 31); [lia|].
  apply (Z.mod_unique _ _ 1); lia.
Qed.

Lemma super_min_any mins : (forall b, 0 <= b < zlen mins -> - 8192 <= W mins b <= 8192) ->
  forall n b cur, 0 <= b -> b + Z.of_nat n <= zlen mins -> exists m, super_min_loop n mins b 0 cur = Ok m.
Proof.
  intros HR. induction n as [|n IH]; intros b cur Hb Hn; cbn [super_min_loop]; [eauto|].
  rewrite W_rd by lia. cbn [bind]. rewrite int32_ok by (specialize (HR b ltac:(lia)); lia). cbn [bind]. apply IH; lia.
Qed.

Lemma build_too_long l uninit h h0 : 2 ^ 31 <= zlen l < 2 ^ 32 -> bp_build uninit (bv_range l) h h0 = Ub AssertFailed.
Proof.
  intros Hsz. unfold bp_build. destruct (rs_range_ok l h h0) as (rs & Er & HR). rewrite Er. cbn [bind].
  assert (Ebv : rs_bv rs = canonical l) by apply HR. unfold build_min_tree.
  rewrite Ebv. cbn [canonical bv_size bv_words]. destruct (Z.eqb_spec (zlen l) 0) as [E0|E0]; [lia|].
  assert (Hp : 0 < zlen l) by lia.
  pose proof (geom l Hp) as (G1 & G2 & G3 & G4 & G5 & G6).
  destruct (block_mins_loop_ok l Hp (pack l) 0 [] 0 0) as (mins & bm & Em & HM & HB).
  { lia. } { reflexivity. } { intros k Hk. reflexivity. } { left. auto. }
  rewrite Em. cbn [bind].
  assert (X128 : (nw l - 1) / 4 / 32 = (nw l - 1) / 128) by (rewrite Z.div_div by lia; reflexivity).
  pose proof (Z.div_mod (nw l - 1) 4 ltac:(lia)) as D4. pose proof (Z.mod_pos_bound (nw l - 1) 4 ltac:(lia)) as B4.
  assert (Nb : nblk l = (nw l - 1) / 4 + 1) by lia.
  rewrite push_block_min_ok.
  2:{ apply block_min_range with l ((nw l - 1) / 4) (zlen l); [lia|lia|]. rewrite X128. exact HB. }
  cbn [bind]. set (mins2 := mins ++ [bm]).
  assert (HM2 : mins_ok l mins2 (nblk l)).
  { rewrite Nb. apply mins_snoc; [lia|exact HM|]. rewrite X128. unfold blk_end. rewrite Z.min_r by lia. exact HB. }
  clearbody mins2. clear mins bm Em HM HB.
  unfold bp_block_size, superblock_size, ceil_div. fold (nw l).
  assert (Nw : (nw l + 4 - 1) / 4 = nblk l) by (unfold nblk; f_equal; lia). rewrite Nw.
  pose proof (proj1 HM2) as HL2. rewrite HL2, Z.eqb_refl. unfold assert_ at 1. cbv iota.
  assert (Ns : (nblk l + 32 - 1) / 32 = nsup l) by (unfold nsup; f_equal; lia). rewrite Ns.
  destruct (complete_leaves_ok (nsup l) ltac:(lia) 64 0) as (H & EH & RH & NH & _); [lia|lia|auto|].
  change (2 ^ 0) with 1 in EH. rewrite EH. cbn [bind].
  destruct (Z.to_nat (nsup l)) as [|n] eqn:En; [lia|]. cbn [leaves_loop]. unfold superblock_size.
  replace (get_block_excess rs (0 * 32)) with (Ok 0 : res Z).
  2:{ unfold get_block_excess, bp_block_size. destruct HR as (_ & HP & _). pose proof (nb_words l).
      unfold nw in *. rewrite (sub_block_rank_ok l) by (auto; lia). reflexivity. }
  cbn [bind]. change ((0 + 1) * 32) with 32. change (0 * 32) with 0. rewrite HL2.
  destruct (super_min_any mins2) with (n := Z.to_nat (Z.min 32 (nblk l) - 0)) (b := 0) (cur := i32 (zlen l)) as (m & Em); [|lia|lia|].
  { intros b Hb. rewrite HL2 in Hb. pose proof (proj2 HM2 b Hb). apply block_min_range with l b (blk_end l b); auto; unfold blk_end; lia. }
  rewrite Em. cbn [bind]. rewrite i32_high by lia.
  replace ((0 <=? m) && (m <? zlen l - 2 ^ 32)) with false by lia. reflexivity.
Qed.

(** ()()()... *)
Definition flat (n : Z) : list bool := concat (repeat [true; false] (Z.to_nat n)).
Lemma flat_len n : 0 <= n -> zlen (flat n) = 2 * n.
Proof.
  intros Hn. unfold flat, zlen.
  assert (X : forall k, length (concat (repeat [true; false] k)) = (2 * k)%nat) by (induction k as [|k IH]; [reflexivity|cbn [repeat concat app length]; lia]).
  rewrite X. lia.
Qed.
Lemma flat_bal n : bal (flat n).
Proof.
  unfold flat. induction (Z.to_nat n) as [|k IH]; [constructor|]. cbn [repeat concat app].
  apply (bal_pair [] _ bal_nil IH).
Qed.
Lemma flat_depth n p : 0 <= depth (flat n) p <= 1.
Proof.
  unfold flat, depth, count. generalize (Z.to_nat p) (Z.to_nat n). intros q k. revert q.
  induction k as [|k IH]; intros q; [cbn [repeat concat]; rewrite firstn_nil; cbn; lia|]. cbn [repeat concat app].
  destruct q as [|[|q]]; [cbn; lia|cbn; lia|]. cbn [firstn]. specialize (IH q).
  assert (X : forall c u, (count_occ bool_dec (true :: false :: u) c = S (count_occ bool_dec u c))%nat) by (intros [] u; reflexivity).
  rewrite !X. lia.
Qed.

Lemma long_flat_fails uninit h h0 : exists l, bal l /\ zlen l = 2 ^ 31 /\ (forall p, 0 <= depth l p <= 1) /\
  bp_build uninit (bv_range l) h h0 = Ub AssertFailed.
Proof.
  exists (flat (2 ^ 30)). assert (L : zlen (flat (2 ^ 30)) = 2 ^ 31) by (rewrite flat_len by lia; reflexivity).
  split; [apply flat_bal|]. split; [exact L|]. split; [apply flat_depth|]. apply build_too_long. lia.
Qed.

Lemma strict_close l uninit h h0 p : zlen l < 2 ^ 31 -> prefix_ok l -> nth_error l p = Some true -> (p + 1 < length l)%nat ->
  (Z.of_nat p + 1) mod 64 = 0 -> exists bp, bp_build uninit (bv_range l) h h0 = Ok bp /\
  find_close strict_shift bp (Z.of_nat p) = Ub BadShift.
Proof.
  intros Hs HP Hp Hlt H64. destruct (bp_build_ok l uninit h h0 Hs (proj1 (prefix_ok_nonneg l) HP)) as (bp & Eb & HB).
  exists bp. split; [exact Eb|]. apply nth_zbit in Hp. destruct Hp as [Hp Zp].
  destruct HB as ((Hbv & _) & _). unfold find_close, bp_words. rewrite Hbv, bv_get_ok by lia. cbn [bind]. rewrite Zp.
  unfold assert_. cbv iota. cbn [canonical bv_words].
  assert (Hl : 0 < zlen l) by lia. pose proof (geom l Hl) as (G1 & G2 & _). unfold nw in *.
  pose proof (Z.div_mod (Z.of_nat p + 1) 64 ltac:(lia)). assert (Z.of_nat p + 1 < zlen l) by (unfold zlen; lia).
  rewrite W_rd by lia. cbn [bind]. rewrite H64. rewrite shr_ok by lia. cbn [bind]. reflexivity.
Qed.
Lemma strict_open l uninit h h0 p : zlen l < 2 ^ 31 -> prefix_ok l -> (0 < p < length l)%nat ->
  Z.of_nat p mod 64 = 0 -> exists bp, bp_build uninit (bv_range l) h h0 = Ok bp /\
  find_open strict_shift bp (Z.of_nat p) = Ub BadShift.
Proof.
  intros Hs HP Hp H64. destruct (bp_build_ok l uninit h h0 Hs (proj1 (prefix_ok_nonneg l) HP)) as (bp & Eb & HB).
  exists bp. split; [exact Eb|].
  destruct HB as ((Hbv & _) & _). unfold find_open, bp_words. rewrite Hbv.
  replace (negb (Z.of_nat p =? 0)) with true by lia. unfold assert_. cbv iota. cbn [canonical bv_words].
  assert (Hl : 0 < zlen l) by (unfold zlen; lia). pose proof (geom l Hl) as (G1 & G2 & _). unfold nw in *.
  pose proof (Z.div_mod (Z.of_nat p) 64 ltac:(lia)). assert (Z.of_nat p < zlen l) by (unfold zlen; lia).
  rewrite W_rd by lia. cbn [bind]. rewrite H64. reflexivity.
Qed.

