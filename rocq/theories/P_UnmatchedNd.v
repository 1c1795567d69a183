(** enclose of a root in a build without assertions: an endless loop, or a read outside the arrays. *)
From Verif Require Import Base Spec Lib S_BitVector M_Broadword P_Broadword P_Broadword2 P_Broadword3 M_BitVector P_BvLib P_BitVector P_BvRank P_BvEnum
  M_RsBitVector P_RsBuild P_RsQuery M_Bp P_BpWord P_BpBuild P_BpSearch S_Bp P_BpSpec S_Unmatched P_Unmatched S_Nd M_Nd M_NdBp P_Nd P_NdBp.
From Coq Require Import ZifyBool ZifyNat.

Lemma le_ok {A} (r r' : res A) x : le r r' -> r = Ok x -> r' = Ok x.
Proof. intros [H]. apply H. Qed.

Lemma up_zero bp e : forall fuel, nd_tree_up_loop fuel false bp 0 e = Ub OutOfFuel.
Proof. induction fuel as [|fuel IH]; [reflexivity|]. cbn [nd_tree_up_loop]. change (Bool.eqb (Z.odd 0) false) with true. cbv iota. exact IH. Qed.

Section Root.
Context (l : list bool) (bp : bp_vector).
Hypothesis HB : bp_ok l bp.
Hypothesis Hp : 0 < zlen l.
Hypothesis H0 : rd (bp_superblock_excess_min bp) 0 = Ok (i32 (zlen l)).
Context (H : Z).
Hypothesis HI : bp_internal_nodes bp = 2 ^ H.
Hypothesis HT : tree_ok l H (bp_superblock_excess_min bp).

Lemma up_endless : forall fuel h j, 0 <= h <= H -> 0 <= j < 2 ^ (H - h) -> j * 2 ^ h < nsup l ->
  nd_tree_up_loop fuel false bp (2 ^ (H - h) + j) (-1) = Ub OutOfFuel.
Proof.
  pose proof HT as (T0 & T1 & T2 & T3). pose proof HB as (HR & Hsz & HN & _).
  induction fuel as [|fuel IH]; intros h j Hh Hj Hs; [reflexivity|].
  assert (P : 0 < 2 ^ (H - h)) by (apply Z.pow_pos_nonneg; lia).
  cbn [nd_tree_up_loop].
  destruct (Z.eq_dec h H) as [->|HhH].
  { rewrite Z.sub_diag in *. change (2 ^ 0) with 1 in *. replace j with 0 by lia. change (1 + 0) with 1. change (Z.odd 1) with true. cbn [eqb].
    change (sub64 1 1) with 0. unfold nd_in_node_range. rewrite H0. cbn [bind]. rewrite i32_small by lia.
    replace (zlen l <=? -1) with false by lia. change (1 / 2) with 0. apply up_zero. }
  assert (Ph : 0 < 2 ^ h) by (apply Z.pow_pos_nonneg; lia).
  assert (PS : 2 ^ (H - h) = 2 * 2 ^ (H - (h + 1))) by (rewrite <- pow2_succ by lia; f_equal; lia).
  assert (Hpar : (2 ^ (H - h) + j) / 2 = 2 ^ (H - (h + 1)) + j / 2).
  { rewrite PS. rewrite Z.mul_comm, Z.div_add_l by lia. reflexivity. }
  assert (Hodd : Z.odd (2 ^ (H - h) + j) = Z.odd j).
  { rewrite PS, Z.odd_add, Z.odd_mul. destruct (Z.odd j); reflexivity. }
  pose proof (Z.div_mod j 2 ltac:(lia)) as Dj. pose proof (Z.mod_pos_bound j 2 ltac:(lia)) as Mj.
  assert (NX : nd_tree_up_loop fuel false bp (2 ^ (H - (h + 1)) + j / 2) (-1) = Ub OutOfFuel).
  { apply IH; [lia|lia|]. rewrite pow2_succ by lia. replace (j / 2 * (2 * 2 ^ h)) with (2 * (j / 2) * 2 ^ h) by lia.
    assert (2 * (j / 2) * 2 ^ h <= j * 2 ^ h) by (apply Z.mul_le_mono_nonneg_r; lia). lia. }
  rewrite Hodd, Hpar. rewrite Zmod_odd in Dj. destruct (Z.odd j); cbn [eqb]; [|exact NX].
  assert (PB : 2 ^ (H - h) <= 2 ^ 33) by (apply Z.pow_le_mono_r; lia).
  rewrite sub64_ok by lia. replace (2 ^ (H - h) + j - 1) with (2 ^ (H - h) + (j - 1)) by lia.
  assert (0 <= (j - 1) * 2 ^ h < j * 2 ^ h) by (split; [apply Z.mul_nonneg_nonneg; lia|apply Z.mul_lt_mono_pos_r; lia]).
  destruct (in_node_range_ok l bp (-1) HB Hp H HT h (j - 1)) as (b & Eb & Hb); [lia|lia|lia|].
  rewrite (le_ok _ _ _ (nd_in_node_range_le bp _ _) Eb). cbn [bind]. destruct b; [|exact NX].
  destruct Hb as (k & Hk & Hkn & (_ & q & Hq & Eq)). exfalso. unfold sup_end in Hq. specialize (HN q ltac:(lia)). lia.
Qed.

Lemma nd_search_min_tree_root b : 0 <= b -> 256 * (b + 1) <= zlen l ->
  nd_search_min_tree false bp b (-1) = Ub OutOfFuel /\ forall fuel, nd_tree_up_loop fuel false bp (bp_internal_nodes bp + b / 32) (-1) = Ub OutOfFuel.
Proof.
  intros Hb Hz. pose proof (geom l Hp) as (G1 & G2 & G3 & G4 & G5 & G6). pose proof HT as (T0 & T1 & T2 & T3). pose proof HB as (HR & Hsz & HN & _).
  pose proof (Z.div_mod b 32 ltac:(lia)) as D. pose proof (Z.mod_pos_bound b 32 ltac:(lia)) as M.
  assert (U : forall fuel, nd_tree_up_loop fuel false bp (bp_internal_nodes bp + b / 32) (-1) = Ub OutOfFuel).
  { intros fuel. rewrite HI. pose proof (up_endless fuel 0 (b / 32) ltac:(lia)) as U. rewrite Z.sub_0_r in U. change (2 ^ 0) with 1 in U. apply U; lia. }
  split; [|exact U]. unfold nd_search_min_tree.
  destruct (search_block_bwd l bp (-1) HB Hp b Hb Hz) as [(c' & Ec & Hc & (q & Hq & Eq) & _)|[Ec _]].
  { exfalso. specialize (HN q ltac:(lia)). lia. }
  rewrite (le_ok _ _ _ (nd_search_block_in_superblock_le false bp b (-1)) Ec). cbn [bind]. unfold superblock_size. rewrite U. reflexivity.
Qed.
End Root.

Lemma nd_open_block_loop_root l bo : 0 <= bo -> forall n, bo + Z.of_nat n <= nw l -> (forall k, 0 <= k <= 64 * (bo + Z.of_nat n) -> 0 <= E l k < 2 ^ 31 - 1) ->
  nd_open_block_loop n (pack l) bo (E l (64 * (bo + Z.of_nat n)) + 1) = Ok None.
Proof.
  intros Hbo. induction n as [|n IH]; intros Hn HE; [reflexivity|].
  cbn [nd_open_block_loop]. set (s := bo + Z.of_nat n) in *. replace (bo + Z.of_nat (S n)) with (s + 1) in * by lia.
  pose proof (HE (64 * (s + 1)) ltac:(lia)) as HE1. pose proof (HE (64 * s) ltac:(lia)) as HE0.
  rewrite W_rd by (unfold nw in *; lia). cbn [bind]. set (w := W (pack l) s).
  assert (Uw : is_u64 w) by apply W_pack_u64.
  pose proof (fun k => ex_down l s k ltac:(lia)) as ED. fold w in ED.
  set (e := E l (64 * (s + 1)) + 1) in *.
  set (r0 := if e <=? 64 then nd_find_open_in_word w (byte_counts w) e else Ok None).
  assert (HR : (exists r, r0 = Ok (Some (63 - r)) /\ first_zero (down w) e 64 r) \/ (r0 = Ok None /\ no_zero (down w) e 64)).
  { unfold r0. destruct (Z.leb_spec e 64).
    - destruct (find_open_in_word_ok w e Uw ltac:(lia)) as [(r & X & F)|[X F]]; [left; exists r|right]; (split; [|exact F]);
        exact (le_ok _ _ _ (nd_find_open_in_word_le w (byte_counts w) e) X).
    - right. split; [reflexivity|]. intros k Hk. pose proof (ex_bound (down w) k). lia. }
  clearbody r0. destruct HR as [(r & -> & R0 & R1 & R2)|[-> NZ]]; cbn [bind].
  - exfalso. rewrite ED in R1 by lia. specialize (HE (64 * (s + 1) - (r + 1)) ltac:(lia)). lia.
  - rewrite bytes_sum_ex by exact Uw. pose proof (ex_bound (Z.testbit w) 64 ltac:(lia)). rewrite i32_small by lia.
    assert (ES : e - ex (Z.testbit w) 64 = E l (64 * s) + 1).
    { pose proof (E_word l s 64 ltac:(lia) ltac:(lia)) as EW. fold w in EW. unfold e.
      replace (64 * (s + 1)) with (64 * s + 64) by lia. lia. }
    rewrite ES, int32_ok by lia. cbn [bind]. apply IH; [lia|]. intros k Hk. apply HE. lia.
Qed.

Lemma nd_find_open_root f l bp pos : bp_ok l bp -> rd (bp_superblock_excess_min bp) 0 = Ok (i32 (zlen l)) -> 0 <= pos < zlen l -> E l pos = 0 ->
  nd_find_open (loose_shift f) bp pos = Ub (if pos <? 256 then OutOfBounds else OutOfFuel) /\
  (256 <= pos -> forall fuel, nd_tree_up_loop fuel false bp (bp_internal_nodes bp + (pos / 256 - 1) / 32) (-1) = Ub OutOfFuel).
Proof.
  intros HB H0 Hpos E0. assert (Hp : 0 < zlen l) by lia. unfold nd_find_open.
  pose proof HB as (HR & Hsz & HN & HMT). destruct (HMT Hp) as (HM & H & HI & HT).
  pose proof (geom l Hp) as (G1 & G2 & G3 & G4 & G5 & G6).
  assert (Ebv : rs_bv (bp_rs bp) = canonical l) by apply HR.
  assert (Ew : bp_words bp = pack l) by (unfold bp_words; rewrite Ebv; reflexivity). rewrite Ew.
  assert (HE : forall k, 0 <= k <= pos -> 0 <= E l k < 2 ^ 31 - 1).
  { intros k Hk. split; [apply HN; lia|]. pose proof (E_lip l k pos ltac:(lia)). pose proof (E_lip l 0 k ltac:(lia)). rewrite E_0 in *. lia. }
  pose proof (Z.div_mod pos 64 ltac:(lia)) as D. pose proof (Z.mod_pos_bound pos 64 ltac:(lia)) as M.
  set (wp := pos / 64) in *. set (ln := pos mod 64) in *.
  rewrite W_rd by (unfold nw in *; lia). cbn [bind].
  set (w := W (pack l) wp).
  destruct (words_ok_pack l) as (_ & _ & BW).
  assert (HS : exists sw, shl_p (loose_shift f) w (64 - ln) = Ok sw /\ is_u64 (if ln =? 0 then 0 else sw) /\
    forall i, 0 <= i < 64 -> Z.testbit (if ln =? 0 then 0 else sw) i = (64 - ln <=? i) && zbit l (pos - 64 + i)).
  { unfold shl_p. destruct (Z.eqb_spec ln 0) as [L0|L0].
    - rewrite L0. replace ((0 <=? 64 - 0) && (64 - 0 <? 64)) with false by lia. eexists. split; [reflexivity|]. split; [unfold is_u64; lia|].
      intros i Hi. rewrite Z.testbit_0_l. replace (64 - 0 <=? i) with false by lia. reflexivity.
    - replace ((0 <=? 64 - ln) && (64 - ln <? 64)) with true by lia. eexists. split; [reflexivity|]. split; [apply is_u64_u64|].
      intros i Hi. unfold u64. rewrite Z.mod_pow2_bits_low by lia. rewrite Z.shiftl_spec by lia.
      destruct (Z.leb_spec (64 - ln) i); [|apply Z.testbit_neg_r; lia].
      unfold w. rewrite BW by lia. cbn [andb]. f_equal. lia. }
  destruct HS as (sw0 & -> & Usw & Hsw). cbn [bind]. set (sw := if ln =? 0 then 0 else sw0) in *. clearbody sw.
  assert (EP : forall k, 0 <= k <= ln -> ex (down sw) k = E l (pos - k)).
  { intros k Hk. rewrite (ex_ext _ (fun i => negb (zbit l (pos - 1 - i)))).
    - rewrite (ex_negb (fun i => zbit l (pos - 1 - i))). rewrite ex_rev by lia. unfold E in *. lia.
    - intros i Hi. unfold down. rewrite Hsw by lia. replace (64 - ln <=? 63 - i) with true by lia. cbn [andb]. do 2 f_equal. lia. }
  assert (EP2 : forall k, ln <= k <= 64 -> ex (down sw) k = ex (down sw) ln + (k - ln)).
  { intros k Hk. replace k with (ln + (k - ln)) at 1 by lia. rewrite ex_shift by lia. f_equal.
    set (n := k - ln). assert (Hn : 0 <= n <= 64 - ln) by lia. destruct Hn as [Hn0 Hn1]. clearbody n. revert Hn1.
    apply (ex_ind (fun n => n <= 64 - ln -> ex (fun i => down sw (ln + i)) n = n)); [reflexivity| |exact Hn0].
    intros i Hi IH Hi2. rewrite ex_succ, IH by lia. unfold down. rewrite Hsw by lia. replace (64 - ln <=? 63 - (ln + i)) with false by lia.
    cbn [andb negb]. lia. }
  destruct (find_open_in_word_ok sw 1 Usw ltac:(lia)) as [(r & X & R0 & R1 & R2)|[X NZ]];
    rewrite (le_ok _ _ _ (nd_find_open_in_word_le sw (byte_counts sw) 1) X); cbn [bind]; clear X.
  - exfalso. destruct (Z_lt_le_dec r ln).
    + rewrite EP in R1 by lia. specialize (HE (pos - (r + 1)) ltac:(lia)). lia.
    + rewrite EP2 in R1 by lia. rewrite EP in R1 by lia. specialize (HE (pos - ln) ltac:(lia)). lia.
  - pose proof (EP2 64 ltac:(lia)) as EPs. pose proof (bytes_sum_ex sw Usw) as BS.
    assert (ED64 : ex (down sw) 64 = - ex (Z.testbit sw) 64).
    { unfold down. rewrite ex_negb. f_equal. rewrite (ex_ext _ (fun i => Z.testbit sw (64 - 1 - i))) by (intros; f_equal; lia).
      rewrite ex_rev by lia. replace (64 - 64) with 0 by lia. rewrite ex_0. lia. }
    pose proof (EP ln ltac:(lia)) as EPm. replace (pos - ln) with (64 * wp) in EPm by lia.
    pose proof (ex_bound (down sw) ln ltac:(lia)) as Bnd.
    replace (2 * bytes_sum (byte_counts sw) - ln) with (- ex (down sw) ln) by lia.
    rewrite i32_small by lia. rewrite int32_ok by lia. cbn [bind].
    replace (- - ex (down sw) ln + 1) with (E l (64 * wp) + 1) by lia.
    rewrite int32_ok by lia. cbn [bind].
    pose proof (Z.div_mod wp 4 ltac:(lia)) as D4. pose proof (Z.mod_pos_bound wp 4 ltac:(lia)) as M4.
    unfold bp_block_size in *. set (b := wp / 4) in *. set (sb := wp mod 4) in *.
    assert (HBk : nd_find_open_in_block (pack l) (b * 4) (E l (64 * wp) + 1) sb = Ok None).
    { unfold nd_find_open_in_block. destruct (_ <? _); [reflexivity|].
      pose proof (nd_open_block_loop_root l (b * 4) ltac:(lia) (Z.to_nat sb)) as HO. replace (b * 4 + Z.of_nat (Z.to_nat sb)) with wp in HO by lia.
      apply HO; [lia|]. intros k Hk. apply HE. lia. }
    rewrite HBk. cbn [bind].
    assert (EX : excess bp pos = Ok (E l pos)) by (apply (excess_ok l); auto; lia).
    rewrite (le_ok _ _ _ (nd_excess_le bp pos) EX). cbn [bind]. rewrite E0, int32_ok by lia. cbn [bind]. change (0 - 1) with (-1).
    assert (Eb : b = pos / 256). { apply (Z.div_unique pos 256 b (pos - 256 * b)); lia. }
    destruct (Z.ltb_spec pos 256) as [L|L].
    + replace b with 0 by lia. change (sub64 0 1) with (2 ^ 64 - 1). split; [|lia].
      unfold nd_search_min_tree, nd_search_block_in_superblock, nd_get_block_excess.
      change ((2 ^ 64 - 1) / superblock_size * superblock_size * bp_block_size) with ((2 ^ 64 - 32) * 4).
      unfold sub_block_rank, block_rank. change ((2 ^ 64 - 32) * 4 / block_size * 2) with (2 ^ 64 - 32). rewrite rd_oob; [reflexivity|].
      destruct HR as (_ & (HL & _) & _). rewrite HL. unfold nb. fold (nw l). pose proof (Z.div_mod (nw l + 7) 8 ltac:(lia)).
      pose proof (Z.mod_pos_bound (nw l + 7) 8 ltac:(lia)). lia.
    + rewrite sub64_ok by lia. destruct (nd_search_min_tree_root l bp HB Hp H0 H HI HT (b - 1)) as (-> & U); [lia|lia|]. split; [reflexivity|].
      intros _. rewrite <- Eb. exact U.
Qed.

Lemma release_enclose f uninit h h0 l : zlen l < 2 ^ 31 -> prefix_ok l ->
  exists bp, nd_bp_build uninit (bv_range l) h h0 = Ok bp /\
  forall p, nth_error l p = Some true -> depth l (Z.of_nat p) = 0 ->
    nd_enclose (loose_shift f) bp (Z.of_nat p) = Ub (if Z.of_nat p <? 256 then OutOfBounds else OutOfFuel) /\
    (256 <= Z.of_nat p -> forall rounds, nd_tree_up_loop rounds false bp (bp_internal_nodes bp + (Z.of_nat p / 256 - 1) / 32) (-1) = Ub OutOfFuel).
Proof.
  intros Hl HP. pose proof (proj1 (prefix_ok_nonneg l) HP) as HN. destruct (bp_build_ok l uninit h h0 Hl HN) as (bp & Eb & HB).
  exists bp. split; [exact (le_ok _ _ _ (nd_bp_build_le uninit (bv_range l) h h0) Eb)|]. intros p Hp HD.
  assert (Lp : (p < length l)%nat) by (apply nth_error_Some; congruence).
  apply (nd_find_open_root f l bp (Z.of_nat p) HB).
  - eapply bp_build_zero; eauto. unfold zlen. lia.
  - unfold zlen. lia.
  - rewrite E_depth by (unfold zlen; lia). exact HD.
Qed.
