(** find_close of a parenthesis without a match, find_open of a root. *)
From Verif Require Import Base Spec Lib S_BitVector M_Broadword P_Broadword P_Broadword2 P_Broadword3 M_BitVector P_BvLib P_BitVector P_BvRank P_BvEnum
  M_RsBitVector P_RsBuild P_RsQuery M_Bp P_BpWord P_BpBuild P_BpSearch S_Bp P_BpSpec S_Unmatched M_NdBp.
From Coq Require Import ZifyBool ZifyNat.

Section Tree.
Context (l : list bool) (bp : bp_vector) (v : Z).
Hypothesis HB : bp_ok l bp.
Hypothesis Hv : 0 <= v.
Hypothesis Hp : 0 < zlen l.
Context (H : Z).
Hypothesis HI : bp_internal_nodes bp = 2 ^ H.
Hypothesis HT : tree_ok l H (bp_superblock_excess_min bp).

Lemma in_node_range_out h j : 0 <= h <= H -> 0 <= j < 2 ^ (H - h) -> nsup l <= j * 2 ^ h ->
  exists e, in_node_range bp (2 ^ (H - h) + j) v = Ub e.
Proof.
  intros Hh Hj Hc. destruct HT as (T0 & T1 & T2 & T3). destruct (T3 h j Hh Hj) as [_ N]. specialize (N Hc).
  pose proof HB as (HR & Hsz & _). assert (P : 0 < 2 ^ (H - h)) by (apply Z.pow_pos_nonneg; lia).
  set (i := 2 ^ (H - h) + j) in *. unfold in_node_range. unfold node in N.
  destruct (Z.ltb_spec i (zlen (bp_superblock_excess_min bp))).
  - rewrite W_rd by lia. cbn [bind]. assert (Esz : bp_size bp = zlen l) by (unfold bp_size; rewrite (proj1 HR); reflexivity).
    rewrite N, Esz, i32_small' by lia. rewrite Z.eqb_refl. eexists. reflexivity.
  - rewrite rd_oob by lia. eexists. reflexivity.
Qed.

Lemma tree_up_none : forall fuel h j, 0 <= h <= H -> 0 <= j < 2 ^ (H - h) ->
  (forall k, (j + 1) * 2 ^ h <= k < nsup l -> ~ low l v k) -> forall x, tree_up_loop fuel true bp (2 ^ (H - h) + j) v <> Ok x.
Proof.
  pose proof HT as (T0 & T1 & T2 & T3).
  induction fuel as [|fuel IH]; intros h j Hh Hj HNo x; [discriminate|].
  assert (P : 0 < 2 ^ (H - h)) by (apply Z.pow_pos_nonneg; lia).
  cbn [tree_up_loop]. replace (negb (2 ^ (H - h) + j =? 0)) with true by lia. unfold assert_ at 1. cbv iota.
  destruct (Z.eq_dec h H) as [->|HhH].
  { rewrite Z.sub_diag in *. change (2 ^ 0) with 1 in *. replace j with 0 by lia. change (1 + 0) with 1. change (Z.odd 1) with true. cbn [eqb].
    change (1 / 2) with 0. destruct fuel; discriminate. }
  assert (Ph : 0 < 2 ^ h) by (apply Z.pow_pos_nonneg; lia).
  assert (PS : 2 ^ (H - h) = 2 * 2 ^ (H - (h + 1))) by (rewrite <- pow2_succ by lia; f_equal; lia).
  assert (Hpar : (2 ^ (H - h) + j) / 2 = 2 ^ (H - (h + 1)) + j / 2).
  { rewrite PS. rewrite Z.mul_comm, Z.div_add_l by lia. reflexivity. }
  assert (Hodd : Z.odd (2 ^ (H - h) + j) = Z.odd j).
  { rewrite PS, Z.odd_add, Z.odd_mul. destruct (Z.odd j); reflexivity. }
  pose proof (Z.div_mod j 2 ltac:(lia)) as Dj. pose proof (Z.mod_pos_bound j 2 ltac:(lia)) as Mj.
  rewrite Hodd, Hpar. rewrite Zmod_odd in Dj. destruct (Z.odd j); cbn [eqb].
  - apply IH; [lia|lia|]. rewrite pow2_succ by lia.
    replace ((j / 2 + 1) * (2 * 2 ^ h)) with ((j + 1) * 2 ^ h) by (rewrite Dj at 1; ring). exact HNo.
  - replace (2 ^ (H - h) + j + 1) with (2 ^ (H - h) + (j + 1)) by lia.
    destruct (Z_lt_le_dec ((j + 1) * 2 ^ h) (nsup l)) as [Hc|Hc].
    + destruct (in_node_range_ok l bp v HB Hp H HT h (j + 1)) as (b & -> & Hb); [lia|lia|lia|]. cbn [bind]. destruct b.
      * destruct Hb as (k & Hk & Hkn & Lk). exfalso. apply (HNo k); [lia|exact Lk].
      * apply IH; [lia|lia|]. intros k Hk.
        assert (EP : (j / 2 + 1) * 2 ^ (h + 1) = (j + 1 + 1) * 2 ^ h) by (rewrite pow2_succ by lia; rewrite Dj at 2; ring).
        apply HNo. rewrite EP in Hk. lia.
    + destruct (in_node_range_out h (j + 1)) as (e & ->); [lia|lia|lia|]. discriminate.
Qed.

Lemma search_min_tree_none b : 0 <= b <= nblk l -> (forall k, 256 * b <= k <= zlen l -> v < E l k) -> forall c, search_min_tree true bp b v <> Ok c.
Proof.
  intros Hb HK c. pose proof (geom l Hp) as (G1 & G2 & G3 & G4 & G5 & G6). pose proof HT as (T0 & T1 & T2 & T3).
  pose proof (Z.div_mod b 32 ltac:(lia)) as D. pose proof (Z.mod_pos_bound b 32 ltac:(lia)) as M.
  assert (PH : 0 < 2 ^ H) by (apply Z.pow_pos_nonneg; lia).
  assert (HF : (exists e, search_block_in_superblock true bp b v = Ub e) \/ search_block_in_superblock true bp b v = Ok None).
  { destruct (Z_lt_le_dec b (nblk l)) as [Hlt|Hge].
    - destruct (search_block_fwd l bp v HB Hp b ltac:(lia)) as [(c' & -> & Hc & (q & Hq & Eq) & _)|[-> _]]; [|auto].
      exfalso. unfold blk_end in Hq. specialize (HK q ltac:(lia)). lia.
    - unfold search_block_in_superblock, superblock_size. pose proof HB as (_ & _ & _ & HMT). destruct (HMT Hp) as ((HL & _) & _).
      destruct (get_block_excess (bp_rs bp) (b / 32 * 32)); cbn [bind]; [|left; eauto]. right. rewrite HL.
      replace (Z.to_nat (Z.min ((b / 32 + 1) * 32) (nblk l) - b)) with 0%nat by lia. reflexivity. }
  unfold search_min_tree. destruct HF as [(e & ->)| ->]; cbn [bind]; [discriminate|].
  unfold superblock_size. set (sb := b / 32) in *. rewrite HI.
  assert (X : forall x, tree_up_loop (length (bp_superblock_excess_min bp)) true bp (2 ^ H + sb) v <> Ok x).
  { intros x. destruct (Z_lt_le_dec sb (2 ^ H)).
    - pose proof (tree_up_none (length (bp_superblock_excess_min bp)) 0 sb) as U. rewrite Z.sub_0_r in U. apply U; [lia|lia|].
      change (2 ^ 0) with 1. intros k Hk (_ & q & Hq & Eq). unfold sup_end in Hq. specialize (HK q ltac:(lia)). lia.
    - assert (sb = 2 ^ H) as -> by lia. destruct (length (bp_superblock_excess_min bp)); [discriminate|]. cbn [tree_up_loop].
      replace (negb (2 ^ H + 2 ^ H =? 0)) with true by lia. unfold assert_ at 1. cbv iota.
      rewrite Z.odd_add, xorb_nilpotent. cbn [eqb]. unfold in_node_range. rewrite rd_oob by lia. discriminate. }
  destruct (tree_up_loop _ true bp (2 ^ H + sb) v) as [x|e]; [destruct (X x eq_refl)|discriminate].
Qed.
End Tree.

Lemma close_block_loop_above l v : zlen l < 2 ^ 31 -> 0 <= v -> forall n s, 0 <= s -> v < E l (64 * s) ->
  (forall k, 64 * s <= k <= 64 * nw l -> v < E l k) -> forall r, close_block_loop n (pack l) s (E l (64 * s) - v) <> Ok (Some r).
Proof.
  intros Hsz Hv. induction n as [|n IH]; intros s Hs HE HA x; [discriminate|]. cbn [close_block_loop].
  destruct (Z_lt_le_dec s (nw l)) as [Hsw|Hsw]; [|rewrite rd_oob by (unfold nw in *; lia); discriminate].
  rewrite W_rd by (unfold nw in *; lia). cbn [bind]. set (w := W (pack l) s).
  assert (Uw : is_u64 w) by apply W_pack_u64.
  pose proof (E_word l s) as EW. fold w in EW.
  replace (0 <? E l (64 * s) - v) with true by lia. unfold assert_. cbv iota.
  set (e := E l (64 * s) - v) in *.
  set (r0 := if e <=? 64 then find_close_in_word w (byte_counts w) e else Ok None).
  assert (HR : (exists r, r0 = Ok (Some r) /\ first_zero (Z.testbit w) e 64 r) \/ (r0 = Ok None /\ no_zero (Z.testbit w) e 64)).
  { unfold r0. destruct (Z.leb_spec e 64); [apply find_close_in_word_ok; [exact Uw|lia]|].
    right. split; [reflexivity|]. intros k Hk. pose proof (ex_bound (Z.testbit w) k). lia. }
  clearbody r0. destruct HR as [(r & -> & R0 & R1 & R2)|[-> NZ]]; cbn [bind].
  - exfalso. specialize (HA (64 * s + (r + 1)) ltac:(lia)). rewrite EW in HA by lia. lia.
  - rewrite bytes_sum_ex by exact Uw. pose proof (ex_bound (Z.testbit w) 64 ltac:(lia)). rewrite i32_small by lia.
    assert (ES : e + ex (Z.testbit w) 64 = E l (64 * (s + 1)) - v).
    { replace (64 * (s + 1)) with (64 * s + 64) by lia. rewrite EW by lia. lia. }
    rewrite ES. pose proof (E_le_size l (64 * (s + 1)) ltac:(lia)). pose proof (HA (64 * (s + 1)) ltac:(lia)).
    rewrite int32_ok by lia. cbn [bind]. apply IH; [lia|lia|]. intros k Hk. apply HA. lia.
Qed.

Lemma find_close_in_block_above l v bo st : zlen l < 2 ^ 31 -> 0 <= v -> 0 <= bo -> 0 <= st <= 4 -> v < E l (64 * (bo + st)) ->
  (forall k, 64 * (bo + st) <= k <= 64 * nw l -> v < E l k) -> forall r, find_close_in_block (pack l) bo (E l (64 * (bo + st)) - v) st <> Ok (Some r).
Proof.
  intros Hsz Hv Hbo Hst HE HA r. unfold find_close_in_block, bp_block_size. rewrite i32_small by lia.
  destruct (Z.ltb_spec ((4 - st) * 64) (E l (64 * (bo + st)) - v)); [discriminate|].
  replace (0 <? E l (64 * (bo + st)) - v) with true by lia. unfold assert_. cbv iota. apply close_block_loop_above; auto. lia.
Qed.

(** no match inside the vector: a result only from the word or the block of [pos + 1], in the padding of the last word *)
Lemma find_close_unmatched f l bp pos : bp_ok l bp -> 0 <= pos < zlen l -> zbit l pos = true ->
  (forall k, pos < k <= zlen l -> E l pos < E l k) -> forall r,
  find_close (loose_shift f) bp pos = Ok r <-> fhit l (E l pos) (pos + 1) r /\ r < 64 * nw l /\ (pos + 1) / 256 = r / 256.
Proof.
  intros HB Hpos Hbit HU. assert (Hp : 0 < zlen l) by lia.
  pose proof HB as (HR & Hsz & HN & HMT). destruct (HMT Hp) as (HM & H & HI & HT).
  pose proof (geom l Hp) as (G1 & G2 & G3 & G4 & G5 & G6).
  assert (Ebv : rs_bv (bp_rs bp) = canonical l) by apply HR.
  set (v := E l pos) in *. assert (Hv : 0 <= v) by (apply HN; lia).
  pose proof (E_le_size l pos ltac:(lia)) as Hv2. fold v in Hv2.
  assert (E1 : E l (pos + 1) = v + 1) by (rewrite E_succ, Hbit by lia; reflexivity).
  unfold find_close. rewrite Ebv, bv_get_ok by lia. cbn [bind]. rewrite Hbit. unfold assert_. cbv iota.
  assert (Ew : bp_words bp = pack l) by (unfold bp_words; rewrite Ebv; reflexivity). rewrite Ew.
  pose proof (Z.div_mod (pos + 1) 64 ltac:(lia)) as D. pose proof (Z.mod_pos_bound (pos + 1) 64 ltac:(lia)) as M.
  assert (D256 : (pos + 1) / 256 = (pos + 1) / 64 / 4) by (rewrite Z.div_div by lia; reflexivity). rewrite D256.
  set (wp := (pos + 1) / 64) in *. set (sh := (pos + 1) mod 64) in *.
  assert (NOk : forall (x : res Z) (P : Z -> Prop), (forall r, x <> Ok r) -> (forall r, ~ P r) -> forall r, x = Ok r <-> P r).
  { intros x P N1 N2 r. split; intros X; [destruct (N1 r X)|destruct (N2 r X)]. }
  destruct (Z_lt_le_dec wp (nw l)) as [Hwp|Hwp].
  2:{ apply NOk; [rewrite rd_oob by (unfold nw in *; lia); discriminate|]. intros r ((F0 & _) & F1 & _). lia. }
  rewrite W_rd by (unfold nw in *; lia). cbn [bind]. rewrite shr_ok by lia. cbn [bind].
  set (w := W (pack l) wp).
  assert (HS : exists ones, shl_p (loose_shift f) (2 ^ 64 - 1) (64 - sh) = Ok ones /\
    is_u64 (if sh =? 0 then 0 else ones) /\
    forall i, 0 <= i < 64 -> Z.testbit (if sh =? 0 then 0 else ones) i = (64 - sh <=? i)).
  { unfold shl_p. destruct (Z.eqb_spec sh 0) as [E0|E0].
    - rewrite E0. replace ((0 <=? 64 - 0) && (64 - 0 <? 64)) with false by lia. eexists. split; [reflexivity|]. split; [unfold is_u64; lia|].
      intros i Hi. rewrite Z.testbit_0_l. lia.
    - replace ((0 <=? 64 - sh) && (64 - sh <? 64)) with true by lia. eexists. split; [reflexivity|]. split; [apply is_u64_u64|].
      intros i Hi. unfold u64. rewrite Z.mod_pow2_bits_low by lia. rewrite Z.shiftl_spec by lia.
      replace (2 ^ 64 - 1) with (Z.ones 64) by reflexivity.
      destruct (Z.leb_spec (64 - sh) i); [apply Z.ones_spec_low; lia|apply Z.testbit_neg_r; lia]. }
  destruct HS as (ones & -> & Uones & Hones). cbn [bind].
  set (pw := Z.lor (Z.shiftr w sh) (if sh =? 0 then 0 else ones)).
  destruct (words_ok_pack l) as (_ & _ & BW).
  assert (Hpw : forall i, 0 <= i < 64 -> Z.testbit pw i = if i <? 64 - sh then zbit l (pos + 1 + i) else true).
  { intros i Hi. unfold pw. rewrite Z.lor_spec, Z.shiftr_spec, Hones by lia. destruct (Z.ltb_spec i (64 - sh)).
    - replace (64 - sh <=? i) with false by lia. rewrite orb_false_r. unfold w. rewrite BW by lia. f_equal. lia.
    - replace (64 - sh <=? i) with true by lia. apply orb_true_r. }
  assert (Uw : is_u64 w) by apply W_pack_u64.
  assert (Upw : is_u64 pw).
  { unfold pw. apply lor_range; [lia| |].
    - split; [apply Z.shiftr_nonneg; unfold is_u64 in Uw; lia|]. rewrite Z.shiftr_div_pow2 by lia.
      pose proof (Z.pow_pos_nonneg 2 sh ltac:(lia) ltac:(lia)). unfold is_u64 in Uw.
      apply Z.le_lt_trans with w; [|lia]. apply Z.div_le_upper_bound; [lia|]. nia.
    - exact Uones. }
  assert (EP : forall k, 0 <= k <= 64 - sh -> ex (Z.testbit pw) k = E l (pos + 1 + k) - E l (pos + 1)).
  { intros k Hk. rewrite (ex_ext _ (fun i => zbit l (pos + 1 + i))).
    - unfold E. rewrite (ex_shift (zbit l) (pos + 1) k) by lia. lia.
    - intros i Hi. rewrite Hpw by lia. replace (i <? 64 - sh) with true by lia. reflexivity. }
  assert (EP2 : forall k, 64 - sh <= k <= 64 -> ex (Z.testbit pw) k = ex (Z.testbit pw) (64 - sh) + (k - (64 - sh))).
  { intros k Hk. replace k with (64 - sh + (k - (64 - sh))) at 1 by lia. rewrite ex_shift by lia. f_equal.
    set (n := k - (64 - sh)). assert (Hn : 0 <= n <= sh) by lia. destruct Hn as [Hn0 Hn1]. clearbody n. revert Hn1.
    apply (ex_ind (fun n => n <= sh -> ex (fun i => Z.testbit pw (64 - sh + i)) n = n)); [reflexivity| |exact Hn0].
    intros i Hi IH Hi2. rewrite ex_succ, IH by lia. rewrite Hpw by lia. replace (64 - sh + i <? 64 - sh) with false by lia. lia. }
  assert (YES : forall r, fhit l v (pos + 1) r -> r < 64 * nw l -> wp / 4 = r / 256 ->
    forall s, Ok r = Ok s <-> fhit l v (pos + 1) s /\ s < 64 * nw l /\ wp / 4 = s / 256).
  { intros r F R1 R2 s. split; [intros [= <-]; auto|]. intros (F' & _). f_equal. eapply fhit_unique; eauto. }
  destruct (find_close_in_word_ok pw 1 Upw ltac:(lia)) as [(r & -> & R0 & R1 & R2)|[-> NZ]]; cbn [bind].
  - assert (Hr : r < 64 - sh).
    { destruct (Z_lt_le_dec r (64 - sh)); [auto|]. specialize (R2 r ltac:(lia)). rewrite (EP2 r) in R2 by lia. rewrite (EP2 (r + 1)) in R1 by lia. lia. }
    apply YES; [split; [lia|split]|lia|].
    + rewrite EP in R1 by lia. replace (r + (pos + 1) + 1) with (pos + 1 + (r + 1)) by lia. lia.
    + intros k Hk. specialize (R2 (k - (pos + 1)) ltac:(lia)). rewrite EP in R2 by lia. replace (pos + 1 + (k - (pos + 1))) with k in R2 by lia. lia.
    + replace ((r + (pos + 1)) / 256) with ((r + (pos + 1)) / 64 / 4) by (rewrite Z.div_div by lia; reflexivity). f_equal.
      apply (Z.div_unique (r + (pos + 1)) 64 wp (r + sh)); lia.
  - pose proof (EP2 64 ltac:(lia)) as EPs. pose proof (bytes_sum_ex pw Upw) as BS.
    assert (K0 : forall k, pos + 1 <= k <= 64 * (wp + 1) -> v < E l k).
    { intros k Hk. specialize (NZ (k - (pos + 1)) ltac:(lia)). rewrite EP in NZ by lia. replace (pos + 1 + (k - (pos + 1))) with k in NZ by lia. lia. }
    pose proof (EP (64 - sh) ltac:(lia)) as EPm. replace (pos + 1 + (64 - sh)) with (64 * (wp + 1)) in EPm by lia.
    pose proof (ex_bound (Z.testbit pw) (64 - sh) ltac:(lia)) as Bnd.
    rewrite sub64_ok by lia.
    replace (2 * (bytes_sum (byte_counts pw) - sh) - (64 - sh)) with (ex (Z.testbit pw) (64 - sh)) by lia.
    rewrite i32_small by lia. replace (ex (Z.testbit pw) (64 - sh) + 1) with (E l (64 * (wp + 1)) - v) by lia.
    rewrite int32_ok by lia. cbn [bind].
    pose proof (Z.div_mod wp 4 ltac:(lia)) as D4. pose proof (Z.mod_pos_bound wp 4 ltac:(lia)) as M4.
    unfold bp_block_size in *. set (b := wp / 4) in *. set (sb := wp mod 4) in *.
    replace (64 * (wp + 1)) with (64 * (b * 4 + (sb + 1))) in * by lia.
    assert (TREE : forall x, (do pos_excess <- excess bp pos; do found_block <- search_min_tree true bp (b + 1) pos_excess;
      do found_block_excess <- get_block_excess (bp_rs bp) found_block; do e <- int32 (found_block_excess - pos_excess);
      do r <- find_close_in_block (pack l) (found_block * 4) e 0; match r with Some ret => Ok ret | None => Ub AssertFailed end) <> Ok x).
    { intros x. rewrite (excess_ok l) by (auto; lia). cbn [bind]. fold v.
      pose proof (search_min_tree_none l bp v HB Hp H HI HT (b + 1) ltac:(lia)) as N.
      destruct (search_min_tree true bp (b + 1) v) as [c|e]; [|discriminate]. exfalso. apply (N ltac:(intros k Hk; apply HU; lia) c). reflexivity. }
    cbv zeta in TREE |- *.
    destruct (fhit_dec l v (pos + 1) ltac:(lia) ltac:(lia) (64 * nw l - (pos + 1)) ltac:(lia)) as [HA|(q & HQ & Hq)].
    + replace (pos + 1 + (64 * nw l - (pos + 1))) with (64 * nw l) in HA by lia.
      apply NOk; [|intros r ((F0 & F1 & F2) & F3 & _); specialize (HA (r + 1) ltac:(lia)); lia].
      intros x. pose proof (find_close_in_block_above l v (b * 4) (sb + 1) Hsz Hv ltac:(lia) ltac:(lia)
        ltac:(apply K0; lia) ltac:(intros k Hk; apply HA; lia)) as BA.
      destruct (find_close_in_block (pack l) (b * 4) _ (sb + 1)) as [[r|]|e]; cbn [bind]; [destruct (BA r eq_refl)|apply TREE|discriminate].
    + replace (pos + 1 + (64 * nw l - (pos + 1))) with (64 * nw l) in Hq by lia. pose proof HQ as (Q0 & Q1 & Q2).
      assert (Hq2 : 64 * (b * 4 + (sb + 1)) <= q).
      { destruct (Z_le_gt_dec (64 * (b * 4 + (sb + 1))) q); [auto|specialize (K0 (q + 1) ltac:(lia)); lia]. }
      destruct (find_close_in_block_ok l v (b * 4) (sb + 1) Hsz Hv ltac:(lia) ltac:(lia)) as [(r & -> & (F0 & F1 & F2) & F3)|[-> K1]]; cbn [bind].
      * apply K0. lia.
      * exists (q + 1). split; [lia|lia].
      * assert (FR : fhit l v (pos + 1) r).
        { split; [lia|]. split; [exact F1|]. intros k Hk. destruct (Z_le_gt_dec k (64 * (b * 4 + (sb + 1)))); [apply K0; lia|apply F2; lia]. }
        apply YES; [exact FR|rewrite (fhit_unique _ _ _ _ _ FR HQ); lia|]. apply (Z.div_unique r 256 b (r - 256 * b)); lia.
      * apply NOk; [exact TREE|]. intros r (F & _ & R). assert (r = q) as -> by (eapply fhit_unique; eauto).
        specialize (K1 (q + 1)). pose proof (Z.div_mod q 256 ltac:(lia)). pose proof (Z.mod_pos_bound q 256 ltac:(lia)).
        specialize (K1 ltac:(lia)). lia.
Qed.

(** ** find_open of a root *)
Lemma parents_loop_zero : forall n t t', parents_loop n t = Ok t' -> rd t' 0 = rd t 0.
Proof.
  induction n as [|n IH]; intros t t' X; cbn [parents_loop] in X; [congruence|].
  apply bind_inv in X. destruct X as (p & _ & X). apply bind_inv in X. destruct X as (x & _ & X).
  apply bind_inv in X. destruct X as (t1 & E1 & X). rewrite (IH _ _ X). clear X.
  assert (Hn : 1 <= (Z.of_nat (S n) + 1) / 2) by (apply Z.div_le_lower_bound; lia). revert E1. generalize (Z.min p x) ((Z.of_nat (S n) + 1) / 2) Hn. clear.
  intros y k Hk. unfold wr. destruct ((0 <=? k) && (k <? zlen t)) eqn:Ek; intros X; [|discriminate]. inversion X; subst.
  destruct t as [|a t]; [change (zlen (@nil Z)) with 0 in Ek; lia|]. replace (Z.to_nat k) with (S (Z.to_nat (k - 1))) by lia. cbn [upd].
  unfold rd. replace (0 <? zlen (a :: upd t (Z.to_nat (k - 1)) y)) with true by (rewrite zlen_cons; pose proof (zlen_nonneg (upd t (Z.to_nat (k - 1)) y)); lia).
  replace (0 <? zlen (a :: t)) with true by (rewrite zlen_cons; pose proof (zlen_nonneg t); lia). reflexivity.
Qed.

Lemma bp_build_zero l uninit h h0 bp : 0 < zlen l -> bp_ok l bp -> bp_build uninit (bv_range l) h h0 = Ok bp -> rd (bp_superblock_excess_min bp) 0 = Ok (i32 (zlen l)).
Proof.
  intros Hp (_ & _ & _ & HMT) X. destruct (HMT Hp) as (_ & H & HI & HT & _). assert (1 <= 2 ^ H) by (pose proof (Z.pow_pos_nonneg 2 H); lia).
  unfold bp_build in X. destruct (rs_range_ok l h h0) as (rs & Er & HR). rewrite Er in X. cbn [bind] in X.
  unfold build_min_tree in X. rewrite (proj1 HR) in X. change (bv_size (canonical l)) with (zlen l) in X.
  replace (zlen l =? 0) with false in X by lia.
  apply bind_inv in X. destruct X as ([mins bm] & _ & X). apply bind_inv in X. destruct X as (mins' & _ & X).
  unfold assert_ in X. destruct (_ =? zlen mins'); [|discriminate].
  apply bind_inv in X. destruct X as (itn & Ei & X). apply bind_inv in X. destruct X as (leaves & _ & X).
  apply bind_inv in X. destruct X as (tree & Et & X). inversion X; subst. cbn [bp_superblock_excess_min bp_internal_nodes] in *.
  rewrite (parents_loop_zero _ _ _ Et).
  replace (Z.to_nat itn) with (S (Z.to_nat (itn - 1))) by lia. cbn [repeat app]. unfold rd.
  match goal with |- context [0 <? zlen (?a :: ?t)] => replace (0 <? zlen (a :: t)) with true by (rewrite zlen_cons; pose proof (zlen_nonneg t); lia) end.
  reflexivity.
Qed.

Section Root.
Context (l : list bool) (bp : bp_vector).
Hypothesis HB : bp_ok l bp.
Hypothesis Hp : 0 < zlen l.
Hypothesis H0 : rd (bp_superblock_excess_min bp) 0 = Ok (i32 (zlen l)).
Context (H : Z).
Hypothesis HI : bp_internal_nodes bp = 2 ^ H.
Hypothesis HT : tree_ok l H (bp_superblock_excess_min bp).

Lemma tree_up_root : forall fuel h j, 0 <= h <= H -> 0 <= j < 2 ^ (H - h) -> forall x, tree_up_loop fuel false bp (2 ^ (H - h) + j) (-1) <> Ok x.
Proof.
  pose proof HT as (T0 & T1 & T2 & T3). pose proof HB as (HR & Hsz & HN & _).
  induction fuel as [|fuel IH]; intros h j Hh Hj x; [discriminate|].
  assert (P : 0 < 2 ^ (H - h)) by (apply Z.pow_pos_nonneg; lia).
  cbn [tree_up_loop]. replace (negb (2 ^ (H - h) + j =? 0)) with true by lia. unfold assert_ at 1. cbv iota.
  destruct (Z.eq_dec h H) as [->|HhH].
  { rewrite Z.sub_diag in *. change (2 ^ 0) with 1 in *. replace j with 0 by lia. change (1 + 0) with 1. change (Z.odd 1) with true. cbn [eqb].
    change (sub64 1 1) with 0. unfold in_node_range. rewrite H0. cbn [bind].
    assert (Esz : bp_size bp = zlen l) by (unfold bp_size; rewrite (proj1 HR); reflexivity). rewrite Esz, Z.eqb_refl. discriminate. }
  assert (Ph : 0 < 2 ^ h) by (apply Z.pow_pos_nonneg; lia).
  assert (PS : 2 ^ (H - h) = 2 * 2 ^ (H - (h + 1))) by (rewrite <- pow2_succ by lia; f_equal; lia).
  assert (Hpar : (2 ^ (H - h) + j) / 2 = 2 ^ (H - (h + 1)) + j / 2).
  { rewrite PS. rewrite Z.mul_comm, Z.div_add_l by lia. reflexivity. }
  assert (Hodd : Z.odd (2 ^ (H - h) + j) = Z.odd j).
  { rewrite PS, Z.odd_add, Z.odd_mul. destruct (Z.odd j); reflexivity. }
  pose proof (Z.div_mod j 2 ltac:(lia)) as Dj. pose proof (Z.mod_pos_bound j 2 ltac:(lia)) as Mj.
  rewrite Hodd, Hpar. rewrite Zmod_odd in Dj. destruct (Z.odd j); cbn [eqb]; [|apply IH; lia].
  assert (PB : 2 ^ (H - h) <= 2 ^ 33) by (apply Z.pow_le_mono_r; lia).
  rewrite sub64_ok by lia. replace (2 ^ (H - h) + j - 1) with (2 ^ (H - h) + (j - 1)) by lia.
  destruct (Z_lt_le_dec ((j - 1) * 2 ^ h) (nsup l)) as [Hc|Hc].
  - destruct (in_node_range_ok l bp (-1) HB Hp H HT h (j - 1)) as (b & -> & Hb); [lia|lia|lia|]. cbn [bind]. destruct b; [|apply IH; lia].
    destruct Hb as (k & Hk & Hkn & (_ & q & Hq & Eq)). exfalso. unfold sup_end in Hq.
    assert (0 <= (j - 1) * 2 ^ h) by (apply Z.mul_nonneg_nonneg; lia). specialize (HN q ltac:(lia)). lia.
  - destruct (in_node_range_out l bp (-1) HB Hp H HT h (j - 1)) as (e & ->); [lia|lia|lia|]. discriminate.
Qed.

Lemma search_min_tree_root b : 0 <= b -> 256 * (b + 1) <= zlen l -> forall c, search_min_tree false bp b (-1) <> Ok c.
Proof.
  intros Hb Hz c. pose proof (geom l Hp) as (G1 & G2 & G3 & G4 & G5 & G6). pose proof HT as (T0 & T1 & T2 & T3). pose proof HB as (HR & Hsz & HN & _).
  pose proof (Z.div_mod b 32 ltac:(lia)) as D. pose proof (Z.mod_pos_bound b 32 ltac:(lia)) as M. unfold search_min_tree.
  destruct (search_block_bwd l bp (-1) HB Hp b Hb Hz) as [(c' & -> & Hc & (q & Hq & Eq) & _)|[-> _]].
  { exfalso. specialize (HN q ltac:(lia)). lia. }
  cbn [bind]. unfold superblock_size. set (sb := b / 32) in *. rewrite HI.
  pose proof (tree_up_root (length (bp_superblock_excess_min bp)) 0 sb ltac:(lia)) as U. rewrite Z.sub_0_r in U. specialize (U ltac:(lia)).
  destruct (tree_up_loop _ false bp (2 ^ H + sb) (-1)) as [x|e]; [destruct (U x eq_refl)|discriminate].
Qed.
End Root.

Lemma open_block_loop_root l bo : 0 <= bo -> forall n, bo + Z.of_nat n <= nw l -> (forall k, 0 <= k <= 64 * (bo + Z.of_nat n) -> 0 <= E l k < 2 ^ 31 - 1) ->
  forall r, open_block_loop n (pack l) bo (E l (64 * (bo + Z.of_nat n)) + 1) <> Ok (Some r).
Proof.
  intros Hbo. induction n as [|n IH]; intros Hn HE x; [discriminate|].
  cbn [open_block_loop]. set (s := bo + Z.of_nat n) in *. replace (bo + Z.of_nat (S n)) with (s + 1) in * by lia.
  pose proof (HE (64 * (s + 1)) ltac:(lia)) as HE1. pose proof (HE (64 * s) ltac:(lia)) as HE0.
  replace (0 <? E l (64 * (s + 1)) + 1) with true by lia. unfold assert_. cbv iota.
  rewrite W_rd by (unfold nw in *; lia). cbn [bind]. set (w := W (pack l) s).
  assert (Uw : is_u64 w) by apply W_pack_u64.
  pose proof (fun k => ex_down l s k ltac:(lia)) as ED. fold w in ED.
  set (e := E l (64 * (s + 1)) + 1) in *.
  set (r0 := if e <=? 64 then find_open_in_word w (byte_counts w) e else Ok None).
  assert (HR : (exists r, r0 = Ok (Some (63 - r)) /\ first_zero (down w) e 64 r) \/ (r0 = Ok None /\ no_zero (down w) e 64)).
  { unfold r0. destruct (Z.leb_spec e 64); [apply find_open_in_word_ok; [exact Uw|lia]|].
    right. split; [reflexivity|]. intros k Hk. pose proof (ex_bound (down w) k). lia. }
  clearbody r0. destruct HR as [(r & -> & R0 & R1 & R2)|[-> NZ]]; cbn [bind].
  - exfalso. rewrite ED in R1 by lia. specialize (HE (64 * (s + 1) - (r + 1)) ltac:(lia)). lia.
  - rewrite bytes_sum_ex by exact Uw. pose proof (ex_bound (Z.testbit w) 64 ltac:(lia)). rewrite i32_small by lia.
    assert (ES : e - ex (Z.testbit w) 64 = E l (64 * s) + 1).
    { pose proof (E_word l s 64 ltac:(lia) ltac:(lia)) as EW. fold w in EW. unfold e.
      replace (64 * (s + 1)) with (64 * s + 64) by lia. lia. }
    rewrite ES, int32_ok by lia. cbn [bind]. apply IH; [lia|]. intros k Hk. apply HE. lia.
Qed.

(** at excess 0 there is nothing to find: no call returns *)
Lemma find_open_root f l bp pos : bp_ok l bp -> rd (bp_superblock_excess_min bp) 0 = Ok (i32 (zlen l)) -> 0 <= pos < zlen l -> E l pos = 0 ->
  forall r, find_open (loose_shift f) bp pos <> Ok r.
Proof.
  intros HB H0 Hpos E0 x. assert (Hp : 0 < zlen l) by lia. unfold find_open.
  destruct (Z.eqb_spec pos 0) as [->|Hp0]; [discriminate|]. cbn [negb]. unfold assert_ at 1. cbv iota.
  pose proof HB as (HR & Hsz & HN & HMT). destruct (HMT Hp) as (HM & H & HI & HT).
  pose proof (geom l Hp) as (G1 & G2 & G3 & G4 & G5 & G6).
  assert (Ebv : rs_bv (bp_rs bp) = canonical l) by apply HR.
  assert (Ew : bp_words bp = pack l) by (unfold bp_words; rewrite Ebv; reflexivity). rewrite Ew.
  assert (HE : forall k, 0 <= k <= pos -> 0 <= E l k < 2 ^ 31 - 1).
  { intros k Hk. split; [apply HN; lia|]. pose proof (E_lip l k pos ltac:(lia)). pose proof (E_lip l 0 k ltac:(lia)). rewrite E_0 in *. lia. }
  pose proof (Z.div_mod pos 64 ltac:(lia)) as D. pose proof (Z.mod_pos_bound pos 64 ltac:(lia)) as M.
  set (wp := pos / 64) in *. set (ln := pos mod 64) in *.
  rewrite W_rd by (unfold nw in *; lia). cbn [bind].
  set (w := W (pack l) wp).
  destruct (words_ok_pack l) as (_ & _ & BW).
  assert (HS : exists sw, shl_p (loose_shift f) w (64 - ln) = Ok sw /\ is_u64 (if ln =? 0 then 0 else sw) /\
    forall i, 0 <= i < 64 -> Z.testbit (if ln =? 0 then 0 else sw) i = (64 - ln <=? i) && zbit l (pos - 64 + i)).
  { unfold shl_p. destruct (Z.eqb_spec ln 0) as [L0|L0].
    - rewrite L0. replace ((0 <=? 64 - 0) && (64 - 0 <? 64)) with false by lia. eexists. split; [reflexivity|]. split; [unfold is_u64; lia|].
      intros i Hi. rewrite Z.testbit_0_l. replace (64 - 0 <=? i) with false by lia. reflexivity.
    - replace ((0 <=? 64 - ln) && (64 - ln <? 64)) with true by lia. eexists. split; [reflexivity|]. split; [apply is_u64_u64|].
      intros i Hi. unfold u64. rewrite Z.mod_pow2_bits_low by lia. rewrite Z.shiftl_spec by lia.
      destruct (Z.leb_spec (64 - ln) i); [|apply Z.testbit_neg_r; lia].
      unfold w. rewrite BW by lia. cbn [andb]. f_equal. lia. }
  destruct HS as (sw0 & -> & Usw & Hsw). cbn [bind]. set (sw := if ln =? 0 then 0 else sw0) in *. clearbody sw.
  assert (EP : forall k, 0 <= k <= ln -> ex (down sw) k = E l (pos - k)).
  { intros k Hk. rewrite (ex_ext _ (fun i => negb (zbit l (pos - 1 - i)))).
    - rewrite (ex_negb (fun i => zbit l (pos - 1 - i))). rewrite ex_rev by lia. unfold E in *. lia.
    - intros i Hi. unfold down. rewrite Hsw by lia. replace (64 - ln <=? 63 - i) with true by lia. cbn [andb]. do 2 f_equal. lia. }
  assert (EP2 : forall k, ln <= k <= 64 -> ex (down sw) k = ex (down sw) ln + (k - ln)).
  { intros k Hk. replace k with (ln + (k - ln)) at 1 by lia. rewrite ex_shift by lia. f_equal.
    set (n := k - ln). assert (Hn : 0 <= n <= 64 - ln) by lia. destruct Hn as [Hn0 Hn1]. clearbody n. revert Hn1.
    apply (ex_ind (fun n => n <= 64 - ln -> ex (fun i => down sw (ln + i)) n = n)); [reflexivity| |exact Hn0].
    intros i Hi IH Hi2. rewrite ex_succ, IH by lia. unfold down. rewrite Hsw by lia. replace (64 - ln <=? 63 - (ln + i)) with false by lia.
    cbn [andb negb]. lia. }
  destruct (find_open_in_word_ok sw 1 Usw ltac:(lia)) as [(r & -> & R0 & R1 & R2)|[-> NZ]]; cbn [bind].
  - exfalso. destruct (Z_lt_le_dec r ln).
    + rewrite EP in R1 by lia. specialize (HE (pos - (r + 1)) ltac:(lia)). lia.
    + rewrite EP2 in R1 by lia. rewrite EP in R1 by lia. specialize (HE (pos - ln) ltac:(lia)). lia.
  - pose proof (EP2 64 ltac:(lia)) as EPs. pose proof (bytes_sum_ex sw Usw) as BS.
    assert (ED64 : ex (down sw) 64 = - ex (Z.testbit sw) 64).
    { unfold down. rewrite ex_negb. f_equal. rewrite (ex_ext _ (fun i => Z.testbit sw (64 - 1 - i))) by (intros; f_equal; lia).
      rewrite ex_rev by lia. replace (64 - 64) with 0 by lia. rewrite ex_0. lia. }
    pose proof (EP ln ltac:(lia)) as EPm. replace (pos - ln) with (64 * wp) in EPm by lia.
    pose proof (ex_bound (down sw) ln ltac:(lia)) as Bnd.
    replace (2 * bytes_sum (byte_counts sw) - ln) with (- ex (down sw) ln) by lia.
    rewrite i32_small by lia. rewrite int32_ok by lia. cbn [bind].
    replace (- - ex (down sw) ln + 1) with (E l (64 * wp) + 1) by lia.
    rewrite int32_ok by lia. cbn [bind].
    pose proof (Z.div_mod wp 4 ltac:(lia)) as D4. pose proof (Z.mod_pos_bound wp 4 ltac:(lia)) as M4.
    unfold bp_block_size in *. set (b := wp / 4) in *. set (sb := wp mod 4) in *.
    assert (HBk : forall r, find_open_in_block (pack l) (b * 4) (E l (64 * wp) + 1) sb <> Ok (Some r)).
    { intros r. unfold find_open_in_block. rewrite i32_small by lia. destruct (_ <? _); [discriminate|].
      pose proof (HE (64 * wp) ltac:(lia)). replace (0 <=? E l (64 * wp) + 1) with true by lia. unfold assert_. cbv iota.
      pose proof (open_block_loop_root l (b * 4) ltac:(lia) (Z.to_nat sb)) as HO. replace (b * 4 + Z.of_nat (Z.to_nat sb)) with wp in HO by lia.
      apply HO; [lia|]. intros k Hk. apply HE. lia. }
    destruct (find_open_in_block (pack l) (b * 4) _ sb) as [[r|]|e]; cbn [bind]; [destruct (HBk r eq_refl)| |discriminate].
    rewrite (excess_ok l) by (auto; lia). cbn [bind]. rewrite E0, int32_ok by lia. cbn [bind]. change (0 - 1) with (-1).
    assert (X : forall c, search_min_tree false bp (sub64 b 1) (-1) <> Ok c).
    { destruct (Z.eq_dec b 0) as [->|Hb].
      - intros c. change (sub64 0 1) with (2 ^ 64 - 1). unfold search_min_tree, search_block_in_superblock, get_block_excess.
        change ((2 ^ 64 - 1) / superblock_size * superblock_size * bp_block_size) with ((2 ^ 64 - 32) * 4).
        unfold sub_block_rank, block_rank. change ((2 ^ 64 - 32) * 4 / block_size * 2) with (2 ^ 64 - 32). rewrite rd_oob; [discriminate|].
        destruct HR as (_ & (HL & _) & _). rewrite HL. unfold nb. fold (nw l). pose proof (Z.div_mod (nw l + 7) 8 ltac:(lia)).
        pose proof (Z.mod_pos_bound (nw l + 7) 8 ltac:(lia)). lia.
      - rewrite sub64_ok by lia. apply (search_min_tree_root l bp HB Hp H0 H HI HT); lia. }
    destruct (search_min_tree false bp (sub64 b 1) (-1)) as [c|e]; [destruct (X c eq_refl)|discriminate].
Qed.

(** * Stated on sequences *)
Lemma zbit_padded l p : zbit (padded l) p = zbit l p.
Proof.
  unfold zbit, padded. destruct (p <? 0) eqn:E0; [reflexivity|]. destruct (Nat.lt_ge_cases (Z.to_nat p) (length l)).
  - apply app_nth1. assumption.
  - rewrite app_nth2 by assumption. rewrite (nth_overflow l) by assumption. apply nth_repeat.
Qed.
Lemma E_padded l k : 0 <= k -> E (padded l) k = E l k.
Proof. intros Hk. unfold E. apply ex_ext. intros i _. apply zbit_padded. Qed.
Lemma zlen_padded l : zlen (padded l) = 64 * nw l.
Proof.
  unfold padded, nw. rewrite zlen_app, zlen_repeat, zlen_pack. pose proof (zlen_nonneg l).
  pose proof (Z.div_mod (zlen l + 63) 64 ltac:(lia)). pose proof (Z.mod_pos_bound (zlen l + 63) 64 ltac:(lia)). lia.
Qed.
Lemma matches_padded l p m : matches (padded l) p m <-> 0 <= p /\ m < 64 * nw l /\ zbit l p = true /\ fhit l (E l p) (p + 1) m.
Proof.
  rewrite matches_excess, zlen_padded, zbit_padded. unfold fhit. split; intros (H0 & H1 & H2 & H3 & H4 & H5).
  - rewrite !E_padded in H4 by lia. repeat split; auto. intros k Hk. specialize (H5 k Hk). rewrite !E_padded in H5 by lia. exact H5.
  - repeat split; auto; rewrite ?E_padded by lia; auto. intros k Hk. rewrite !E_padded by lia. apply H5, Hk.
Qed.

Lemma unmatched_above l p : 0 <= p < zlen l -> zbit l p = true -> (forall m, ~ matches l p m) -> forall k, p < k <= zlen l -> E l p < E l k.
Proof.
  intros Hp Zp N k Hk. destruct (Z_lt_le_dec (E l p) (E l k)); [auto|]. exfalso.
  assert (E1 : E l (p + 1) = E l p + 1) by (rewrite E_succ, Zp by lia; reflexivity).
  destruct (fhit_exists l (E l p) (p + 1) k) as (r & F & Hr); [lia|lia|lia|]. apply (N r). apply matches_excess. split; [lia|]. split; [lia|]. auto.
Qed.

Lemma matches_dec l p : 0 <= p < zlen l -> zbit l p = true -> (exists m, matches l p m) \/ forall m, ~ matches l p m.
Proof.
  intros Hp Zp. assert (E1 : E l (p + 1) = E l p + 1) by (rewrite E_succ, Zp by lia; reflexivity).
  destruct (fhit_dec l (E l p) (p + 1) ltac:(lia) ltac:(lia) (zlen l - (p + 1)) ltac:(lia)) as [HA|(r & F & Hr)].
  - right. intros m HM. apply matches_excess in HM. destruct HM as (_ & M1 & _ & F0 & F1 & _). specialize (HA (m + 1) ltac:(lia)). lia.
  - left. exists r. apply matches_excess. split; [lia|]. split; [lia|]. auto.
Qed.

Lemma find_close_exact f uninit h h0 l : zlen l < 2 ^ 31 -> prefix_ok l -> exists bp, bp_build uninit (bv_range l) h h0 = Ok bp /\
  forall p r, nth_error l p = Some true ->
  (find_close (loose_shift f) bp (Z.of_nat p) = Ok r <->
   matches l (Z.of_nat p) r \/ (zlen l <= r /\ matches (padded l) (Z.of_nat p) r /\ (Z.of_nat p + 1) / 256 = r / 256)).
Proof.
  intros Hs HP. destruct (bp_build_ok l uninit h h0 Hs (proj1 (prefix_ok_nonneg l) HP)) as (bp & Eb & HB).
  exists bp. split; [exact Eb|]. intros n r Hn. apply nth_zbit in Hn. destruct Hn as [Hp Zp]. set (p := Z.of_nat n) in *. clearbody p. clear n.
  destruct (matches_dec l p Hp Zp) as [(m & HM)|N].
  - rewrite (find_close_matches f l bp p m HB HM). split; [intros [= <-]; auto|]. intros [HM'|(Hr & HM' & _)]; f_equal.
    + eapply matches_unique; eauto.
    + apply matches_padded in HM'. apply matches_excess in HM. destruct HM as (_ & Hm & _ & F). destruct HM' as (_ & _ & _ & F').
      pose proof (fhit_unique _ _ _ _ _ F F'). lia.
  - pose proof (unmatched_above l p Hp Zp N) as HU. rewrite (find_close_unmatched f l bp p HB Hp Zp HU r), matches_padded. split.
    + intros (F & Hr & D). right. split; [|tauto]. destruct F as (F0 & F1 & _). destruct (Z_le_gt_dec (zlen l) r); [auto|]. specialize (HU (r + 1) ltac:(lia)). lia.
    + intros [HM|(_ & (_ & Hr & _ & F) & D)]; [destruct (N r HM)|auto].
Qed.

Lemma find_close_outside f uninit h h0 l p : zlen l < 2 ^ 31 -> prefix_ok l -> unmatched l p ->
  let r := zlen l + depth l (zlen l) - depth l p - 1 in r < 64 * ((zlen l + 63) / 64) -> (p + 1) / 256 = r / 256 ->
  exists bp, bp_build uninit (bv_range l) h h0 = Ok bp /\ find_close (loose_shift f) bp p = Ok r /\ zlen l <= r.
Proof.
  intros Hs HP (Hp0 & Hn & N) r Hr D. apply nth_zbit in Hn. destruct Hn as [Hp Zp]. rewrite Z2Nat.id in * by lia.
  destruct (bp_build_ok l uninit h h0 Hs (proj1 (prefix_ok_nonneg l) HP)) as (bp & Eb & HB).
  pose proof (unmatched_above l p Hp Zp N) as HU. exists bp. split; [exact Eb|].
  unfold r in *. rewrite <- !E_depth in * by lia. pose proof (HU (zlen l) ltac:(lia)). split; [|lia].
  apply (find_close_unmatched f l bp p HB Hp Zp HU). unfold nw. rewrite zlen_pack. split; [|auto].
  set (x := zlen l + E l (zlen l) - E l p - 1) in *. split; [lia|]. split.
  - rewrite E_pad by lia. lia.
  - intros k Hk. destruct (Z_le_gt_dec k (zlen l)); [apply HU; lia|]. rewrite (E_pad l k) by lia. lia.
Qed.

Lemma enclose_exact f uninit h h0 l : zlen l < 2 ^ 31 -> prefix_ok l -> exists bp, bp_build uninit (bv_range l) h h0 = Ok bp /\
  forall p r, nth_error l p = Some true -> (enclose (loose_shift f) bp (Z.of_nat p) = Ok r <-> still_open l r (Z.of_nat p)).
Proof.
  intros Hs HP. pose proof (proj1 (prefix_ok_nonneg l) HP) as HN. destruct (bp_build_ok l uninit h h0 Hs HN) as (bp & Eb & HB).
  exists bp. split; [exact Eb|]. intros n r Hn. apply nth_zbit in Hn. destruct Hn as [Hp Zp]. set (p := Z.of_nat n) in *. clearbody p. clear n.
  unfold enclose. pose proof HB as ((Hbv & _) & _). rewrite Hbv, bv_get_ok by lia. cbn [bind]. rewrite Zp. unfold assert_. cbv iota.
  assert (SO : still_open l r p <-> bhit l (E l p - 1) p r).
  { unfold still_open, bhit. split; intros (R0 & R1 & R2).
    - rewrite <- !E_depth in R1 by lia. split; [lia|]. split; [lia|]. intros k Hk. specialize (R2 k Hk). rewrite <- !E_depth in R2 by lia. lia.
    - rewrite <- !E_depth by lia. split; [lia|]. split; [lia|]. intros k Hk. rewrite <- !E_depth by lia. specialize (R2 k Hk). lia. }
  rewrite SO. destruct (Z.eq_dec (E l p) 0) as [E0|E0].
  - split; intros X.
    + exfalso. revert X. apply (find_open_root f l bp p HB); auto. eapply bp_build_zero; eauto. lia.
    + exfalso. destruct X as (R0 & R1 & _). specialize (HN r ltac:(lia)). lia.
  - pose proof (HN p ltac:(lia)). assert (p <> 0) by (intros ->; apply E0, E_0).
    destruct (find_open_ok f l bp p 0 HB ltac:(lia) ltac:(lia) ltac:(rewrite E_0; lia)) as (x & -> & Hx).
    split; [intros [= <-]; exact Hx|]. intros X. f_equal. eapply bhit_unique; eauto.
Qed.

Lemma unmatched_check l p : 0 <= p -> nth_error l (Z.to_nat p) = Some true ->
  forallb (fun k => depth l p <? depth l (p + Z.of_nat k)) (seq 1 (length l - Z.to_nat p)) = true -> unmatched l p.
Proof.
  intros Hp Hn HF. split; [exact Hp|]. split; [exact Hn|]. intros m HM. apply matches_excess in HM. destruct HM as (_ & Hm & _ & F0 & F1 & _).
  rewrite forallb_forall in HF. specialize (HF (Z.to_nat (m + 1 - p))). rewrite in_seq in HF. unfold zlen in *. specialize (HF ltac:(lia)).
  rewrite Z2Nat.id in HF by lia. replace (p + (m + 1 - p)) with (m + 1) in HF by lia. rewrite <- !E_depth in HF by (unfold zlen; lia). lia.
Qed.
Lemma prefix_ok_check l : forallb (fun k => 0 <=? depth l (Z.of_nat k)) (seq 0 (S (length l))) = true -> prefix_ok l.
Proof.
  intros HF p Hp. rewrite forallb_forall in HF. specialize (HF (Z.to_nat p)). rewrite in_seq in HF. unfold zlen in *. specialize (HF ltac:(lia)).
  rewrite Z2Nat.id in HF by lia. lia.
Qed.
Lemma release_outside f : exists l bp r, zlen l < 2 ^ 31 /\ prefix_ok l /\ unmatched l 0 /\ nd_bp_build 0 (bv_range l) false false = Ok bp /\
  nd_find_close (loose_shift f) bp 0 = Ok r /\ u64 r = 2 ^ 64 - 1.
Proof.
  exists (repeat true 200). do 2 eexists. split; [vm_compute; reflexivity|]. split; [apply prefix_ok_check; vm_compute; reflexivity|].
  split; [apply unmatched_check; [lia|reflexivity|vm_compute; reflexivity]|]. split; [vm_compute; reflexivity|].
  split; [vm_compute; reflexivity|]. vm_compute. reflexivity.
Qed.
