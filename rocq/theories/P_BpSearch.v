(** find_close, find_open and enclose in terms of the excess. *)
From Verif Require Import Base Spec Lib S_BitVector M_Broadword P_Broadword P_Broadword2 P_Broadword3 M_BitVector P_BvLib P_BitVector P_BvRank P_BvEnum
  M_RsBitVector P_RsBuild P_RsQuery M_Bp P_BpWord P_BpBuild.
From Coq Require Import ZifyBool ZifyNat.

Lemma E_pad l k : zlen l <= k -> E l k = E l (zlen l) - (k - zlen l).
Proof.
  intros Hk. pose proof (zlen_nonneg l). replace k with (zlen l + (k - zlen l)) at 1 by lia.
  unfold E. rewrite ex_shift by lia. assert (X : forall n, 0 <= n -> ex (fun i => zbit l (zlen l + i)) n = - n).
  { apply (ex_ind (fun n => ex (fun i => zbit l (zlen l + i)) n = - n)); [reflexivity|]. intros n Hn IH. rewrite ex_succ, IH by lia.
    rewrite zbit_out by lia. lia. }
  rewrite X by lia. lia.
Qed.

Lemma E_le_size l k : 0 <= k -> E l k <= zlen l.
Proof.
  intros Hk. pose proof (zlen_nonneg l). destruct (Z_le_gt_dec k (zlen l)).
  - pose proof (E_bound l k). lia.
  - rewrite E_pad by lia. pose proof (E_bound l (zlen l)). lia.
Qed.

Lemma bytes_sum_ex w : is_u64 w -> 2 * bytes_sum (byte_counts w) - 64 = ex (Z.testbit w) 64.
Proof.
  intros Hw. rewrite bytes_sum_byte_counts by exact Hw. pose proof (ex_bits w 64) as X. change (Z.of_nat 64) with 64 in X. rewrite X. reflexivity.
Qed.

(** ** Search in a block *)
(** [r]: the excess first falls to [v] after position [r], counting from [a] *)
Definition fhit (l : list bool) (v a r : Z) : Prop := a <= r /\ E l (r + 1) = v /\ forall k, a <= k <= r -> v < E l k.
(** [r] is the last position up to [b] where the excess is [v], being above [v] afterwards *)
Definition bhit (l : list bool) (v b r : Z) : Prop := 0 <= r < b /\ E l r = v /\ forall k, r < k <= b -> v < E l k.

Lemma fhit_unique l v a r s : fhit l v a r -> fhit l v a s -> r = s.
Proof.
  intros (H0 & H1 & H2) (K0 & K1 & K2). destruct (Z.lt_total r s) as [H|[H|H]]; [|exact H|].
  - specialize (K2 (r + 1) ltac:(lia)). lia.
  - specialize (H2 (s + 1) ltac:(lia)). lia.
Qed.
Lemma bhit_unique l v b r s : bhit l v b r -> bhit l v b s -> r = s.
Proof.
  intros (H0 & H1 & H2) (K0 & K1 & K2). destruct (Z.lt_total r s) as [H|[H|H]]; [|exact H|].
  - specialize (H2 s ltac:(lia)). lia.
  - specialize (K2 r ltac:(lia)). lia.
Qed.

Lemma close_block_loop_ok l v : zlen l < 2 ^ 31 -> 0 <= v -> forall n s, 0 <= s ->
  v < E l (64 * s) -> (exists q, 64 * s <= q <= 64 * nw l /\ E l q <= v) ->
  (exists r, close_block_loop n (pack l) s (E l (64 * s) - v) = Ok (Some r) /\ fhit l v (64 * s) r /\ r < 64 * (s + Z.of_nat n)) \/
  (close_block_loop n (pack l) s (E l (64 * s) - v) = Ok None /\ forall k, 64 * s <= k <= 64 * (s + Z.of_nat n) -> v < E l k).
Proof.
  intros Hsz Hv. induction n as [|n IH]; intros s Hs HE (q & Hq & Eq).
  - right. split; [reflexivity|]. intros k Hk. replace k with (64 * s) by lia. exact HE.
  - cbn [close_block_loop].
    assert (Hsw : s < nw l).
    { destruct (Z_lt_le_dec s (nw l)); [auto|]. replace q with (64 * s) in Eq by lia. lia. }
    rewrite W_rd by (unfold nw in *; lia). cbn [bind]. set (w := W (pack l) s).
    assert (Uw : is_u64 w) by apply W_pack_u64.
    pose proof (E_word l s) as EW. fold w in EW.
    replace (0 <? E l (64 * s) - v) with true by lia. unfold assert_. cbv iota.
    set (e := E l (64 * s) - v) in *.
    set (r0 := if e <=? 64 then find_close_in_word w (byte_counts w) e else Ok None).
    assert (HR : (exists r, r0 = Ok (Some r) /\ first_zero (Z.testbit w) e 64 r) \/ (r0 = Ok None /\ no_zero (Z.testbit w) e 64)).
    { unfold r0. destruct (Z.leb_spec e 64); [apply find_close_in_word_ok; [exact Uw|lia]|].
      right. split; [reflexivity|]. intros k Hk. pose proof (ex_bound (Z.testbit w) k). lia. }
    clearbody r0. destruct HR as [(r & -> & R0 & R1 & R2)|[-> NZ]]; cbn [bind].
    + left. eexists. split; [reflexivity|]. split; [|lia]. split; [lia|]. split.
      * replace (r + s * 64 + 1) with (64 * s + (r + 1)) by lia. rewrite EW by lia. lia.
      * intros k Hk. replace k with (64 * s + (k - 64 * s)) by lia. rewrite EW by lia. specialize (R2 (k - 64 * s) ltac:(lia)). lia.
    + rewrite bytes_sum_ex by exact Uw.
      assert (HK : forall k, 64 * s <= k <= 64 * (s + 1) -> v < E l k).
      { intros k Hk. replace k with (64 * s + (k - 64 * s)) by lia. rewrite EW by lia. specialize (NZ (k - 64 * s) ltac:(lia)). lia. }
      pose proof (ex_bound (Z.testbit w) 64 ltac:(lia)). rewrite i32_small by lia.
      assert (ES : e + ex (Z.testbit w) 64 = E l (64 * (s + 1)) - v).
      { replace (64 * (s + 1)) with (64 * s + 64) by lia. rewrite EW by lia. lia. }
      rewrite ES. pose proof (E_le_size l (64 * (s + 1)) ltac:(lia)). pose proof (HK (64 * (s + 1)) ltac:(lia)).
      rewrite int32_ok by lia. cbn [bind].
      destruct (IH (s + 1)) as [(r & Er & (F0 & F1 & F2) & Hr)|[Er F]]; [lia|auto| | |].
      * exists q. split; [|exact Eq]. destruct (Z_le_gt_dec q (64 * (s + 1))); [specialize (HK q ltac:(lia)); lia|lia].
      * left. exists r. split; [exact Er|]. split; [|lia]. split; [lia|]. split; [exact F1|].
        intros k Hk. destruct (Z_le_gt_dec k (64 * (s + 1))); [apply HK; lia|apply F2; lia].
      * right. split; [exact Er|]. intros k Hk. destruct (Z_le_gt_dec k (64 * (s + 1))); [apply HK; lia|apply F; lia].
Qed.

Lemma find_close_in_block_ok l v bo st : zlen l < 2 ^ 31 -> 0 <= v -> 0 <= bo -> 0 <= st <= 4 ->
  v < E l (64 * (bo + st)) -> (exists q, 64 * (bo + st) <= q <= 64 * nw l /\ E l q <= v) ->
  (exists r, find_close_in_block (pack l) bo (E l (64 * (bo + st)) - v) st = Ok (Some r) /\
     fhit l v (64 * (bo + st)) r /\ r < 64 * (bo + 4)) \/
  (find_close_in_block (pack l) bo (E l (64 * (bo + st)) - v) st = Ok None /\ forall k, 64 * (bo + st) <= k <= 64 * (bo + 4) -> v < E l k).
Proof.
  intros Hsz Hv Hbo Hst HE HQ. unfold find_close_in_block, bp_block_size. rewrite i32_small by lia.
  destruct (Z.ltb_spec ((4 - st) * 64) (E l (64 * (bo + st)) - v)).
  - right. split; [reflexivity|]. intros k Hk. pose proof (E_lip l (64 * (bo + st)) k). lia.
  - replace (0 <? E l (64 * (bo + st)) - v) with true by lia. unfold assert_. cbv iota.
    destruct (close_block_loop_ok l v Hsz Hv (Z.to_nat (4 - st)) (bo + st)) as [(r & Er & F & Hr)|[Er F]]; [lia|auto|auto| |].
    + left. exists r. split; [exact Er|]. split; [exact F|]. lia.
    + right. split; [exact Er|]. intros k Hk. apply F. lia.
Qed.

Lemma ex_down l s k : 0 <= s -> 0 <= k <= 64 ->
  ex (down (W (pack l) s)) k = E l (64 * (s + 1) - k) - E l (64 * (s + 1)).
Proof.
  intros Hs Hk. unfold down. rewrite ex_negb. rewrite (ex_ext _ (fun i => Z.testbit (W (pack l) s) (64 - 1 - i))) by (intros; f_equal; lia).
  rewrite ex_rev by lia. replace (64 * (s + 1) - k) with (64 * s + (64 - k)) by lia. replace (64 * (s + 1)) with (64 * s + 64) by lia.
  rewrite !E_word by lia. lia.
Qed.

Lemma open_block_loop_ok l v bo : zlen l < 2 ^ 31 -> 0 <= v -> 0 <= bo -> forall n, bo + Z.of_nat n <= nw l ->
  v < E l (64 * (bo + Z.of_nat n)) ->
  (exists r, open_block_loop n (pack l) bo (E l (64 * (bo + Z.of_nat n)) - v) = Ok (Some r) /\
     bhit l v (64 * (bo + Z.of_nat n)) r) \/
  (open_block_loop n (pack l) bo (E l (64 * (bo + Z.of_nat n)) - v) = Ok None /\
     forall k, 64 * bo <= k <= 64 * (bo + Z.of_nat n) -> v < E l k).
Proof.
  intros Hsz Hv Hbo. induction n as [|n IH]; intros Hn HE.
  - right. split; [reflexivity|]. intros k Hk. replace k with (64 * (bo + Z.of_nat 0)) by lia. exact HE.
  - cbn [open_block_loop]. set (s := bo + Z.of_nat n). replace (bo + Z.of_nat (S n)) with (s + 1) in * by lia.
    replace (0 <? E l (64 * (s + 1)) - v) with true by lia. unfold assert_. cbv iota.
    rewrite W_rd by (unfold nw in *; lia). cbn [bind]. set (w := W (pack l) s).
    assert (Uw : is_u64 w) by apply W_pack_u64.
    pose proof (fun k => ex_down l s k ltac:(lia)) as ED. fold w in ED.
    set (e := E l (64 * (s + 1)) - v) in *.
    set (r0 := if e <=? 64 then find_open_in_word w (byte_counts w) e else Ok None).
    assert (HR : (exists r, r0 = Ok (Some (63 - r)) /\ first_zero (down w) e 64 r) \/ (r0 = Ok None /\ no_zero (down w) e 64)).
    { unfold r0. destruct (Z.leb_spec e 64); [apply find_open_in_word_ok; [exact Uw|lia]|].
      right. split; [reflexivity|]. intros k Hk. pose proof (ex_bound (down w) k). lia. }
    clearbody r0. destruct HR as [(r & -> & R0 & R1 & R2)|[-> NZ]]; cbn [bind].
    + left. eexists. split; [reflexivity|]. split; [lia|]. split.
      * rewrite ED in R1 by lia. replace (63 - r + s * 64) with (64 * (s + 1) - (r + 1)) by lia. lia.
      * intros k Hk. specialize (R2 (64 * (s + 1) - k) ltac:(lia)). rewrite ED in R2 by lia.
        replace (64 * (s + 1) - (64 * (s + 1) - k)) with k in R2 by lia. lia.
    + rewrite bytes_sum_ex by exact Uw.
      assert (HK : forall k, 64 * s <= k <= 64 * (s + 1) -> v < E l k).
      { intros k Hk. specialize (NZ (64 * (s + 1) - k) ltac:(lia)). rewrite ED in NZ by lia.
        replace (64 * (s + 1) - (64 * (s + 1) - k)) with k in NZ by lia. lia. }
      pose proof (ex_bound (Z.testbit w) 64 ltac:(lia)). rewrite i32_small by lia.
      assert (ES : e - ex (Z.testbit w) 64 = E l (64 * s) - v).
      { pose proof (E_word l s 64 ltac:(lia) ltac:(lia)) as EW. fold w in EW. unfold e.
        replace (64 * (s + 1)) with (64 * s + 64) by lia. lia. }
      rewrite ES. pose proof (E_le_size l (64 * s) ltac:(lia)). pose proof (HK (64 * s) ltac:(lia)).
      rewrite int32_ok by lia. cbn [bind].
      destruct (IH ltac:(lia)) as [(r & Er & F0 & F1 & F2)|[Er F]]; [auto| |].
      * left. exists r. split; [exact Er|]. split; [lia|]. split; [exact F1|].
        intros k Hk. destruct (Z_le_gt_dec k (64 * s)); [apply F2; unfold s in *; lia|apply HK; lia].
      * right. split; [exact Er|]. intros k Hk. destruct (Z_le_gt_dec k (64 * s)); [apply F; unfold s in *; lia|apply HK; lia].
Qed.

Lemma find_open_in_block_ok l v bo st : zlen l < 2 ^ 31 -> 0 <= v -> 0 <= bo -> 0 <= st <= 4 -> bo + st <= nw l ->
  v < E l (64 * (bo + st)) ->
  (exists r, find_open_in_block (pack l) bo (E l (64 * (bo + st)) - v) st = Ok (Some r) /\ bhit l v (64 * (bo + st)) r) \/
  (find_open_in_block (pack l) bo (E l (64 * (bo + st)) - v) st = Ok None /\ forall k, 64 * bo <= k <= 64 * (bo + st) -> v < E l k).
Proof.
  intros Hsz Hv Hbo Hst Hw HE. unfold find_open_in_block. rewrite i32_small by lia.
  destruct (Z.ltb_spec (st * 64) (E l (64 * (bo + st)) - v)).
  - right. split; [reflexivity|]. intros k Hk. pose proof (E_lip l k (64 * (bo + st))). lia.
  - replace (0 <=? E l (64 * (bo + st)) - v) with true by lia. unfold assert_. cbv iota.
    pose proof (open_block_loop_ok l v bo Hsz Hv Hbo (Z.to_nat st)) as HO. replace (Z.of_nat (Z.to_nat st)) with st in HO by lia.
    apply HO; [lia|exact HE].
Qed.

(** ** Search among the blocks of a superblock *)
Section Tree.
Context (l : list bool) (bp : bp_vector) (v : Z).
Hypothesis HB : bp_ok l bp.
Hypothesis Hv : 0 <= v.
Hypothesis Hp : 0 < zlen l.

Let HR : rs_ok l (bp_rs bp) := proj1 HB.
Let Hsz : zlen l < 2 ^ 31 := proj1 (proj2 HB).
Let HN : nonneg l := proj1 (proj2 (proj2 HB)).
Let HM : mins_ok l (bp_block_excess_min bp) (nblk l) := proj1 (proj2 (proj2 (proj2 HB)) Hp).

Lemma block_value b : 0 <= b < nblk l -> exists m, rd (bp_block_excess_min bp) b = Ok m /\
  is_min (E l) (256 * b) (blk_end l b) (E l (8192 * (b / 32)) + m) /\ - 2 ^ 31 <= E l (8192 * (b / 32)) + m < 2 ^ 31.
Proof.
  intros Hb. destruct HM as [HL HMb]. exists (W (bp_block_excess_min bp) b). split; [apply W_rd; lia|].
  specialize (HMb b Hb). rewrite Z.add_comm in HMb. split; [exact HMb|].
  destruct HMb as [(j & Hj & Ej) _]. unfold blk_end in Hj. pose proof (HN j ltac:(lia)). pose proof (E_le_size l j ltac:(lia)). lia.
Qed.

Lemma block_search_fwd sb : 0 <= sb -> forall n b, 0 <= b -> 32 * sb <= b -> b + Z.of_nat n <= Z.min (32 * (sb + 1)) (nblk l) ->
  (exists c, block_search_loop true n (bp_block_excess_min bp) b v (E l (8192 * sb)) = Ok (Some c) /\ b <= c < b + Z.of_nat n /\
     (exists q, 256 * c <= q <= blk_end l c /\ E l q <= v) /\ forall k, 256 * b <= k <= 256 * c -> k < 256 * c \/ b < c -> v < E l k) \/
  (block_search_loop true n (bp_block_excess_min bp) b v (E l (8192 * sb)) = Ok None /\
     forall k, 256 * b <= k <= Z.min (256 * (b + Z.of_nat n)) (zlen l) -> 0 < Z.of_nat n -> v < E l k).
Proof.
  pose proof (geom l Hp) as (G1 & G2 & G3 & G4 & G5 & G6).
  intros Hsb. induction n as [|n IH]; intros b Hb0 Hb Hn.
  - right. split; [reflexivity|]. intros. lia.
  - cbn [block_search_loop]. destruct (block_value b ltac:(lia)) as (m & -> & Hm & Rm). cbn [bind].
    replace (b / 32) with sb in * by (apply (Z.div_unique b 32 sb (b - 32 * sb)); lia).
    rewrite int32_ok by exact Rm. cbn [bind]. destruct Hm as [(j & Hj & Ej) Hm].
    destruct (Z.leb_spec (E l (8192 * sb) + m) v) as [Hle|Hgt].
    + left. exists b. split; [reflexivity|]. split; [lia|]. split; [exists j; split; [exact Hj|lia]|]. intros k Hk. lia.
    + assert (HK : forall k, 256 * b <= k <= blk_end l b -> v < E l k) by (intros k Hk; specialize (Hm k Hk); lia).
      unfold blk_end in HK. destruct (IH (b + 1)) as [(c & -> & Hc & HQ & HF)|[-> HF]]; [lia|lia|lia| |].
      * left. exists c. split; [reflexivity|]. split; [lia|]. split; [exact HQ|]. intros k Hk _.
        destruct (Z_le_gt_dec k (256 * (b + 1))); [apply HK; lia|]. apply HF; lia.
      * right. split; [reflexivity|]. intros k Hk _. destruct (Z_le_gt_dec k (256 * (b + 1))); [apply HK; lia|]. apply HF; lia.
Qed.

Lemma block_search_bwd sb : 0 <= sb -> forall n b, b < Z.min (32 * (sb + 1)) (nblk l) -> b + 1 - Z.of_nat n = 32 * sb ->
  256 * (b + 1) <= zlen l ->
  (exists c, block_search_loop false n (bp_block_excess_min bp) b v (E l (8192 * sb)) = Ok (Some c) /\ 32 * sb <= c <= b /\
     (exists q, 256 * c <= q <= 256 * (c + 1) /\ E l q <= v) /\ forall k, 256 * (c + 1) <= k <= 256 * (b + 1) -> c < b -> v < E l k) \/
  (block_search_loop false n (bp_block_excess_min bp) b v (E l (8192 * sb)) = Ok None /\
     forall k, 8192 * sb <= k <= 256 * (b + 1) -> 0 < Z.of_nat n -> v < E l k).
Proof.
  pose proof (geom l Hp) as (G1 & G2 & G3 & G4 & G5 & G6).
  intros Hsb. induction n as [|n IH]; intros b Hb Hn Hz.
  - right. split; [reflexivity|]. intros. lia.
  - cbn [block_search_loop]. destruct (block_value b ltac:(lia)) as (m & -> & Hm & Rm). cbn [bind].
    replace (b / 32) with sb in * by (apply (Z.div_unique b 32 sb (b - 32 * sb)); lia).
    rewrite int32_ok by exact Rm. cbn [bind]. destruct Hm as [(j & Hj & Ej) Hm].
    unfold blk_end in *. replace (Z.min (256 * (b + 1)) (zlen l)) with (256 * (b + 1)) in * by lia.
    destruct (Z.leb_spec (E l (8192 * sb) + m) v) as [Hle|Hgt].
    + left. exists b. split; [reflexivity|]. split; [lia|]. split; [exists j; split; [exact Hj|lia]|]. intros k Hk. lia.
    + assert (HK : forall k, 256 * b <= k <= 256 * (b + 1) -> v < E l k) by (intros k Hk; specialize (Hm k Hk); lia).
      destruct (IH (b - 1)) as [(c & -> & Hc & HQ & HF)|[-> HF]]; [lia|lia|lia| |]; replace (b - 1 + 1) with b in * by lia.
      * left. exists c. split; [reflexivity|]. split; [lia|]. split; [exact HQ|]. intros k Hk _.
        destruct (Z_le_gt_dec (256 * b) k); [apply HK; lia|]. apply HF; lia.
      * right. split; [reflexivity|]. intros k Hk _. destruct (Z_le_gt_dec (256 * b) k); [apply HK; lia|]. apply HF; lia.
Qed.

Lemma search_block_fwd b : 0 <= b < nblk l ->
  (exists c, search_block_in_superblock true bp b v = Ok (Some c) /\ b <= c < nblk l /\
     (exists q, 256 * c <= q <= blk_end l c /\ E l q <= v) /\ forall k, 256 * b <= k <= 256 * c -> k < 256 * c \/ b < c -> v < E l k) \/
  (search_block_in_superblock true bp b v = Ok None /\ forall k, 256 * b <= k <= sup_end l (b / 32) -> v < E l k).
Proof.
  intros Hb. pose proof (geom l Hp) as (G1 & G2 & G3 & G4 & G5 & G6).
  pose proof (Z.div_mod b 32 ltac:(lia)) as D. pose proof (Z.mod_pos_bound b 32 ltac:(lia)) as M.
  unfold search_block_in_superblock, superblock_size. set (sb := b / 32) in *.
  rewrite (get_block_excess_ok l) by (auto; try lia; apply HN; lia). cbn [bind].
  replace (256 * (sb * 32)) with (8192 * sb) by lia. rewrite (proj1 HM).
  destruct (block_search_fwd sb ltac:(lia) (Z.to_nat (Z.min ((sb + 1) * 32) (nblk l) - b)) b) as [(c & -> & Hc & HQ & HF)|[-> HF]];
    [lia|lia|lia| |].
  - left. exists c. split; [reflexivity|]. split; [lia|]. auto.
  - right. split; [reflexivity|]. intros k Hk. unfold sup_end in Hk. apply HF; lia.
Qed.

Lemma search_block_bwd b : 0 <= b -> 256 * (b + 1) <= zlen l ->
  (exists c, search_block_in_superblock false bp b v = Ok (Some c) /\ 0 <= c <= b /\
     (exists q, 256 * c <= q <= 256 * (c + 1) /\ E l q <= v) /\ forall k, 256 * (c + 1) <= k <= 256 * (b + 1) -> c < b -> v < E l k) \/
  (search_block_in_superblock false bp b v = Ok None /\ forall k, 8192 * (b / 32) <= k <= 256 * (b + 1) -> v < E l k).
Proof.
  intros Hb Hz. pose proof (geom l Hp) as (G1 & G2 & G3 & G4 & G5 & G6).
  pose proof (Z.div_mod b 32 ltac:(lia)) as D. pose proof (Z.mod_pos_bound b 32 ltac:(lia)) as M.
  unfold search_block_in_superblock, superblock_size. set (sb := b / 32) in *.
  rewrite (get_block_excess_ok l) by (auto; try lia; apply HN; lia). cbn [bind].
  replace (256 * (sb * 32)) with (8192 * sb) by lia.
  destruct (block_search_bwd sb ltac:(lia) (Z.to_nat (b + 1 - sb * 32)) b) as [(c & -> & Hc & HQ & HF)|[-> HF]];
    [lia|lia|lia| |].
  - left. exists c. split; [reflexivity|]. split; [lia|]. auto.
  - right. split; [reflexivity|]. intros k Hk. apply HF; lia.
Qed.

(** ** Search in the tree *)
Context (H : Z).
Hypothesis HI : bp_internal_nodes bp = 2 ^ H.
Hypothesis HT : tree_ok l H (bp_superblock_excess_min bp).

(** superblock [k] reaches down to [v] *)
Definition low (k : Z) : Prop := k < nsup l /\ exists q, 8192 * k <= q <= sup_end l k /\ E l q <= v.

Lemma in_node_range_ok h j : 0 <= h <= H -> 0 <= j < 2 ^ (H - h) -> j * 2 ^ h < nsup l ->
  exists b, in_node_range bp (2 ^ (H - h) + j) v = Ok b /\
    if b : bool then (exists k, j * 2 ^ h <= k < (j + 1) * 2 ^ h /\ k < nsup l /\ low k)
    else forall k, j * 2 ^ h <= k < (j + 1) * 2 ^ h -> k < nsup l -> ~ low k.
Proof.
  intros Hh Hj Hc. destruct HT as (T0 & T1 & T2 & T3). destruct (T3 h j Hh Hj) as [N _].
  destruct (N Hc) as (Hi & Hm & Rm). set (i := 2 ^ (H - h) + j) in *.
  assert (P : 0 < 2 ^ (H - h)) by (apply Z.pow_pos_nonneg; lia).
  assert (Ph : 0 < 2 ^ h) by (apply Z.pow_pos_nonneg; lia).
  pose proof (geom l Hp) as (G1 & G2 & G3 & G4 & G5 & G6).
  unfold in_node_range. rewrite W_rd by lia. cbn [bind].
  assert (Esz : bp_size bp = zlen l) by (unfold bp_size; rewrite (proj1 HR); reflexivity).
  rewrite Esz, i32_small' by lia. replace (negb _) with true by lia. unfold assert_. cbv iota.
  eexists. split; [reflexivity|]. destruct Hm as [(q & Hq & Eq) Hm].
  assert (Hj0 : 0 <= j * 2 ^ h) by (apply Z.mul_nonneg_nonneg; lia).
  set (lo := j * 2 ^ h) in *. set (hi := (j + 1) * 2 ^ h) in *. assert (Hlh : lo < hi) by (unfold lo, hi; lia).
  clearbody lo hi. destruct (Z.leb_spec (W (bp_superblock_excess_min bp) i) v) as [Hle|Hgt].
  - (* q in some superblock *)
    destruct (Z.eq_dec q (8192 * lo)) as [->|Hne].
    + exists lo. split; [lia|]. split; [exact Hc|]. split; [exact Hc|]. exists (8192 * lo). split; [unfold sup_end; lia|lia].
    + pose proof (Z.div_mod (q - 1) 8192 ltac:(lia)). pose proof (Z.mod_pos_bound (q - 1) 8192 ltac:(lia)).
      exists ((q - 1) / 8192). split; [lia|]. split; [lia|]. split; [lia|]. exists q. split; [unfold sup_end; lia|lia].
  - intros k Hk Hkn (_ & q' & Hq' & Eq'). unfold sup_end in Hq'. specialize (Hm q' ltac:(lia)). lia.
Qed.

Lemma half_even j h : 2 * j * 2 ^ h = j * (2 * 2 ^ h).
Proof. ring. Qed.

Lemma tree_up_fwd c kt : kt < nsup l -> low kt -> forall fuel h j, 0 <= h <= H -> H - h < Z.of_nat fuel -> 0 <= j < 2 ^ (H - h) ->
  c < (j + 1) * 2 ^ h <= kt -> (forall k, c < k < (j + 1) * 2 ^ h -> ~ low k) ->
  exists h' j', tree_up_loop fuel true bp (2 ^ (H - h) + j) v = Ok (2 ^ (H - h') + j') /\ 0 <= h' <= H /\ 0 <= j' < 2 ^ (H - h') /\
    c < j' * 2 ^ h' /\ (forall k, c < k < j' * 2 ^ h' -> ~ low k) /\ exists k, j' * 2 ^ h' <= k < (j' + 1) * 2 ^ h' /\ k < nsup l /\ low k.
Proof.
  intros Hkt Lkt. destruct HT as (T0 & T1 & T2 & T3).
  induction fuel as [|fuel IH]; intros h j Hh Hf Hj Hc HNo; [lia|].
  assert (HhH : h < H).
  { destruct (Z.eq_dec h H) as [->|]; [|lia]. rewrite Z.sub_diag in Hj. change (2 ^ 0) with 1 in Hj. replace j with 0 in Hc by lia. lia. }
  assert (P : 0 < 2 ^ (H - h)) by (apply Z.pow_pos_nonneg; lia).
  assert (Ph : 0 < 2 ^ h) by (apply Z.pow_pos_nonneg; lia).
  assert (PS : 2 ^ (H - h) = 2 * 2 ^ (H - (h + 1))) by (rewrite <- pow2_succ by lia; f_equal; lia).
  assert (Hpar : (2 ^ (H - h) + j) / 2 = 2 ^ (H - (h + 1)) + j / 2).
  { rewrite PS. rewrite Z.mul_comm, Z.div_add_l by lia. reflexivity. }
  assert (Hodd : Z.odd (2 ^ (H - h) + j) = Z.odd j).
  { rewrite PS, Z.odd_add, Z.odd_mul. destruct (Z.odd j); reflexivity. }
  pose proof (Z.div_mod j 2 ltac:(lia)) as Dj. pose proof (Z.mod_pos_bound j 2 ltac:(lia)) as Mj.
  cbn [tree_up_loop]. replace (negb (2 ^ (H - h) + j =? 0)) with true by lia. unfold assert_. cbv iota.
  rewrite Hodd, Hpar. rewrite Zmod_odd in Dj. destruct (Z.odd j); cbn [eqb].
  - apply IH; [lia|lia|lia| |].
    + rewrite pow2_succ by lia. replace ((j / 2 + 1) * (2 * 2 ^ h)) with ((j + 1) * 2 ^ h) by (rewrite Dj at 1; ring). exact Hc.
    + rewrite pow2_succ by lia. replace ((j / 2 + 1) * (2 * 2 ^ h)) with ((j + 1) * 2 ^ h) by (rewrite Dj at 1; ring). exact HNo.
  - replace (2 ^ (H - h) + j + 1) with (2 ^ (H - h) + (j + 1)) by lia.
    destruct (in_node_range_ok h (j + 1)) as (b & -> & Hb); [lia|lia|lia|]. cbn [bind]. destruct b.
    + exists h, (j + 1). split; [reflexivity|]. split; [lia|]. split; [lia|]. split; [lia|]. split; [exact HNo|exact Hb].
    + assert (EP : (j / 2 + 1) * 2 ^ (h + 1) = (j + 1 + 1) * 2 ^ h) by (rewrite pow2_succ by lia; rewrite Dj at 2; ring).
      apply IH; [lia|lia|lia| |].
      * rewrite EP. split; [lia|]. destruct (Z_lt_le_dec kt ((j + 1 + 1) * 2 ^ h)); [|lia]. exfalso. apply (Hb kt); [lia|lia|exact Lkt].
      * rewrite EP. intros k Hk Lk. destruct (Z_lt_le_dec k ((j + 1) * 2 ^ h)); [apply (HNo k); [lia|exact Lk]|].
        assert (k < nsup l \/ nsup l <= k) as [Hkn|Hkn] by lia; [apply (Hb k); [lia|lia|exact Lk]|].
        destruct Lk as (Hkl & _). lia.
Qed.

Lemma tree_down_fwd c : forall fuel h j, 0 <= h <= H -> h <= Z.of_nat fuel -> 0 <= j < 2 ^ (H - h) ->
  c < j * 2 ^ h -> (forall k, c < k < j * 2 ^ h -> ~ low k) -> (exists k, j * 2 ^ h <= k < (j + 1) * 2 ^ h /\ k < nsup l /\ low k) ->
  exists k, tree_down_loop fuel true bp (2 ^ (H - h) + j) v = Ok (2 ^ H + k) /\ c < k < nsup l /\ low k /\ forall i, c < i < k -> ~ low i.
Proof.
  destruct HT as (T0 & T1 & T2 & T3).
  induction fuel as [|fuel IH]; intros h j Hh Hf Hj Hc HNo (kt & Hkt & Hkn & Lk).
  - replace h with 0 in * by lia. change (2 ^ 0) with 1 in *. rewrite Z.sub_0_r in *. cbn [tree_down_loop]. rewrite HI.
    replace (2 ^ H <=? 2 ^ H + j) with true by lia. exists j. replace kt with j in * by lia. split; [reflexivity|]. split; [lia|]. split; [exact Lk|].
    intros i Hi. apply HNo. lia.
  - cbn [tree_down_loop]. rewrite HI. destruct (Z.eq_dec h 0) as [->|Hh0].
    + change (2 ^ 0) with 1 in *. rewrite Z.sub_0_r in *.
      replace (2 ^ H <=? 2 ^ H + j) with true by lia. exists j. replace kt with j in * by lia. split; [reflexivity|]. split; [lia|]. split; [exact Lk|].
      intros i Hi. apply HNo. lia.
    + assert (P : 0 < 2 ^ (H - h)) by (apply Z.pow_pos_nonneg; lia).
      assert (Ph : 0 < 2 ^ (h - 1)) by (apply Z.pow_pos_nonneg; lia).
      assert (PS : 2 ^ (H - (h - 1)) = 2 * 2 ^ (H - h)) by (rewrite <- pow2_succ by lia; f_equal; lia).
      assert (PH : 2 ^ h = 2 * 2 ^ (h - 1)) by (rewrite <- pow2_succ by lia; f_equal; lia).
      assert (PT : 2 ^ (H - (h - 1)) <= 2 ^ H) by (apply Z.pow_le_mono_r; lia).
      replace (2 ^ H <=? 2 ^ (H - h) + j) with false by lia.
      replace ((2 ^ (H - h) + j) * 2 + 0) with (2 ^ (H - (h - 1)) + 2 * j) by lia.
      assert (E1 : 2 * j * 2 ^ (h - 1) = j * 2 ^ h) by (rewrite PH; ring).
      assert (E2 : (2 * j + 1) * 2 ^ (h - 1) = j * 2 ^ h + 2 ^ (h - 1)) by (rewrite PH; ring).
      assert (E3 : (2 * j + 1 + 1) * 2 ^ (h - 1) = (j + 1) * 2 ^ h) by (rewrite PH; ring).
      destruct (in_node_range_ok (h - 1) (2 * j)) as (b & -> & Hb); [lia|lia|lia|]. cbn [bind]. destruct b.
      * apply IH; [lia|lia|lia|lia| |exact Hb]. rewrite E1. exact HNo.
      * assert (Hge : (2 * j + 1) * 2 ^ (h - 1) <= kt).
        { destruct (Z_lt_le_dec kt ((2 * j + 1) * 2 ^ (h - 1))); [|lia]. exfalso. apply (Hb kt); [lia|lia|exact Lk]. }
        replace (2 ^ (H - (h - 1)) + 2 * j + 1) with (2 ^ (H - (h - 1)) + (2 * j + 1)) by lia.
        destruct (in_node_range_ok (h - 1) (2 * j + 1)) as (b & -> & Hb2); [lia|lia|lia|]. cbn [bind]. destruct b.
        -- cbv iota. apply IH; [lia|lia|lia|lia| |exact Hb2]. intros k Hk Lk'.
           destruct (Z_lt_le_dec k (j * 2 ^ h)); [apply (HNo k); [lia|exact Lk']|]. apply (Hb k); [lia| |exact Lk'].
           lia.
        -- exfalso. apply (Hb2 kt); [lia|lia|exact Lk].
Qed.

Lemma tree_up_bwd c kt : 0 <= kt -> low kt -> c < nsup l -> forall fuel h j, 0 <= h <= H -> H - h < Z.of_nat fuel -> 0 <= j < 2 ^ (H - h) ->
  kt < j * 2 ^ h <= c -> (forall k, j * 2 ^ h <= k < c -> ~ low k) ->
  exists h' j', tree_up_loop fuel false bp (2 ^ (H - h) + j) v = Ok (2 ^ (H - h') + j') /\ 0 <= h' <= H /\ 0 <= j' < 2 ^ (H - h') /\
    (j' + 1) * 2 ^ h' <= c /\ (forall k, (j' + 1) * 2 ^ h' <= k < c -> ~ low k) /\ exists k, j' * 2 ^ h' <= k < (j' + 1) * 2 ^ h' /\ low k.
Proof.
  intros Hkt Lkt Hcn. destruct HT as (T0 & T1 & T2 & T3).
  induction fuel as [|fuel IH]; intros h j Hh Hf Hj Hc HNo; [lia|].
  assert (HhH : h < H).
  { destruct (Z.eq_dec h H) as [->|]; [|lia]. rewrite Z.sub_diag in Hj. change (2 ^ 0) with 1 in Hj. replace j with 0 in Hc by lia. lia. }
  assert (P : 0 < 2 ^ (H - h)) by (apply Z.pow_pos_nonneg; lia).
  assert (Ph : 0 < 2 ^ h) by (apply Z.pow_pos_nonneg; lia).
  assert (PS : 2 ^ (H - h) = 2 * 2 ^ (H - (h + 1))) by (rewrite <- pow2_succ by lia; f_equal; lia).
  assert (Hpar : (2 ^ (H - h) + j) / 2 = 2 ^ (H - (h + 1)) + j / 2).
  { rewrite PS. rewrite Z.mul_comm, Z.div_add_l by lia. reflexivity. }
  assert (Hodd : Z.odd (2 ^ (H - h) + j) = Z.odd j).
  { rewrite PS, Z.odd_add, Z.odd_mul. destruct (Z.odd j); reflexivity. }
  pose proof (Z.div_mod j 2 ltac:(lia)) as Dj. pose proof (Z.mod_pos_bound j 2 ltac:(lia)) as Mj.
  cbn [tree_up_loop]. replace (negb (2 ^ (H - h) + j =? 0)) with true by lia. unfold assert_. cbv iota.
  rewrite Hodd, Hpar. rewrite Zmod_odd in Dj. destruct (Z.odd j); cbn [eqb].
  - rewrite sub64_ok by lia. replace (2 ^ (H - h) + j - 1) with (2 ^ (H - h) + (j - 1)) by lia.
    assert (Ej : (j - 1 + 1) * 2 ^ h = j * 2 ^ h) by (f_equal; lia).
    assert (Ej2 : (j - 1) * 2 ^ h + 2 ^ h = j * 2 ^ h) by ring.
    destruct (in_node_range_ok h (j - 1)) as (b & -> & Hb); [lia|lia|lia|]. cbn [bind]. destruct b.
    + exists h, (j - 1). split; [reflexivity|]. split; [lia|]. split; [lia|]. split; [lia|]. split; [rewrite Ej; exact HNo|].
      destruct Hb as (k & Hk & _ & Lk). exists k. auto.
    + assert (EP : j / 2 * 2 ^ (h + 1) = (j - 1) * 2 ^ h) by (rewrite pow2_succ by lia; rewrite Dj at 2; ring).
      apply IH; [lia|lia|lia| |].
      * rewrite EP. split; [|lia]. destruct (Z_lt_le_dec kt ((j - 1) * 2 ^ h)); [auto|]. exfalso. apply (Hb kt); [lia|lia|exact Lkt].
      * rewrite EP. intros k Hk Lk. destruct (Z_lt_le_dec k (j * 2 ^ h)); [apply (Hb k); [lia|lia|exact Lk]|apply (HNo k); [lia|exact Lk]].
  - assert (EP : j / 2 * 2 ^ (h + 1) = j * 2 ^ h) by (rewrite pow2_succ by lia; rewrite Dj at 2; ring).
    apply IH; [lia|lia|lia|rewrite EP; exact Hc|rewrite EP; exact HNo].
Qed.

Lemma tree_down_bwd c : c < nsup l -> forall fuel h j, 0 <= h <= H -> h <= Z.of_nat fuel -> 0 <= j < 2 ^ (H - h) ->
  (j + 1) * 2 ^ h <= c -> (forall k, (j + 1) * 2 ^ h <= k < c -> ~ low k) -> (exists k, j * 2 ^ h <= k < (j + 1) * 2 ^ h /\ low k) ->
  exists k, tree_down_loop fuel false bp (2 ^ (H - h) + j) v = Ok (2 ^ H + k) /\ 0 <= k < c /\ low k /\ forall i, k < i < c -> ~ low i.
Proof.
  intros Hcn. destruct HT as (T0 & T1 & T2 & T3).
  assert (Base : forall j kt, 0 <= j -> j + 1 <= c -> (forall k, j + 1 <= k < c -> ~ low k) -> j <= kt < j + 1 -> low kt ->
    exists k : Z, Ok (2 ^ H + j) = Ok (2 ^ H + k) /\ 0 <= k < c /\ low k /\ (forall i, k < i < c -> ~ low i)).
  { intros j kt Hj Hc HNo Hkt Lk. exists j. replace kt with j in * by lia. split; [reflexivity|]. split; [lia|]. split; [exact Lk|].
    intros i Hi. apply HNo. lia. }
  induction fuel as [|fuel IH]; intros h j Hh Hf Hj Hc HNo (kt & Hkt & Lk).
  - replace h with 0 in * by lia. change (2 ^ 0) with 1 in *. rewrite Z.sub_0_r, ?Z.mul_1_r in *. cbn [tree_down_loop]. rewrite HI.
    replace (2 ^ H <=? 2 ^ H + j) with true by lia. apply Base with kt; auto; lia.
  - cbn [tree_down_loop]. rewrite HI. destruct (Z.eq_dec h 0) as [->|Hh0].
    + change (2 ^ 0) with 1 in *. rewrite Z.sub_0_r, ?Z.mul_1_r in *.
      replace (2 ^ H <=? 2 ^ H + j) with true by lia. apply Base with kt; auto; lia.
    + assert (P : 0 < 2 ^ (H - h)) by (apply Z.pow_pos_nonneg; lia).
      assert (Ph : 0 < 2 ^ (h - 1)) by (apply Z.pow_pos_nonneg; lia).
      assert (PS : 2 ^ (H - (h - 1)) = 2 * 2 ^ (H - h)) by (rewrite <- pow2_succ by lia; f_equal; lia).
      assert (PH : 2 ^ h = 2 * 2 ^ (h - 1)) by (rewrite <- pow2_succ by lia; f_equal; lia).
      assert (PT : 2 ^ (H - (h - 1)) <= 2 ^ H) by (apply Z.pow_le_mono_r; lia).
      replace (2 ^ H <=? 2 ^ (H - h) + j) with false by lia.
      replace ((2 ^ (H - h) + j) * 2 + 1) with (2 ^ (H - (h - 1)) + (2 * j + 1)) by lia.
      assert (E1 : 2 * j * 2 ^ (h - 1) = j * 2 ^ h) by (rewrite PH; ring).
      assert (E2 : (2 * j + 1) * 2 ^ (h - 1) = j * 2 ^ h + 2 ^ (h - 1)) by (rewrite PH; ring).
      assert (E3 : (2 * j + 1 + 1) * 2 ^ (h - 1) = (j + 1) * 2 ^ h) by (rewrite PH; ring).
      assert (E4 : (j + 1) * 2 ^ h = j * 2 ^ h + 2 * 2 ^ (h - 1)) by (rewrite PH; ring).
      destruct (in_node_range_ok (h - 1) (2 * j + 1)) as (b & -> & Hb); [lia|lia|lia|]. cbn [bind]. destruct b.
      * apply IH; [lia|lia|lia|lia|rewrite E3; exact HNo|]. destruct Hb as (k & Hk & _ & Lk'). exists k. auto.
      * assert (Hlt : kt < (2 * j + 1) * 2 ^ (h - 1)).
        { destruct (Z_lt_le_dec kt ((2 * j + 1) * 2 ^ (h - 1))); [auto|]. exfalso. apply (Hb kt); [lia|lia|exact Lk]. }
        rewrite sub64_ok by lia. replace (2 ^ (H - (h - 1)) + (2 * j + 1) - 1) with (2 ^ (H - (h - 1)) + 2 * j) by lia.
        destruct (in_node_range_ok (h - 1) (2 * j)) as (b & -> & Hb2); [lia|lia|lia|]. cbn [bind]. destruct b.
        -- cbv iota. apply IH; [lia|lia|lia|lia| |destruct Hb2 as (k & Hk & _ & Lk'); exists k; auto]. intros k Hk Lk'.
           destruct (Z_lt_le_dec k ((j + 1) * 2 ^ h)); [apply (Hb k); [lia|lia|exact Lk']|apply (HNo k); [lia|exact Lk']].
        -- exfalso. apply (Hb2 kt); [lia|lia|exact Lk].
Qed.

Lemma fuel_ok : H < Z.of_nat (length (bp_superblock_excess_min bp)).
Proof.
  destruct HT as (T0 & _ & T2 & _). pose proof (geom l Hp). pose proof (Z.pow_gt_lin_r 2 H ltac:(lia)). unfold zlen in T2. lia.
Qed.

Lemma search_min_tree_fwd b : 0 <= b < nblk l -> v < E l (256 * b) -> (exists q, 256 * b <= q <= zlen l /\ E l q <= v) ->
  exists c, search_min_tree true bp b v = Ok c /\ b <= c < nblk l /\ (forall k, 256 * b <= k <= 256 * c -> v < E l k) /\
    exists q, 256 * c <= q <= blk_end l c /\ E l q <= v.
Proof.
  intros Hb HE (q & Hq & Eq). pose proof (geom l Hp) as (G1 & G2 & G3 & G4 & G5 & G6). pose proof fuel_ok as HF.
  destruct HT as (T0 & T1 & T2 & T3). unfold search_min_tree.
  pose proof (Z.div_mod b 32 ltac:(lia)) as D. pose proof (Z.mod_pos_bound b 32 ltac:(lia)) as M.
  destruct (search_block_fwd b Hb) as [(c & -> & Hc & HQ & HK)|[-> HK]]; cbn [bind].
  - exists c. split; [reflexivity|]. split; [exact Hc|]. split; [|exact HQ]. intros k Hk.
    destruct (Z.eq_dec k (256 * b)) as [->|]; [exact HE|]. destruct (Z.eq_dec k (256 * c)); apply HK; lia.
  - unfold superblock_size. set (sb := b / 32) in *. rewrite HI.
    assert (Hq2 : sup_end l sb < q) by (destruct (Z_le_gt_dec q (sup_end l sb)); [specialize (HK q ltac:(lia)); lia|lia]).
    pose proof (Z.div_mod (q - 1) 8192 ltac:(lia)) as Dq. pose proof (Z.mod_pos_bound (q - 1) 8192 ltac:(lia)) as Mq.
    set (kt := (q - 1) / 8192) in *.
    assert (Hkt : sb < kt < nsup l) by (unfold sup_end in Hq2; lia).
    assert (Lkt : low kt) by (split; [lia|]; exists q; split; [unfold sup_end; lia|exact Eq]).
    destruct (tree_up_fwd sb kt ltac:(lia) Lkt (length (bp_superblock_excess_min bp)) 0 sb) as (h & j & EU & Hh & Hj & U1 & U2 & U3).
    { lia. } { lia. } { rewrite Z.sub_0_r. lia. } { change (2 ^ 0) with 1. lia. } { change (2 ^ 0) with 1. intros k Hk. lia. }
    rewrite Z.sub_0_r in EU. rewrite EU. cbn [bind].
    assert (P : 0 < 2 ^ (H - h)) by (apply Z.pow_pos_nonneg; lia).
    replace (negb (2 ^ (H - h) + j =? 0)) with true by lia. unfold assert_. cbv iota.
    destruct (tree_down_fwd sb (length (bp_superblock_excess_min bp)) h j) as (k & ED & Hk & Lk & NL); auto.
    { lia. }
    rewrite ED. cbn [bind]. replace (2 ^ H + k - 2 ^ H) with k by lia. replace (k * 32 + 0) with (32 * k) by lia.
    assert (HK2 : forall i, 256 * b <= i <= 8192 * k -> v < E l i).
    { intros i Hi. destruct (Z_le_gt_dec i (sup_end l sb)); [apply HK; lia|]. unfold sup_end in *.
      pose proof (Z.div_mod (i - 1) 8192 ltac:(lia)). pose proof (Z.mod_pos_bound (i - 1) 8192 ltac:(lia)).
      destruct (Z_lt_le_dec v (E l i)); [auto|]. exfalso. apply (NL ((i - 1) / 8192)); [lia|].
      split; [lia|]. exists i. split; [unfold sup_end; lia|auto]. }
    destruct Lk as (_ & q' & Hq' & Eq').
    destruct (search_block_fwd (32 * k)) as [(c & -> & Hc & HQ & HK3)|[-> HK3]]; [lia| |]; cbn [bind].
    + exists c. split; [reflexivity|]. split; [lia|]. split; [|exact HQ]. intros i Hi.
      destruct (Z_le_gt_dec i (8192 * k)); [apply HK2; lia|]. destruct (Z.eq_dec i (256 * c)); apply HK3; lia.
    + exfalso. specialize (HK3 q'). replace (32 * k / 32) with k in HK3 by (rewrite Z.mul_comm, Z.div_mul; lia). 
      specialize (HK3 ltac:(lia)). lia.
Qed.

Lemma search_min_tree_bwd b : 0 <= b -> 256 * (b + 1) <= zlen l -> v < E l (256 * (b + 1)) -> (exists q, 0 <= q <= 256 * (b + 1) /\ E l q <= v) ->
  exists c, search_min_tree false bp b v = Ok c /\ 0 <= c <= b /\ (forall k, 256 * (c + 1) <= k <= 256 * (b + 1) -> v < E l k) /\
    exists q, 256 * c <= q <= 256 * (c + 1) /\ E l q <= v.
Proof.
  intros Hb Hz HE (q & Hq & Eq). pose proof (geom l Hp) as (G1 & G2 & G3 & G4 & G5 & G6). pose proof fuel_ok as HF.
  destruct HT as (T0 & T1 & T2 & T3). unfold search_min_tree.
  pose proof (Z.div_mod b 32 ltac:(lia)) as D. pose proof (Z.mod_pos_bound b 32 ltac:(lia)) as M.
  destruct (search_block_bwd b Hb Hz) as [(c & -> & Hc & HQ & HK)|[-> HK]]; cbn [bind].
  - exists c. split; [reflexivity|]. split; [exact Hc|]. split; [|exact HQ]. intros k Hk.
    destruct (Z.eq_dec c b) as [->|]; [replace k with (256 * (b + 1)) by lia; exact HE|]. apply HK; lia.
  - unfold superblock_size. set (sb := b / 32) in *. rewrite HI.
    assert (Hq2 : q < 8192 * sb) by (destruct (Z_lt_le_dec q (8192 * sb)); [auto|specialize (HK q ltac:(lia)); lia]).
    pose proof (Z.div_mod q 8192 ltac:(lia)) as Dq. pose proof (Z.mod_pos_bound q 8192 ltac:(lia)) as Mq.
    set (kt := q / 8192) in *.
    assert (Hkt : 0 <= kt < sb) by lia.
    assert (Lkt : low kt) by (split; [lia|]; exists q; split; [unfold sup_end; lia|exact Eq]).
    destruct (tree_up_bwd sb kt ltac:(lia) Lkt ltac:(lia) (length (bp_superblock_excess_min bp)) 0 sb) as (h & j & EU & Hh & Hj & U1 & U2 & U3).
    { lia. } { lia. } { rewrite Z.sub_0_r. lia. } { change (2 ^ 0) with 1. lia. } { change (2 ^ 0) with 1. intros k Hk. lia. }
    rewrite Z.sub_0_r in EU. rewrite EU. cbn [bind].
    assert (P : 0 < 2 ^ (H - h)) by (apply Z.pow_pos_nonneg; lia).
    replace (negb (2 ^ (H - h) + j =? 0)) with true by lia. unfold assert_. cbv iota.
    destruct (tree_down_bwd sb ltac:(lia) (length (bp_superblock_excess_min bp)) h j) as (k & ED & Hk & Lk & NL); auto.
    { lia. }
    rewrite ED. cbn [bind]. replace (2 ^ H + k - 2 ^ H) with k by lia. replace (k * 32 + (32 - 1)) with (32 * k + 31) by lia.
    assert (HK2 : forall i, 8192 * (k + 1) <= i <= 256 * (b + 1) -> v < E l i).
    { intros i Hi. destruct (Z_le_gt_dec (8192 * sb) i); [apply HK; lia|].
      pose proof (Z.div_mod i 8192 ltac:(lia)). pose proof (Z.mod_pos_bound i 8192 ltac:(lia)).
      destruct (Z_lt_le_dec v (E l i)); [auto|]. exfalso. apply (NL (i / 8192)); [lia|].
      split; [lia|]. exists i. split; [unfold sup_end; lia|auto]. }
    destruct Lk as (_ & q' & Hq' & Eq'). unfold sup_end in Hq'.
    destruct (search_block_bwd (32 * k + 31)) as [(c & -> & Hc & HQ & HK3)|[-> HK3]]; [lia|lia| |]; cbn [bind].
    + exists c. split; [reflexivity|]. split; [lia|]. split; [|exact HQ]. intros i Hi.
      destruct (Z_le_gt_dec (8192 * (k + 1)) i); [apply HK2; lia|]. apply HK3; lia.
    + exfalso. specialize (HK3 q').
      replace ((32 * k + 31) / 32) with k in HK3 by (apply (Z.div_unique (32 * k + 31) 32 k 31); lia).
      specialize (HK3 ltac:(lia)). lia.
Qed.
End Tree.

(** ** find_close *)
Lemma find_close_ok f l bp pos m : bp_ok l bp -> 0 <= pos < zlen l -> zbit l pos = true -> pos < m < zlen l -> E l (m + 1) <= E l pos ->
  exists r, find_close (loose_shift f) bp pos = Ok r /\ fhit l (E l pos) (pos + 1) r.
Proof.
  intros HB Hpos Hbit Hm Em. assert (Hp : 0 < zlen l) by lia.
  pose proof HB as (HR & Hsz & HN & HMT). destruct (HMT Hp) as (HM & H & HI & HT).
  pose proof (geom l Hp) as (G1 & G2 & G3 & G4 & G5 & G6).
  assert (Ebv : rs_bv (bp_rs bp) = canonical l) by apply HR.
  set (v := E l pos) in *. assert (Hv : 0 <= v) by (apply HN; lia).
  pose proof (E_le_size l pos ltac:(lia)) as Hv2. fold v in Hv2.
  assert (E1 : E l (pos + 1) = v + 1) by (rewrite E_succ, Hbit by lia; reflexivity).
  unfold find_close. rewrite Ebv, bv_get_ok by lia. cbn [bind]. rewrite Hbit. unfold assert_. cbv iota.
  assert (Ew : bp_words bp = pack l) by (unfold bp_words; rewrite Ebv; reflexivity). rewrite Ew.
  pose proof (Z.div_mod (pos + 1) 64 ltac:(lia)) as D. pose proof (Z.mod_pos_bound (pos + 1) 64 ltac:(lia)) as M.
  set (wp := (pos + 1) / 64) in *. set (sh := (pos + 1) mod 64) in *.
  assert (Hwp : 0 <= wp < nw l) by lia.
  rewrite W_rd by (unfold nw in *; lia). cbn [bind]. rewrite shr_ok by lia. cbn [bind].
  set (w := W (pack l) wp).
  assert (HS : exists ones, shl_p (loose_shift f) (2 ^ 64 - 1) (64 - sh) = Ok ones /\
    is_u64 (if sh =? 0 then 0 else ones) /\
    forall i, 0 <= i < 64 -> Z.testbit (if sh =? 0 then 0 else ones) i = (64 - sh <=? i)).
  { unfold shl_p. destruct (Z.eqb_spec sh 0) as [E0|E0].
    - rewrite E0. replace ((0 <=? 64 - 0) && (64 - 0 <? 64)) with false by lia. eexists. split; [reflexivity|]. split; [unfold is_u64; lia|].
      intros i Hi. rewrite Z.testbit_0_l. lia.
    - replace ((0 <=? 64 - sh) && (64 - sh <? 64)) with true by lia. eexists. split; [reflexivity|]. split; [apply is_u64_u64|].
      intros i Hi. unfold u64. rewrite Z.mod_pow2_bits_low by lia. rewrite Z.shiftl_spec by lia.
      replace (2 ^ 64 - 1) with (Z.ones 64) by reflexivity.
      destruct (Z.leb_spec (64 - sh) i); [apply Z.ones_spec_low; lia|apply Z.testbit_neg_r; lia]. }
  destruct HS as (ones & -> & Uones & Hones). cbn [bind].
  set (pw := Z.lor (Z.shiftr w sh) (if sh =? 0 then 0 else ones)).
  destruct (words_ok_pack l) as (_ & _ & BW).
  assert (Hpw : forall i, 0 <= i < 64 -> Z.testbit pw i = if i <? 64 - sh then zbit l (pos + 1 + i) else true).
  { intros i Hi. unfold pw. rewrite Z.lor_spec, Z.shiftr_spec, Hones by lia. destruct (Z.ltb_spec i (64 - sh)).
    - replace (64 - sh <=? i) with false by lia. rewrite orb_false_r. unfold w. rewrite BW by lia. f_equal. lia.
    - replace (64 - sh <=? i) with true by lia. apply orb_true_r. }
  assert (Uw : is_u64 w) by apply W_pack_u64.
  assert (Upw : is_u64 pw).
  { unfold pw. apply lor_range; [lia| |].
    - split; [apply Z.shiftr_nonneg; unfold is_u64 in Uw; lia|]. rewrite Z.shiftr_div_pow2 by lia.
      pose proof (Z.pow_pos_nonneg 2 sh ltac:(lia) ltac:(lia)). unfold is_u64 in Uw.
      apply Z.le_lt_trans with w; [|lia]. apply Z.div_le_upper_bound; [lia|]. nia.
    - exact Uones. }
  assert (EP : forall k, 0 <= k <= 64 - sh -> ex (Z.testbit pw) k = E l (pos + 1 + k) - E l (pos + 1)).
  { intros k Hk. rewrite (ex_ext _ (fun i => zbit l (pos + 1 + i))).
    - unfold E. rewrite (ex_shift (zbit l) (pos + 1) k) by lia. lia.
    - intros i Hi. rewrite Hpw by lia. replace (i <? 64 - sh) with true by lia. reflexivity. }
  assert (EP2 : forall k, 64 - sh <= k <= 64 -> ex (Z.testbit pw) k = ex (Z.testbit pw) (64 - sh) + (k - (64 - sh))).
  { intros k Hk. replace k with (64 - sh + (k - (64 - sh))) at 1 by lia. rewrite ex_shift by lia. f_equal.
    set (n := k - (64 - sh)). assert (Hn : 0 <= n <= sh) by lia. destruct Hn as [Hn0 Hn1]. clearbody n. revert Hn1.
    apply (ex_ind (fun n => n <= sh -> ex (fun i => Z.testbit pw (64 - sh + i)) n = n)); [reflexivity| |exact Hn0].
    intros i Hi IH Hi2. rewrite ex_succ, IH by lia. rewrite Hpw by lia. replace (64 - sh + i <? 64 - sh) with false by lia. lia. }
  destruct (find_close_in_word_ok pw 1 Upw ltac:(lia)) as [(r & -> & R0 & R1 & R2)|[-> NZ]]; cbn [bind].
  - assert (Hr : r < 64 - sh).
    { destruct (Z_lt_le_dec r (64 - sh)); [auto|]. specialize (R2 r ltac:(lia)). rewrite (EP2 r) in R2 by lia. rewrite (EP2 (r + 1)) in R1 by lia. lia. }
    exists (r + (pos + 1)). split; [reflexivity|]. split; [lia|]. split.
    + rewrite EP in R1 by lia. replace (r + (pos + 1) + 1) with (pos + 1 + (r + 1)) by lia. lia.
    + intros k Hk. specialize (R2 (k - (pos + 1)) ltac:(lia)). rewrite EP in R2 by lia. replace (pos + 1 + (k - (pos + 1))) with k in R2 by lia. lia.
  - pose proof (EP2 64 ltac:(lia)) as EPs. pose proof (bytes_sum_ex pw Upw) as BS.
    assert (K0 : forall k, pos + 1 <= k <= 64 * (wp + 1) -> v < E l k).
    { intros k Hk. specialize (NZ (k - (pos + 1)) ltac:(lia)). rewrite EP in NZ by lia. replace (pos + 1 + (k - (pos + 1))) with k in NZ by lia. lia. }
    pose proof (EP (64 - sh) ltac:(lia)) as EPm. replace (pos + 1 + (64 - sh)) with (64 * (wp + 1)) in EPm by lia.
    pose proof (ex_bound (Z.testbit pw) (64 - sh) ltac:(lia)) as Bnd.
    rewrite sub64_ok by lia.
    replace (2 * (bytes_sum (byte_counts pw) - sh) - (64 - sh)) with (ex (Z.testbit pw) (64 - sh)) by lia.
    rewrite i32_small by lia. replace (ex (Z.testbit pw) (64 - sh) + 1) with (E l (64 * (wp + 1)) - v) by lia.
    rewrite int32_ok by lia. cbn [bind].
    pose proof (Z.div_mod wp 4 ltac:(lia)) as D4. pose proof (Z.mod_pos_bound wp 4 ltac:(lia)) as M4.
    unfold bp_block_size in *. set (b := wp / 4) in *. set (sb := wp mod 4) in *.
    replace (64 * (wp + 1)) with (64 * (b * 4 + (sb + 1))) in * by lia.
    assert (Hm2 : 64 * (b * 4 + (sb + 1)) < m + 1).
    { destruct (Z_le_gt_dec (m + 1) (64 * (b * 4 + (sb + 1)))); [specialize (K0 (m + 1) ltac:(lia)); lia|lia]. }
    destruct (find_close_in_block_ok l v (b * 4) (sb + 1) Hsz Hv ltac:(lia) ltac:(lia)) as [(r & -> & (F0 & F1 & F2) & _)|[-> K1]]; cbn [bind].
    + apply K0. lia.
    + exists (m + 1). split; [lia|exact Em].
    + exists r. split; [reflexivity|]. split; [lia|]. split; [exact F1|]. intros k Hk.
      destruct (Z_le_gt_dec k (64 * (b * 4 + (sb + 1)))); [apply K0; lia|apply F2; lia].
    + rewrite (excess_ok l) by (auto; lia). cbn [bind]. fold v.
      assert (K2 : forall k, pos + 1 <= k <= 256 * (b + 1) -> v < E l k).
      { intros k Hk. destruct (Z_le_gt_dec k (64 * (b * 4 + (sb + 1)))); [apply K0; lia|apply K1; lia]. }
      assert (Hm3 : 256 * (b + 1) < m + 1).
      { destruct (Z_le_gt_dec (m + 1) (256 * (b + 1))); [specialize (K2 (m + 1) ltac:(lia)); lia|lia]. }
      destruct (search_min_tree_fwd l bp v HB Hp H HI HT (b + 1)) as (c & -> & Hc & K3 & q & Hq & Eq).
      { lia. } { apply K2. lia. } { exists (m + 1). split; [lia|exact Em]. }
      cbn [bind]. rewrite (get_block_excess_ok l) by (auto; try lia; apply HN; lia). cbn [bind].
      pose proof (K3 (256 * c) ltac:(lia)). pose proof (E_le_size l (256 * c) ltac:(lia)).
      rewrite int32_ok by lia. cbn [bind]. unfold blk_end in Hq.
      replace (256 * c) with (64 * (c * 4 + 0)) in * by lia.
      destruct (find_close_in_block_ok l v (c * 4) 0 Hsz Hv ltac:(lia) ltac:(lia)) as [(r & -> & (F0 & F1 & F2) & _)|[-> K4]]; cbn [bind].
      * auto.
      * exists q. split; [lia|exact Eq].
      * exists r. split; [reflexivity|]. split; [lia|]. split; [exact F1|]. intros k Hk.
        destruct (Z_le_gt_dec k (256 * (b + 1))); [apply K2; lia|].
        destruct (Z_le_gt_dec k (64 * (c * 4 + 0))); [apply K3; lia|apply F2; lia].
      * exfalso. specialize (K4 q ltac:(lia)). lia.
Qed.

(** ** find_open *)
Lemma find_open_ok f l bp pos q : bp_ok l bp -> 0 < pos < zlen l -> 0 <= q < pos -> E l q <= E l pos - 1 ->
  exists r, find_open (loose_shift f) bp pos = Ok r /\ bhit l (E l pos - 1) pos r.
Proof.
  intros HB Hpos Hq Eq. assert (Hp : 0 < zlen l) by lia.
  pose proof HB as (HR & Hsz & HN & HMT). destruct (HMT Hp) as (HM & H & HI & HT).
  pose proof (geom l Hp) as (G1 & G2 & G3 & G4 & G5 & G6).
  assert (Ebv : rs_bv (bp_rs bp) = canonical l) by apply HR.
  set (v := E l pos - 1) in *. assert (Hv : 0 <= v) by (pose proof (HN q ltac:(lia)); lia).
  pose proof (E_le_size l pos ltac:(lia)) as Hv2.
  unfold find_open. replace (negb (pos =? 0)) with true by lia. unfold assert_. cbv iota.
  assert (Ew : bp_words bp = pack l) by (unfold bp_words; rewrite Ebv; reflexivity). rewrite Ew.
  pose proof (Z.div_mod pos 64 ltac:(lia)) as D. pose proof (Z.mod_pos_bound pos 64 ltac:(lia)) as M.
  set (wp := pos / 64) in *. set (ln := pos mod 64) in *.
  rewrite W_rd by (unfold nw in *; lia). cbn [bind].
  set (w := W (pack l) wp).
  destruct (words_ok_pack l) as (_ & _ & BW).
  assert (HS : exists sw, shl_p (loose_shift f) w (64 - ln) = Ok sw /\ is_u64 (if ln =? 0 then 0 else sw) /\
    forall i, 0 <= i < 64 -> Z.testbit (if ln =? 0 then 0 else sw) i = (64 - ln <=? i) && zbit l (pos - 64 + i)).
  { unfold shl_p. destruct (Z.eqb_spec ln 0) as [E0|E0].
    - rewrite E0. replace ((0 <=? 64 - 0) && (64 - 0 <? 64)) with false by lia. eexists. split; [reflexivity|]. split; [unfold is_u64; lia|].
      intros i Hi. rewrite Z.testbit_0_l. replace (64 - 0 <=? i) with false by lia. reflexivity.
    - replace ((0 <=? 64 - ln) && (64 - ln <? 64)) with true by lia. eexists. split; [reflexivity|]. split; [apply is_u64_u64|].
      intros i Hi. unfold u64. rewrite Z.mod_pow2_bits_low by lia. rewrite Z.shiftl_spec by lia.
      destruct (Z.leb_spec (64 - ln) i); [|apply Z.testbit_neg_r; lia].
      unfold w. rewrite BW by lia. cbn [andb]. f_equal. lia. }
  destruct HS as (sw0 & -> & Usw & Hsw). cbn [bind]. set (sw := if ln =? 0 then 0 else sw0) in *. clearbody sw.
  assert (EP : forall k, 0 <= k <= ln -> 1 + ex (down sw) k = E l (pos - k) - v).
  { intros k Hk. rewrite (ex_ext _ (fun i => negb (zbit l (pos - 1 - i)))).
    - rewrite (ex_negb (fun i => zbit l (pos - 1 - i))). rewrite ex_rev by lia. unfold v, E. lia.
    - intros i Hi. unfold down. rewrite Hsw by lia. replace (64 - ln <=? 63 - i) with true by lia. cbn [andb]. do 2 f_equal. lia. }
  assert (EP2 : forall k, ln <= k <= 64 -> ex (down sw) k = ex (down sw) ln + (k - ln)).
  { intros k Hk. replace k with (ln + (k - ln)) at 1 by lia. rewrite ex_shift by lia. f_equal.
    set (n := k - ln). assert (Hn : 0 <= n <= 64 - ln) by lia. destruct Hn as [Hn0 Hn1]. clearbody n. revert Hn1.
    apply (ex_ind (fun n => n <= 64 - ln -> ex (fun i => down sw (ln + i)) n = n)); [reflexivity| |exact Hn0].
    intros i Hi IH Hi2. rewrite ex_succ, IH by lia. unfold down. rewrite Hsw by lia. replace (64 - ln <=? 63 - (ln + i)) with false by lia.
    cbn [andb negb]. lia. }
  destruct (find_open_in_word_ok sw 1 Usw ltac:(lia)) as [(r & -> & R0 & R1 & R2)|[-> NZ]]; cbn [bind].
  - assert (Hr : r < ln).
    { destruct (Z_lt_le_dec r ln); [auto|]. specialize (R2 r ltac:(lia)). rewrite (EP2 r) in R2 by lia. rewrite (EP2 (r + 1)) in R1 by lia. lia. }
    exists (pos - 1 - r). split; [rewrite u64_small by lia; f_equal; lia|]. split; [lia|]. split.
    + rewrite EP in R1 by lia. replace (pos - 1 - r) with (pos - (r + 1)) by lia. lia.
    + intros k Hk. specialize (R2 (pos - k) ltac:(lia)). rewrite EP in R2 by lia. replace (pos - (pos - k)) with k in R2 by lia. lia.
  - pose proof (EP2 64 ltac:(lia)) as EPs. pose proof (bytes_sum_ex sw Usw) as BS.
    assert (ED64 : ex (down sw) 64 = - ex (Z.testbit sw) 64).
    { unfold down. rewrite ex_negb. f_equal. rewrite (ex_ext _ (fun i => Z.testbit sw (64 - 1 - i))) by (intros; f_equal; lia).
      rewrite ex_rev by lia. replace (64 - 64) with 0 by lia. rewrite ex_0. lia. }
    assert (K0 : forall k, 64 * wp <= k <= pos -> v < E l k).
    { intros k Hk. specialize (NZ (pos - k) ltac:(lia)). rewrite EP in NZ by lia. replace (pos - (pos - k)) with k in NZ by lia. lia. }
    pose proof (EP ln ltac:(lia)) as EPm. replace (pos - ln) with (64 * wp) in EPm by lia.
    pose proof (ex_bound (down sw) ln ltac:(lia)) as Bnd.
    replace (2 * bytes_sum (byte_counts sw) - ln) with (- ex (down sw) ln) by lia.
    rewrite i32_small by lia. rewrite int32_ok by lia. cbn [bind].
    replace (- - ex (down sw) ln + 1) with (E l (64 * wp) - v) by lia.
    rewrite int32_ok by lia. cbn [bind].
    pose proof (Z.div_mod wp 4 ltac:(lia)) as D4. pose proof (Z.mod_pos_bound wp 4 ltac:(lia)) as M4.
    unfold bp_block_size in *. set (b := wp / 4) in *. set (sb := wp mod 4) in *.
    replace (64 * wp) with (64 * (b * 4 + sb)) in * by lia.
    assert (Hq2 : q < 64 * (b * 4 + sb)).
    { destruct (Z_lt_le_dec q (64 * (b * 4 + sb))); [auto|specialize (K0 q ltac:(lia)); lia]. }
    destruct (find_open_in_block_ok l v (b * 4) sb Hsz Hv ltac:(lia) ltac:(lia) ltac:(lia)) as [(r & -> & F0 & F1 & F2)|[-> K1]]; cbn [bind].
    + apply K0. lia.
    + exists r. split; [reflexivity|]. split; [lia|]. split; [exact F1|]. intros k Hk.
      destruct (Z_le_gt_dec (64 * (b * 4 + sb)) k); [apply K0; lia|apply F2; lia].
    + rewrite (excess_ok l) by (auto; lia). cbn [bind]. fold v. rewrite int32_ok by lia. cbn [bind].
      assert (K2 : forall k, 256 * b <= k <= pos -> v < E l k).
      { intros k Hk. destruct (Z_le_gt_dec (64 * (b * 4 + sb)) k); [apply K0; lia|apply K1; lia]. }
      assert (Hq3 : q < 256 * b).
      { destruct (Z_lt_le_dec q (256 * b)); [auto|specialize (K2 q ltac:(lia)); lia]. }
      rewrite sub64_ok by lia.
      destruct (search_min_tree_bwd l bp v HB Hp H HI HT (b - 1)) as (c & -> & Hc & K3 & q' & Hq' & Eq').
      { lia. } { lia. } { apply K2. lia. } { exists q. split; [lia|exact Eq]. }
      cbn [bind]. rewrite (get_block_excess_ok l) by (auto; try lia; apply HN; lia). cbn [bind].
      pose proof (K3 (256 * (c + 1)) ltac:(lia)). pose proof (E_le_size l (256 * (c + 1)) ltac:(lia)).
      rewrite int32_ok by lia. cbn [bind].
      replace (256 * (c + 1)) with (64 * (c * 4 + 4)) in * by lia.
      destruct (find_open_in_block_ok l v (c * 4) 4 Hsz Hv ltac:(lia) ltac:(lia) ltac:(lia)) as [(r & -> & F0 & F1 & F2)|[-> K4]]; cbn [bind].
      * auto.
      * exists r. split; [reflexivity|]. split; [lia|]. split; [exact F1|]. intros k Hk.
        destruct (Z_le_gt_dec (256 * b) k); [apply K2; lia|].
        destruct (Z_le_gt_dec (64 * (c * 4 + 4)) k); [apply K3; lia|apply F2; lia].
      * exfalso. specialize (K4 q' ltac:(lia)). lia.
Qed.
