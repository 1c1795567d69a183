(** The excess directory of bp_vector: what build_min_tree stores. *)
From Verif Require Import Base Spec Lib S_BitVector M_Broadword P_Broadword P_Broadword2 P_Broadword3 M_BitVector P_BvLib P_BitVector P_BvRank P_BvEnum
  M_RsBitVector P_RsBuild P_RsQuery M_Bp P_BpWord.
From Coq Require Import ZifyBool ZifyNat.

(** excess before position [p] *)
Definition E (l : list bool) (p : Z) : Z := ex (zbit l) p.
Global Arguments E : simpl never.

Lemma E_0 l : E l 0 = 0.
Proof. reflexivity. Qed.
Lemma E_succ l p : 0 <= p -> E l (p + 1) = E l p + (if zbit l p then 1 else -1).
Proof. apply ex_succ. Qed.
Lemma E_lip l a b : 0 <= a <= b -> E l a - (b - a) <= E l b <= E l a + (b - a).
Proof. apply ex_lip. Qed.

Lemma E_rank_gen l : forall n, (n <= length l)%nat -> E l (Z.of_nat n) = 2 * Z.of_nat (rank true l n) - Z.of_nat n.
Proof.
  induction n as [|n IH]; intros Hn; [reflexivity|].
  replace (Z.of_nat (S n)) with (Z.of_nat n + 1) by lia. rewrite E_succ, IH by lia.
  rewrite (rank_S true l n (nth n l false)) by (apply nth_error_nth'; lia). rewrite zbit_nth. destruct (nth n l false); cbn [eqb]; lia.
Qed.
Lemma E_rank l p : 0 <= p <= zlen l -> E l p = 2 * Z.of_nat (rank true l (Z.to_nat p)) - p.
Proof. intros H. replace p with (Z.of_nat (Z.to_nat p)) at 1 by lia. unfold zlen in *. rewrite E_rank_gen; lia. Qed.

Lemma E_G l k : 0 <= k <= 8 * nb l -> 2 * G false l k - 64 * k = E l (64 * k).
Proof.
  intros Hk. unfold G, E. cbn [flip]. rewrite <- (ex_ext (zbit (bpad l)) (zbit l)) by (intros; apply zbit_bpad).
  change (ex (zbit (bpad l)) (64 * k)) with (E (bpad l) (64 * k)). rewrite E_rank; [reflexivity|]. rewrite zlen_bpad. lia.
Qed.

Lemma E_word l k t : 0 <= k -> 0 <= t <= 64 -> E l (64 * k + t) = E l (64 * k) + ex (Z.testbit (W (pack l) k)) t.
Proof.
  intros Hk Ht. unfold E. rewrite ex_shift by lia. f_equal. apply ex_ext. intros i Hi.
  destruct (words_ok_pack l) as (_ & _ & B). symmetry. apply B; lia.
Qed.

Lemma W_pack_u64 l k : is_u64 (W (pack l) k).
Proof. apply W_range. apply (words_ok_pack l). Qed.

(** [v] is the minimum of [g] on [lo..hi] *)
Definition is_min (g : Z -> Z) (lo hi v : Z) : Prop :=
  (exists j, lo <= j <= hi /\ g j = v) /\ forall j, lo <= j <= hi -> v <= g j.

Lemma is_min_point g p : is_min g p p (g p).
Proof. split; [exists p; split; [lia|reflexivity]|]. intros j Hj. replace j with p by lia. lia. Qed.
Lemma is_min_app g a b c u v : a <= b <= c -> is_min g a b u -> is_min g b c v -> is_min g a c (Z.min u v).
Proof.
  intros Hb [(i & Hi & Ei) U] [(j & Hj & Ej) V]. split.
  - destruct (Z_le_gt_dec u v); [exists i|exists j]; split; lia.
  - intros k Hk. destruct (Z_le_gt_dec k b); [specialize (U k ltac:(lia))|specialize (V k ltac:(lia))]; lia.
Qed.
Lemma is_min_unique g a b u v : is_min g a b u -> is_min g a b v -> u = v.
Proof. intros [(i & Hi & Ei) U] [(j & Hj & Ej) V]. specialize (U j Hj). specialize (V i Hi). lia. Qed.

(** geometry *)
Definition nw (l : list bool) : Z := zlen (pack l).
Definition nblk (l : list bool) : Z := (nw l + 3) / 4.
Definition nsup (l : list bool) : Z := (nblk l + 31) / 32.
Definition blk_end (l : list bool) (b : Z) : Z := Z.min (256 * (b + 1)) (zlen l).

Definition nonneg (l : list bool) : Prop := forall p, 0 <= p <= zlen l -> 0 <= E l p.

(** the minima of the blocks, relative to the start of the superblock *)
Definition mins_ok (l : list bool) (mins : list Z) (n : Z) : Prop :=
  zlen mins = n /\ forall b, 0 <= b < n -> is_min (E l) (256 * b) (blk_end l b) (W mins b + E l (8192 * (b / 32))).

Lemma min_bits_loop_ok l w lo base : forall n p i bm se, 0 <= p -> lo <= p -> 0 <= i ->
  (forall t, 0 <= t < Z.of_nat n -> Z.testbit w (i + t) = zbit l (p + t)) ->
  is_min (E l) lo p (bm + base) -> se = E l p - base ->
  exists bm', min_bits_loop n w i bm se = (bm', E l (p + Z.of_nat n) - base) /\
    is_min (E l) lo (p + Z.of_nat n) (bm' + base).
Proof.
  induction n as [|n IH]; intros p i bm se Hp Hlo Hi HT HM ->.
  - change (Z.of_nat 0) with 0. rewrite Z.add_0_r. exists bm. split; [reflexivity|exact HM].
  - cbn [min_bits_loop]. pose proof (HT 0 ltac:(lia)) as T0. rewrite !Z.add_0_r in T0. rewrite T0.
    replace (E l p - base + (if zbit l p then 1 else -1)) with (E l (p + 1) - base) by (rewrite E_succ by lia; lia).
    replace (p + Z.of_nat (S n)) with (p + 1 + Z.of_nat n) by lia.
    apply IH; [lia|lia|lia| | |reflexivity].
    + intros t Ht. replace (i + 1 + t) with (i + (1 + t)) by lia. replace (p + 1 + t) with (p + (1 + t)) by lia. apply HT. lia.
    + destruct HM as [(j & Hj & Ej) HM]. split.
      * destruct (Z_le_gt_dec bm (E l (p + 1) - base)); [exists j|exists (p + 1)]; split; lia.
      * intros k Hk. destruct (Z.eq_dec k (p + 1)) as [->|]; [lia|]. specialize (HM k ltac:(lia)). lia.
Qed.

Lemma push_block_min_ok mins m : - 8192 <= m <= 8192 -> push_block_min mins m = Ok (mins ++ [m]).
Proof.
  intros H. unfold push_block_min. replace ((- 2 ^ 15 <=? m) && (m <=? 2 ^ 15 - 1)) with true by lia.
  unfold assert_. rewrite i16_small by lia. reflexivity.
Qed.

Lemma mins_snoc l mins n m : 0 <= n -> mins_ok l mins n -> is_min (E l) (256 * n) (blk_end l n) (m + E l (8192 * (n / 32))) ->
  mins_ok l (mins ++ [m]) (n + 1).
Proof.
  intros Hn [L H] HM. split; [rewrite zlen_app, L; change (zlen [m]) with 1; lia|]. intros b Hb.
  rewrite W_app, L, W_single. destruct (Z.ltb_spec b n); [apply H; lia|]. replace b with n by lia.
  rewrite Z.sub_diag, Z.eqb_refl. exact HM.
Qed.

Lemma block_min_range l b hi m : 0 <= b -> 256 * b <= hi <= 256 * (b + 1) -> is_min (E l) (256 * b) hi (m + E l (8192 * (b / 32))) ->
  - 8192 <= m <= 8192.
Proof.
  intros Hb Hhi [(j & Hj & Ej) _]. pose proof (E_lip l (8192 * (b / 32)) j).
  pose proof (Z.div_mod b 32 ltac:(lia)). pose proof (Z.mod_pos_bound b 32 ltac:(lia)). lia.
Qed.

Lemma block_mins_loop_ok l : 0 < zlen l -> forall ws s mins bm se, 0 <= s -> s + zlen ws = nw l ->
  (forall k, 0 <= k -> W ws k = W (pack l) (s + k)) ->
  (s = 0 /\ mins = [] /\ bm = 0 /\ se = 0 \/
   0 < s /\ mins_ok l mins ((s - 1) / 4) /\
   is_min (E l) (256 * ((s - 1) / 4)) (Z.min (64 * s) (zlen l)) (bm + E l (8192 * ((s - 1) / 128))) /\
   se = E l (Z.min (64 * s) (zlen l)) - E l (8192 * ((s - 1) / 128))) ->
  exists mins' bm', block_mins_loop ws (if negb (zlen l mod 64 =? 0) then zlen l mod 64 else 64) s mins bm se = Ok (mins', bm') /\
    mins_ok l mins' ((nw l - 1) / 4) /\
    is_min (E l) (256 * ((nw l - 1) / 4)) (zlen l) (bm' + E l (8192 * ((nw l - 1) / 128))).
Proof.
  intros Hsz. pose proof (words_bits l) as HW. fold (nw l) in HW.
  induction ws as [|w ws IH]; intros s mins bm se Hs HL HWs HI.
  - change (zlen (@nil Z)) with 0 in HL. replace s with (nw l) in * by lia.
    destruct HI as [(H0 & _)|(H0 & HM & HB & HE)]; [lia|]. replace (Z.min (64 * nw l) (zlen l)) with (zlen l) in * by lia.
    exists mins, bm. split; [reflexivity|]. auto.
  - rewrite zlen_cons in HL. pose proof (zlen_nonneg ws) as Hws. cbn [block_mins_loop].
    set (hdr := if s mod bp_block_size =? 0 then _ else _).
    assert (HH : exists mins1 bm1 se1, hdr = Ok (mins1, bm1, se1) /\ mins_ok l mins1 (s / 4) /\
       is_min (E l) (256 * (s / 4)) (64 * s) (bm1 + E l (8192 * (s / 128))) /\ se1 = E l (64 * s) - E l (8192 * (s / 128))).
    { unfold hdr, bp_block_size, superblock_size. change (4 * 32) with 128.
      destruct HI as [(-> & -> & -> & ->)|(H0 & HM & HB & HE)].
      - cbn. exists [], 0, 0. split; [reflexivity|]. split; [split; [reflexivity|intros b Hb; lia]|].
        rewrite E_0. split; [|reflexivity]. apply (is_min_point (E l) 0).
      - replace (Z.min (64 * s) (zlen l)) with (64 * s) in * by lia.
        pose proof (Z.div_mod s 4 ltac:(lia)) as D4. pose proof (Z.mod_pos_bound s 4 ltac:(lia)) as B4.
        pose proof (Z.div_mod s 128 ltac:(lia)) as D128. pose proof (Z.mod_pos_bound s 128 ltac:(lia)) as B128.
        pose proof (Z.div_mod (s - 1) 4 ltac:(lia)) as D4'. pose proof (Z.mod_pos_bound (s - 1) 4 ltac:(lia)) as B4'.
        pose proof (Z.div_mod (s - 1) 128 ltac:(lia)) as D128'. pose proof (Z.mod_pos_bound (s - 1) 128 ltac:(lia)) as B128'.
        assert (X128 : (s - 1) / 4 / 32 = (s - 1) / 128) by (rewrite Z.div_div by lia; reflexivity).
        destruct (Z.eqb_spec (s mod 4) 0) as [Z4|Z4].
        + replace (negb (s =? 0)) with true by lia.
          assert (HR : - 8192 <= bm <= 8192).
          { apply block_min_range with l ((s - 1) / 4) (64 * s); [lia|lia|]. rewrite X128. exact HB. }
          rewrite push_block_min_ok by exact HR. cbn [bind].
          assert (HM1 : mins_ok l (mins ++ [bm]) (s / 4)).
          { replace (s / 4) with ((s - 1) / 4 + 1) by lia. apply mins_snoc; [lia|exact HM|]. rewrite X128.
            replace (blk_end l ((s - 1) / 4)) with (64 * s); [exact HB|]. unfold blk_end. lia. }
          destruct (Z.eqb_spec (s mod 128) 0) as [Z128|Z128].
          * exists (mins ++ [bm]), 0, 0. split; [reflexivity|]. split; [exact HM1|].
            replace (8192 * (s / 128)) with (64 * s) by lia. replace (256 * (s / 4)) with (64 * s) by lia.
            split; [apply (is_min_point (E l))|lia].
          * exists (mins ++ [bm]), se, se. split; [reflexivity|]. split; [exact HM1|].
            replace (256 * (s / 4)) with (64 * s) by lia. replace (s / 128) with ((s - 1) / 128) by lia.
            split; [|exact HE]. replace (se + E l (8192 * ((s - 1) / 128))) with (E l (64 * s)) by lia. apply is_min_point.
        + exists mins, bm, se. split; [reflexivity|]. replace (s / 4) with ((s - 1) / 4) by lia.
          replace (s / 128) with ((s - 1) / 128) by lia. auto. }
    destruct HH as (mins1 & bm1 & se1 & EH & HM1 & HB1 & HE1). rewrite EH. cbn [bind]. clear hdr EH HI.
    set (last := if negb (zlen l mod 64 =? 0) then zlen l mod 64 else 64).
    set (n := match ws with [] => last | _ => 64 end).
    assert (Hn : n = Z.min (64 * (s + 1)) (zlen l) - 64 * s).
    { unfold n. destruct ws as [|w' ws'].
      - change (zlen (@nil Z)) with 0 in HL. unfold last. pose proof (Z.div_mod (zlen l) 64 ltac:(lia)).
        pose proof (Z.mod_pos_bound (zlen l) 64 ltac:(lia)). destruct (Z.eqb_spec (zlen l mod 64) 0); cbn [negb]; lia.
      - rewrite zlen_cons in HL, Hws. pose proof (zlen_nonneg ws'). lia. }
    assert (Hn64 : 0 < n <= 64) by lia.
    destruct (min_bits_loop_ok l w (256 * (s / 4)) (E l (8192 * (s / 128))) (Z.to_nat n) (64 * s) 0 bm1 se1) as (bm2 & E2 & HB2).
    + lia.
    + pose proof (Z.div_mod s 4 ltac:(lia)). pose proof (Z.mod_pos_bound s 4 ltac:(lia)). lia.
    + lia.
    + intros t Ht. specialize (HWs 0 ltac:(lia)). rewrite W_cons in HWs. cbn [Z.eqb] in HWs. rewrite Z.add_0_r in HWs.
      subst w. rewrite Z.add_0_l. destruct (words_ok_pack l) as (_ & _ & B). apply B; lia.
    + exact HB1.
    + exact HE1.
    + rewrite E2. replace (64 * s + Z.of_nat (Z.to_nat n)) with (Z.min (64 * (s + 1)) (zlen l)) in * by lia.
      apply IH; [lia|lia| |].
      * intros k Hk. specialize (HWs (k + 1) ltac:(lia)). rewrite W_cons in HWs. replace (k + 1 =? 0) with false in HWs by lia.
        replace (k + 1 - 1) with k in HWs by lia. replace (s + 1 + k) with (s + (k + 1)) by lia. exact HWs.
      * right. replace (s + 1 - 1) with s by lia. split; [lia|]. auto.
Qed.

Lemma i32_small' x : 0 <= x < 2 ^ 31 -> i32 x = x.
Proof. intros H. apply i32_small. lia. Qed.

Lemma E_bound l p : 0 <= p -> - p <= E l p <= p.
Proof. intros H. pose proof (E_lip l 0 p). rewrite E_0 in *. lia. Qed.

Lemma get_block_excess_ok l rs b : rs_ok l rs -> zlen l < 2 ^ 31 -> 0 <= b -> 4 * b < nw l -> 0 <= E l (256 * b) ->
  get_block_excess rs b = Ok (E l (256 * b)).
Proof.
  intros (Hbv & HP & _) Hsz Hb Hw HE. unfold get_block_excess, bp_block_size.
  pose proof (nb_words l). unfold nw in *. rewrite (sub_block_rank_ok l) by (auto; lia). cbn [bind].
  replace (b * 4 * 64) with (64 * (b * 4)) by lia. rewrite E_G by lia. replace (64 * (b * 4)) with (256 * b) by lia.
  pose proof (words_bits l). pose proof (E_bound l (256 * b) ltac:(lia)). rewrite i32_small by lia.
  replace (0 <=? E l (256 * b)) with true by lia. reflexivity.
Qed.

Lemma excess_ok l bp p : rs_ok l (bp_rs bp) -> zlen l < 2 ^ 31 -> 0 <= p <= zlen l -> excess bp p = Ok (E l p).
Proof.
  intros HR Hsz Hp. unfold excess. rewrite (rs_rank_ok l) by auto. cbn [bind]. rewrite <- E_rank by lia.
  pose proof (E_bound l p). rewrite i32_small by lia. reflexivity.
Qed.

(** sizes *)
Lemma geom l : 0 < zlen l -> 64 * (nw l - 1) < zlen l <= 64 * nw l /\ 0 < nw l /\
  4 * (nblk l - 1) < nw l <= 4 * nblk l /\ 32 * (nsup l - 1) < nblk l <= 32 * nsup l /\ 0 < nblk l /\ 0 < nsup l.
Proof.
  intros H. pose proof (words_bits l) as HW. fold (nw l) in HW. unfold nsup, nblk.
  pose proof (Z.div_mod (nw l + 3) 4 ltac:(lia)). pose proof (Z.mod_pos_bound (nw l + 3) 4 ltac:(lia)).
  set (q := (nw l + 3) / 4) in *. pose proof (Z.div_mod (q + 31) 32 ltac:(lia)). pose proof (Z.mod_pos_bound (q + 31) 32 ltac:(lia)). lia.
Qed.

Definition sup_end (l : list bool) (k : Z) : Z := Z.min (8192 * (k + 1)) (zlen l).

Lemma super_min_loop_ok l mins k : 0 < zlen l < 2 ^ 31 -> nonneg l -> mins_ok l mins (nblk l) -> 0 <= k < nsup l ->
  forall n b cur, 32 * k < b -> b + Z.of_nat n = Z.min (32 * (k + 1)) (nblk l) ->
  is_min (E l) (8192 * k) (Z.min (256 * b) (zlen l)) cur ->
  exists m, super_min_loop n mins b (E l (8192 * k)) cur = Ok m /\ is_min (E l) (8192 * k) (sup_end l k) m.
Proof.
  intros Hsz HN HM Hk. pose proof (geom l ltac:(lia)) as (G1 & G2 & G3 & G4 & G5 & G6).
  induction n as [|n IH]; intros b cur Hb Hn HC.
  - exists cur. split; [reflexivity|]. change (Z.of_nat 0) with 0 in Hn. rewrite Z.add_0_r in Hn.
    replace (sup_end l k) with (Z.min (256 * b) (zlen l)); [exact HC|]. unfold sup_end. lia.
  - cbn [super_min_loop]. destruct HM as [HL HM]. rewrite W_rd by lia. cbn [bind].
    pose proof (HM b ltac:(lia)) as HB. replace (b / 32) with k in HB by (apply (Z.div_unique b 32 k (b - 32 * k)); lia).
    assert (R : - 2 ^ 31 <= E l (8192 * k) + W mins b < 2 ^ 31).
    { destruct HB as [(j & Hj & Ej) _]. unfold blk_end in Hj. pose proof (HN j ltac:(lia)). pose proof (E_bound l j ltac:(lia)). lia. }
    rewrite int32_ok by exact R. cbn [bind]. apply IH; [lia|lia|].
    apply is_min_app with (Z.min (256 * b) (zlen l)); [lia|exact HC|].
    rewrite (Z.add_comm (E l _)). unfold blk_end in HB. replace (Z.min (256 * b) (zlen l)) with (256 * b) by lia. exact HB.
Qed.

Lemma super_min_ok l mins k : 0 < zlen l < 2 ^ 31 -> nonneg l -> mins_ok l mins (nblk l) -> 0 <= k < nsup l ->
  exists m, super_min_loop (Z.to_nat (Z.min ((k + 1) * 32) (nblk l) - k * 32)) mins (k * 32) (E l (8192 * k)) (zlen l) = Ok m /\
    is_min (E l) (8192 * k) (sup_end l k) m /\ 0 <= m < zlen l.
Proof.
  intros Hsz HN HM Hk. pose proof (geom l ltac:(lia)) as (G1 & G2 & G3 & G4 & G5 & G6).
  assert (Hn : exists n, Z.to_nat (Z.min ((k + 1) * 32) (nblk l) - k * 32) = S n /\ k * 32 + 1 + Z.of_nat n = Z.min (32 * (k + 1)) (nblk l)).
  { exists (Z.to_nat (Z.min ((k + 1) * 32) (nblk l) - k * 32 - 1)). lia. }
  destruct Hn as (n & -> & Hn). cbn [super_min_loop].
  assert (HB : is_min (E l) (8192 * k) (blk_end l (k * 32)) (W mins (k * 32) + E l (8192 * k))).
  { destruct HM as [_ HM]. pose proof (HM (k * 32) ltac:(lia)) as HB. rewrite Z.div_mul in HB by lia.
    replace (256 * (k * 32)) with (8192 * k) in HB by lia. exact HB. }
  rewrite W_rd by (destruct HM as [-> _]; lia). cbn [bind].
  assert (HE : E l (8192 * k) <= 8192 * k) by (apply E_bound; lia).
  assert (HV : 0 <= E l (8192 * k) + W mins (k * 32) <= E l (8192 * k)).
  { destruct HB as [(j & Hj & Ej) U]. unfold blk_end in *. pose proof (HN j ltac:(lia)). specialize (U (8192 * k) ltac:(lia)). lia. }
  rewrite int32_ok by lia. cbn [bind]. replace (Z.min (zlen l) _) with (E l (8192 * k) + W mins (k * 32)) by lia.
  destruct (super_min_loop_ok l mins k Hsz HN HM Hk n (k * 32 + 1) (E l (8192 * k) + W mins (k * 32))) as (m & Em & Hm); [lia|lia| |].
  - rewrite (Z.add_comm (E l _)). replace (Z.min (256 * (k * 32 + 1)) (zlen l)) with (blk_end l (k * 32)) by (unfold blk_end; lia). exact HB.
  - exists m. split; [exact Em|]. split; [exact Hm|]. destruct Hm as [(j & Hj & Ej) U]. unfold sup_end in *.
    pose proof (HN j ltac:(lia)). specialize (U (8192 * k) ltac:(lia)). lia.
Qed.

Definition leaves_ok (l : list bool) (ls : list Z) (s : Z) : Prop :=
  zlen ls = nsup l - s /\ forall k, s <= k < nsup l -> is_min (E l) (8192 * k) (sup_end l k) (W ls (k - s)) /\ 0 <= W ls (k - s) < zlen l.

Lemma leaves_loop_ok l rs mins : 0 < zlen l < 2 ^ 31 -> nonneg l -> rs_ok l rs -> mins_ok l mins (nblk l) ->
  forall n s, 0 <= s -> s + Z.of_nat n = nsup l -> exists ls, leaves_loop n rs mins (zlen l) s = Ok ls /\ leaves_ok l ls s.
Proof.
  intros Hsz HN HR HM. pose proof (geom l ltac:(lia)) as (G1 & G2 & G3 & G4 & G5 & G6).
  induction n as [|n IH]; intros s Hs Hn.
  - exists []. split; [reflexivity|]. split; [change (zlen (@nil Z)) with 0; lia|]. intros k Hk. lia.
  - cbn [leaves_loop]. unfold superblock_size.
    rewrite (get_block_excess_ok l) by (auto; try lia; apply HN; lia). cbn [bind].
    replace (256 * (s * 32)) with (8192 * s) by lia. rewrite i32_small' by lia.
    pose proof (proj1 HM) as HL. rewrite HL.
    destruct (super_min_ok l mins s Hsz HN HM ltac:(lia)) as (m & Em & Hm & Rm). rewrite Em. cbn [bind].
    replace ((0 <=? m) && (m <? zlen l)) with true by lia. unfold assert_. cbv iota.
    destruct (IH (s + 1)) as (ls & El & HLs & Hls); [lia|lia|]. rewrite El. cbn [bind]. exists (m :: ls). split; [reflexivity|].
    split; [rewrite zlen_cons; lia|]. intros k Hk. rewrite W_cons. destruct (Z.eqb_spec (k - s) 0).
    + replace k with s by lia. auto.
    + replace (k - s - 1) with (k - (s + 1)) by lia. apply Hls. lia.
Qed.

Lemma complete_leaves_ok N : 1 <= N <= 2 ^ 32 -> forall f H, 0 <= H -> Z.of_nat f + H = 64 -> (H = 0 \/ 2 ^ (H - 1) < N) ->
  exists K, complete_leaves f (2 ^ H) N = Ok (2 ^ K) /\ 0 <= K <= 33 /\ N <= 2 ^ K /\ (K = 0 \/ 2 ^ (K - 1) < N).
Proof.
  intros HN. induction f as [|f IH]; intros H HH Hf HP; cbn [complete_leaves].
  - exfalso. destruct HP as [->|HP]; [lia|]. replace H with 64 in HP by lia. lia.
  - destruct (Z.leb_spec N (2 ^ H)).
    + exists H. split; [reflexivity|]. split; [|auto]. split; [lia|]. destruct HP; [lia|].
      destruct (Z_le_gt_dec H 33); [lia|]. pose proof (Z.pow_le_mono_r 2 33 (H - 1)). lia.
    + assert (HL : H < 33) by (destruct (Z_le_gt_dec 33 H); [pose proof (Z.pow_le_mono_r 2 33 H); lia|lia]).
      replace (2 * 2 ^ H) with (2 ^ (H + 1)) by (rewrite Z.pow_add_r; lia).
      rewrite u64_small by (split; [apply Z.pow_nonneg; lia|apply Z.pow_lt_mono_r; lia]).
      apply IH; [lia|lia|]. right. replace (H + 1 - 1) with H by lia. lia.
Qed.

(** ** The tree *)
(** the value of a node, [size] outside *)
Definition node (size : Z) (t : list Z) (i : Z) : Z := if i <? zlen t then W t i else size.

Lemma parents_loop_ok size I : 1 <= I -> forall n t, I < zlen t -> Z.of_nat n + 2 <= zlen t ->
  (forall i, 0 <= i < zlen t -> W t i <= size) ->
  (forall i, 1 <= i < I -> node size t i = Z.min size (Z.min (if Z.of_nat n + 1 <? 2 * i then node size t (2 * i) else size)
     (if Z.of_nat n + 1 <? 2 * i + 1 then node size t (2 * i + 1) else size))) -> zlen t <= 2 * I ->
  exists t', parents_loop n t = Ok t' /\ zlen t' = zlen t /\ (forall i, I <= i -> W t' i = W t i) /\
    (forall i, 1 <= i < I -> node size t' i = Z.min (node size t' (2 * i)) (node size t' (2 * i + 1))) /\
    (forall i, 0 <= i < zlen t -> W t' i <= size).
Proof.
  intros HI. induction n as [|n IH]; intros t HT Hn HS HV H2.
  - exists t. split; [reflexivity|]. split; [reflexivity|]. split; [reflexivity|]. split; [|exact HS].
    intros i Hi. rewrite HV by lia. replace (Z.of_nat 0 + 1 <? 2 * i) with true by lia.
    replace (Z.of_nat 0 + 1 <? 2 * i + 1) with true by lia.
    assert (B : forall j, 0 <= j -> node size t j <= size).
    { intros j Hj. unfold node. destruct (Z.ltb_spec j (zlen t)); [apply HS; lia|lia]. }
    pose proof (B (2 * i) ltac:(lia)). pose proof (B (2 * i + 1) ltac:(lia)). lia.
  - cbn [parents_loop]. set (k := Z.of_nat (S n) + 1).
    pose proof (Z.div_mod k 2 ltac:(lia)) as Dk. pose proof (Z.mod_pos_bound k 2 ltac:(lia)) as Mk.
    set (p := k / 2) in *.
    rewrite (W_rd t p) by lia. rewrite (W_rd t k) by lia. cbn [bind]. rewrite wr_ok by lia. cbn [bind].
    set (t2 := upd t (Z.to_nat p) (Z.min (W t p) (W t k))).
    assert (L2 : zlen t2 = zlen t) by (unfold t2; apply zlen_upd).
    assert (W2 : forall i, W t2 i = if i =? p then Z.min (W t p) (W t k) else W t i).
    { intros i. unfold t2. rewrite W_upd by lia. reflexivity. }
    assert (N2 : forall i, node size t2 i = if i =? p then Z.min (node size t p) (node size t k) else node size t i).
    { intros i. unfold node. rewrite L2, W2. destruct (Z.eqb_spec i p) as [->|]; [|reflexivity].
      replace (p <? zlen t) with true by lia. replace (k <? zlen t) with true by lia. reflexivity. }
    destruct (IH t2) as (t' & E1 & L' & U' & V' & S'); [lia|lia| | |lia|].
    + intros i Hi. rewrite W2. pose proof (HS i ltac:(lia)). pose proof (HS p ltac:(lia)). destruct (i =? p); lia.
    + intros i Hi. rewrite !N2. destruct (Z.eqb_spec i p) as [->|Hip].
      * rewrite HV by lia. replace (2 * p =? p) with false by lia. replace (2 * p + 1 =? p) with false by lia.
        fold k. destruct (Z.eq_dec k (2 * p)) as [Ek|Ek].
        -- replace (k <? 2 * p) with false by lia. replace (Z.of_nat n + 1 <? 2 * p) with true by lia.
           replace (k <? 2 * p + 1) with true by lia. replace (Z.of_nat n + 1 <? 2 * p + 1) with true by lia. rewrite Ek. lia.
        -- replace (k <? 2 * p) with false by lia. replace (Z.of_nat n + 1 <? 2 * p) with false by lia.
           replace (k <? 2 * p + 1) with false by lia. replace (Z.of_nat n + 1 <? 2 * p + 1) with true by lia.
           replace (2 * p + 1) with k by lia. lia.
      * rewrite HV by lia. fold k. f_equal. f_equal.
        -- destruct (Z.ltb_spec k (2 * i)); destruct (Z.ltb_spec (Z.of_nat n + 1) (2 * i)); try lia. replace (2 * i =? p) with false by lia. reflexivity.
        -- destruct (Z.ltb_spec k (2 * i + 1)); destruct (Z.ltb_spec (Z.of_nat n + 1) (2 * i + 1)); try lia. replace (2 * i + 1 =? p) with false by lia. reflexivity.
    + exists t'. split; [exact E1|]. split; [lia|]. split; [|split; [exact V'|intros i Hi; apply S'; lia]].
      intros i Hi. rewrite U' by lia. rewrite W2. replace (i =? p) with false; [reflexivity|]. lia.
Qed.

(** node [j] of height [h] covers superblocks [j * 2^h .. (j + 1) * 2^h) *)
Definition node_ok (l : list bool) (H : Z) (t : list Z) (h j : Z) : Prop :=
  let i := 2 ^ (H - h) + j in
  (j * 2 ^ h < nsup l -> i < zlen t /\ is_min (E l) (8192 * (j * 2 ^ h)) (Z.min (8192 * ((j + 1) * 2 ^ h)) (zlen l)) (W t i) /\
     0 <= W t i < zlen l) /\
  (nsup l <= j * 2 ^ h -> node (zlen l) t i = zlen l).

Definition tree_ok (l : list bool) (H : Z) (t : list Z) : Prop :=
  0 <= H <= 33 /\ nsup l <= 2 ^ H /\ zlen t = 2 ^ H + nsup l /\
  forall h j, 0 <= h <= H -> 0 <= j < 2 ^ (H - h) -> node_ok l H t h j.

Lemma pow2_succ h : 0 <= h -> 2 ^ (h + 1) = 2 * 2 ^ h.
Proof. intros. rewrite Z.pow_add_r by lia. lia. Qed.

Lemma tree_ok_intro l H t : 0 < zlen l -> 0 <= H <= 33 -> nsup l <= 2 ^ H -> zlen t = 2 ^ H + nsup l ->
  leaves_ok l (skipn (Z.to_nat (2 ^ H)) t) 0 ->
  (forall i, 1 <= i < 2 ^ H -> node (zlen l) t i = Z.min (node (zlen l) t (2 * i)) (node (zlen l) t (2 * i + 1))) ->
  tree_ok l H t.
Proof.
  intros Hsz HH HN HT [_ HLv] HV. split; [exact HH|]. split; [exact HN|]. split; [exact HT|].
  pose proof (geom l Hsz) as (G1 & G2 & G3 & G4 & G5 & G6).
  assert (PH : 0 < 2 ^ H) by (apply Z.pow_pos_nonneg; lia).
  intros h j [Hh0 HhH]. revert HhH j.
  apply (natlike_ind (fun h => h <= H -> forall j, 0 <= j < 2 ^ (H - h) -> node_ok l H t h j)); [| |exact Hh0]; clear h Hh0.
  - intros _ j Hj. rewrite Z.sub_0_r in Hj. unfold node_ok. rewrite Z.sub_0_r. change (2 ^ 0) with 1. rewrite !Z.mul_1_r. split; intros Hc.
    + split; [lia|]. destruct (HLv j ltac:(lia)) as [HM R]. rewrite W_skipn in * by lia.
      replace (j - 0 + Z.of_nat (Z.to_nat (2 ^ H))) with (2 ^ H + j) in * by lia. split; [exact HM|exact R].
    + unfold node. replace (2 ^ H + j <? zlen t) with false by lia. reflexivity.
  - intros h Hh IH HhH j Hj. unfold Z.succ in *. specialize (IH ltac:(lia)).
    set (e := H - (h + 1)) in *. assert (He : 0 <= e) by lia.
    replace (H - h) with (e + 1) in IH by lia. rewrite pow2_succ in IH by lia.
    assert (Pe : 0 < 2 ^ e) by (apply Z.pow_pos_nonneg; lia).
    assert (Ph : 0 < 2 ^ h) by (apply Z.pow_pos_nonneg; lia).
    pose proof (IH (2 * j) ltac:(lia)) as [A0 A1]. pose proof (IH (2 * j + 1) ltac:(lia)) as [B0 B1].
    replace (H - h) with (e + 1) in * by lia. rewrite (pow2_succ e) in * by lia.
    assert (Pe2 : 2 ^ H = 2 ^ e * (2 * 2 ^ h)).
    { rewrite <- pow2_succ, <- Z.pow_add_r by lia. f_equal. lia. }
    assert (Q : 2 * 2 ^ e <= 2 ^ H) by (rewrite Pe2; clear - Pe Ph; nia).
    assert (Q2 : 2 * j * 2 ^ h + 2 ^ h = (2 * j + 1) * 2 ^ h) by ring.
    assert (Q3 : (2 * j + 1 + 1) * 2 ^ h = (2 * j + 1) * 2 ^ h + 2 ^ h) by ring.
    pose proof (HV (2 ^ e + j) ltac:(clear - Q Pe Hj; lia)) as HVi.
    replace (2 * (2 ^ e + j)) with (2 * 2 ^ e + 2 * j) in HVi by lia.
    replace (2 * 2 ^ e + 2 * j + 1) with (2 * 2 ^ e + (2 * j + 1)) in HVi by lia.
    unfold node_ok. fold e. rewrite (pow2_succ h) by lia. 
    replace (j * (2 * 2 ^ h)) with (2 * j * 2 ^ h) by ring.
    replace ((j + 1) * (2 * 2 ^ h)) with ((2 * j + 1 + 1) * 2 ^ h) by ring.
    assert (Li : 2 ^ e + j < zlen t) by (clear - Q Pe Hj HT G6; lia).
    assert (Ni : node (zlen l) t (2 ^ e + j) = W t (2 ^ e + j)) by (unfold node; replace (2 ^ e + j <? zlen t) with true by lia; reflexivity).
    split; intros Hc.
    + split; [exact Li|]. rewrite <- Ni, HVi. destruct (A0 Hc) as (A2 & A3 & A4).
      assert (Na : node (zlen l) t (2 * 2 ^ e + 2 * j) = W t (2 * 2 ^ e + 2 * j)).
      { unfold node. replace (2 * 2 ^ e + 2 * j <? zlen t) with true by lia. reflexivity. }
      rewrite Na. destruct (Z_lt_le_dec ((2 * j + 1) * 2 ^ h) (nsup l)) as [Hd|Hd].
      * destruct (B0 Hd) as (B2 & B3 & B4).
        assert (Nb : node (zlen l) t (2 * 2 ^ e + (2 * j + 1)) = W t (2 * 2 ^ e + (2 * j + 1))).
        { unfold node. replace (2 * 2 ^ e + (2 * j + 1) <? zlen t) with true by lia. reflexivity. }
        rewrite Nb. split; [|lia]. apply is_min_app with (8192 * ((2 * j + 1) * 2 ^ h)).
        -- split; [clear - Q2 Ph; lia|]. apply Z.min_glb; [clear - Q3 Ph; lia|clear - Hd G1 G2 G3 G4; lia].
        -- replace (8192 * ((2 * j + 1) * 2 ^ h)) with (Z.min (8192 * ((2 * j + 1) * 2 ^ h)) (zlen l)) by (clear - Hd G1 G2 G3 G4; lia). exact A3.
        -- exact B3.
      * rewrite (B1 Hd). rewrite (Z.min_l (W t _)) by lia. split; [|lia].
        replace (Z.min (8192 * ((2 * j + 1 + 1) * 2 ^ h)) (zlen l)) with (Z.min (8192 * ((2 * j + 1) * 2 ^ h)) (zlen l)); [exact A3|].
        rewrite !Z.min_r; [reflexivity|clear - Hd G1 G2 G3 G4; lia|clear - Hd Q3 Ph G1 G2 G3 G4; lia].
    + rewrite HVi, (A1 Hc), B1 by (clear - Hc Q2 Ph; lia). lia.
Qed.

(** ** What a built vector holds *)
Definition bp_ok (l : list bool) (bp : bp_vector) : Prop :=
  rs_ok l (bp_rs bp) /\ zlen l < 2 ^ 31 /\ nonneg l /\
  (0 < zlen l -> mins_ok l (bp_block_excess_min bp) (nblk l) /\
     exists H, bp_internal_nodes bp = 2 ^ H /\ tree_ok l H (bp_superblock_excess_min bp)).

Lemma node_app size a b i : 0 <= i -> node size (repeat size (Z.to_nat a) ++ b) i =
  if i <? Z.max 0 a then size else node size b (i - Z.max 0 a).
Proof.
  intros Hi. unfold node. rewrite zlen_app, W_app, zlen_repeat. replace (Z.of_nat (Z.to_nat a)) with (Z.max 0 a) by lia.
  pose proof (zlen_nonneg b). destruct (Z.ltb_spec i (Z.max 0 a)).
  - replace (i <? Z.max 0 a + zlen b) with true by lia. apply W_repeat; lia.
  - replace (i <? Z.max 0 a + zlen b) with (i - Z.max 0 a <? zlen b) by lia. reflexivity.
Qed.

Lemma build_min_tree_ok l uninit rs : rs_ok l rs -> zlen l < 2 ^ 31 -> nonneg l ->
  exists bp, build_min_tree uninit rs = Ok bp /\ bp_rs bp = rs /\ bp_ok l bp.
Proof.
  intros HR Hsz HN. assert (Ebv : rs_bv rs = canonical l) by apply HR. unfold build_min_tree.
  rewrite Ebv. cbn [canonical bv_size bv_words]. destruct (Z.eqb_spec (zlen l) 0) as [E0|E0].
  { eexists. split; [reflexivity|]. split; [reflexivity|]. split; [exact HR|]. split; [exact Hsz|]. split; [exact HN|]. lia. }
  assert (Hp : 0 < zlen l) by (pose proof (zlen_nonneg l); lia).
  pose proof (geom l Hp) as (G1 & G2 & G3 & G4 & G5 & G6).
  destruct (block_mins_loop_ok l Hp (pack l) 0 [] 0 0) as (mins & bm & Em & HM & HB).
  { lia. } { reflexivity. } { intros k Hk. reflexivity. } { left. auto. }
  rewrite Em. cbn [bind].
  assert (X128 : (nw l - 1) / 4 / 32 = (nw l - 1) / 128) by (rewrite Z.div_div by lia; reflexivity).
  pose proof (Z.div_mod (nw l - 1) 4 ltac:(lia)) as D4. pose proof (Z.mod_pos_bound (nw l - 1) 4 ltac:(lia)) as B4.
  assert (Nb : nblk l = (nw l - 1) / 4 + 1) by lia.
  rewrite push_block_min_ok.
  2:{ apply block_min_range with l ((nw l - 1) / 4) (zlen l); [lia|lia|]. rewrite X128. exact HB. }
  cbn [bind]. set (mins2 := mins ++ [bm]).
  assert (HM2 : mins_ok l mins2 (nblk l)).
  { rewrite Nb. apply mins_snoc; [lia|exact HM|]. rewrite X128. unfold blk_end. rewrite Z.min_r by lia. exact HB. }
  clearbody mins2. clear mins bm Em HM HB.
  unfold bp_block_size, superblock_size, ceil_div. fold (nw l).
  assert (Nw : (nw l + 4 - 1) / 4 = nblk l) by (unfold nblk; f_equal; lia). rewrite Nw.
  pose proof (proj1 HM2) as HL2. rewrite HL2, Z.eqb_refl. unfold assert_. cbv iota.
  assert (Ns : (nblk l + 32 - 1) / 32 = nsup l) by (unfold nsup; f_equal; lia). rewrite Ns.
  destruct (complete_leaves_ok (nsup l) ltac:(lia) 64 0) as (H & EH & RH & NH & _); [lia|lia|auto|].
  change (2 ^ 0) with 1 in EH. rewrite EH. cbn [bind].
  destruct (leaves_loop_ok l rs mins2 ltac:(lia) HN HR HM2 (Z.to_nat (nsup l)) 0) as (ls & El & HLl & HLs); [lia|lia|].
  rewrite El. cbn [bind]. rewrite i32_small' by lia. rewrite Z.sub_0_r in HLl.
  assert (PH : 0 < 2 ^ H) by (apply Z.pow_pos_nonneg; lia).
  set (t := repeat (zlen l) (Z.to_nat (2 ^ H)) ++ ls).
  assert (Lt : zlen t = 2 ^ H + nsup l) by (unfold t; rewrite zlen_app, zlen_repeat; lia).
  destruct (parents_loop_ok (zlen l) (2 ^ H) ltac:(lia) (Z.to_nat (zlen t - 2)) t) as (t' & Et & Lt' & Ut & Vt & _).
  - lia.
  - lia.
  - intros i Hi. unfold t. rewrite W_app, zlen_repeat. destruct (Z.ltb_spec i (Z.of_nat (Z.to_nat (2 ^ H)))).
    + rewrite W_repeat by lia. lia.
    + specialize (HLs (i - 2 ^ H) ltac:(lia)). rewrite Z.sub_0_r in HLs.
      replace (i - Z.of_nat (Z.to_nat (2 ^ H))) with (i - 2 ^ H) by lia. lia.
  - intros i Hi.
    assert (Q : forall j, Z.of_nat (Z.to_nat (zlen t - 2)) + 1 < j -> node (zlen l) t j = zlen l).
    { intros j Hj. unfold node. replace (j <? zlen t) with false by lia. reflexivity. }
    replace (node (zlen l) t i) with (zlen l).
    2:{ unfold t. rewrite node_app by lia. replace (i <? Z.max 0 (2 ^ H)) with true by lia. reflexivity. }
    destruct (Z.ltb_spec (Z.of_nat (Z.to_nat (zlen t - 2)) + 1) (2 * i)); [rewrite (Q (2 * i)) by lia|];
      (destruct (Z.ltb_spec (Z.of_nat (Z.to_nat (zlen t - 2)) + 1) (2 * i + 1)); [rewrite Q by lia|]); lia.
  - lia.
  - rewrite Et. cbn [bind]. eexists. split; [reflexivity|]. split; [reflexivity|]. split; [exact HR|]. split; [exact Hsz|]. split; [exact HN|].
    intros _. cbn [bp_block_excess_min bp_internal_nodes bp_superblock_excess_min]. split; [exact HM2|]. exists H. split; [reflexivity|].
    apply tree_ok_intro; auto; [lia|]. split; [rewrite zlen_skipn; lia|].
    intros k Hk. rewrite W_skipn by lia. rewrite Ut by lia. unfold t. rewrite W_app, zlen_repeat.
    replace (k - 0 + Z.of_nat (Z.to_nat (2 ^ H)) <? Z.of_nat (Z.to_nat (2 ^ H))) with false by lia.
    replace (k - 0 + Z.of_nat (Z.to_nat (2 ^ H)) - Z.of_nat (Z.to_nat (2 ^ H))) with (k - 0) by lia. apply HLs. lia.
Qed.

Lemma bp_build_ok l uninit h h0 : zlen l < 2 ^ 31 -> nonneg l ->
  exists bp, bp_build uninit (bv_range l) h h0 = Ok bp /\ bp_ok l bp.
Proof.
  intros Hsz HN. unfold bp_build. destruct (rs_range_ok l h h0) as (rs & Er & HR). rewrite Er. cbn [bind].
  destruct (build_min_tree_ok l uninit rs HR Hsz HN) as (bp & Eb & _ & HB). exists bp. auto.
Qed.
