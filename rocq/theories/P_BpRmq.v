(** excess_rmq. *)
From Verif Require Import Base Spec Lib M_Broadword M_BitVector M_RsBitVector M_Bp S_BitVector S_Bp P_BvLib P_Util P_BitVector P_RsBuild P_RsQuery P_BpWord P_BpBuild P_BpSearch P_BpSpec.
From Coq Require Import ZifyBool ZifyNat.

(** * Words *)
Definition room (l : list bool) : Prop := forall p, 0 <= p <= zlen l -> 0 <= E l p < 2 ^ 31 - 64.

(** a word padded with ones *)
Lemma pad_scan l w s len mv mi : is_u64 w -> 0 <= s -> 0 < len <= 64 -> s + len <= zlen l -> room l ->
  (forall k, 0 <= k < 64 -> Z.testbit w k = if k <? len then zbit l (s + k) else true) ->
  exists mv' mi', excess_rmq_in_word true w (E l s) s mv mi = Ok (E l (s + len) + (64 - len), mv', mi') /\
    scan (E l) s (s + len + 1) mv mi mv' mi'.
Proof.
  intros Hw Hs Hlen Hend HR HT.
  set (g := fun p => if p <=? s + len then E l p else E l (s + len) + (p - (s + len))).
  assert (G1 : forall p, p <= s + len -> g p = E l p) by (intros p Hp; unfold g; replace (p <=? s + len) with true by lia; reflexivity).
  assert (G2 : forall p, s + len <= p -> g p = E l (s + len) + (p - (s + len))).
  { intros p Hp. destruct (Z.eq_dec p (s + len)) as [->|]; [rewrite G1 by lia; lia|]. unfold g. replace (p <=? s + len) with false by lia. reflexivity. }
  assert (HG : forall k, 0 <= k <= 64 -> g (s + k) = g s + ex (Z.testbit w) k).
  { intros k [Hk0 Hk]. revert Hk. apply (natlike_ind (fun k => k <= 64 -> g (s + k) = g s + ex (Z.testbit w) k)); [| |exact Hk0].
    - intros _. rewrite ex_0, !Z.add_0_r. reflexivity.
    - intros x Hx IH Hx2. unfold Z.succ in *. specialize (IH ltac:(lia)). rewrite ex_succ, (Z.add_assoc (g s)), <- IH by lia.
      rewrite HT by lia. replace (s + (x + 1)) with (s + x + 1) by lia. destruct (Z.ltb_spec x len).
      + rewrite !G1 by lia. rewrite E_succ by lia. reflexivity.
      + rewrite !G2 by lia. lia. }
  destruct (excess_rmq_in_word_scan w g s mv mi Hw HG) as (mv' & mi' & Eq & HS).
  { intros k Hk. destruct (Z_le_gt_dec k len); [rewrite G1 by lia; specialize (HR (s + k) ltac:(lia)); lia|].
    rewrite G2 by lia. specialize (HR (s + len) ltac:(lia)). lia. }
  rewrite G1, G2 in Eq by lia. exists mv', mi'. split; [rewrite Eq; do 2 f_equal; f_equal; lia|].
  destruct HS as [(-> & -> & B)|(-> & B1 & B2 & B3 & B4)].
  - left. repeat split. intros p Hp. rewrite <- G1 by lia. apply B. lia.
  - assert (mi' <= s + len).
    { destruct (Z_le_gt_dec mi' (s + len)); [auto|]. specialize (B4 (s + len) ltac:(lia)). rewrite !G2 in B4 by lia. lia. }
    right. rewrite G1 in * by lia. split; [reflexivity|]. split; [exact B1|]. split; [lia|].
    split; intros p Hp; rewrite <- (G1 p) by lia; [apply B3|apply B4]; lia.
Qed.

Lemma words_scan l : room l -> forall n w mv mi, 0 <= w -> 64 * (w + Z.of_nat n) <= zlen l -> 
  exists mv' mi', rmq_words_loop true n (pack l) w (E l (64 * w)) mv mi = Ok (E l (64 * (w + Z.of_nat n)), mv', mi') /\
    ((0 < n)%nat -> scan (E l) (64 * w) (64 * (w + Z.of_nat n) + 1) mv mi mv' mi') /\ (n = 0%nat -> mv' = mv /\ mi' = mi).
Proof.
  intros HR. induction n as [|n IH]; intros w mv mi Hw Hn; cbn [rmq_words_loop].
  { exists mv, mi. rewrite Z.add_0_r. split; [reflexivity|]. split; [lia|auto]. }
  assert (Hl : 0 < zlen l) by lia. pose proof (geom l Hl) as (G1 & G2 & _). unfold nw in *.
  rewrite W_rd by lia. cbn [bind]. rewrite (Z.mul_comm w 64).
  destruct (pad_scan l (W (pack l) w) (64 * w) 64 mv mi) as (m1 & i1 & E1 & S1); [apply W_pack_u64|lia|lia|lia|exact HR| |].
  { intros k Hk. replace (k <? 64) with true by lia. apply (words_ok_pack l). lia. lia. }
  rewrite E1. cbn [bind]. replace (64 * w + 64) with (64 * (w + 1)) in * by lia. rewrite Z.sub_diag, Z.add_0_r.
  destruct (IH (w + 1) m1 i1) as (m2 & i2 & E2 & S2 & S3); [lia|lia|]. rewrite E2. exists m2, i2.
  split; [do 2 f_equal; f_equal; f_equal; lia|]. split; [|lia]. intros _. destruct n as [|n].
  - destruct (S3 eq_refl) as [-> ->]. replace (w + Z.of_nat 1) with (w + 1) by lia. exact S1.
  - eapply scan_app; [| |exact S1|]; [| |replace (w + Z.of_nat (S (S n))) with (w + 1 + Z.of_nat (S n)) by lia; apply S2; lia]; lia.
Qed.

Lemma block_scan l st en mv mi : room l -> 0 <= st <= en -> 64 * en <= zlen l -> (st < en -> st / 4 = (en - 1) / 4) ->
  exists mv' mi', excess_rmq_in_block true (pack l) st en (E l (64 * st)) mv mi = Ok (E l (64 * en), mv', mi') /\
    (st < en -> scan (E l) (64 * st) (64 * en + 1) mv mi mv' mi') /\ (st = en -> mv' = mv /\ mi' = mi).
Proof.
  intros HR H1 H2 H3. unfold excess_rmq_in_block, bp_block_size. replace (st <=? en) with true by lia. unfold assert_ at 1. cbv iota.
  destruct (Z.eqb_spec st en) as [->|Hne]; [exists mv, mi; split; [reflexivity|]; split; [lia|auto]|].
  rewrite <- H3 by lia. rewrite Z.eqb_refl. unfold assert_. cbv iota.
  destruct (words_scan l HR (Z.to_nat (en - st)) st mv mi) as (m & i & Em & S & _); [lia|lia|].
  replace (st + Z.of_nat (Z.to_nat (en - st))) with en in * by lia. exists m, i. split; [exact Em|]. split; [intros _; apply S; lia|lia].
Qed.
(** from a minimum of [a..64 st] *)
Lemma block_argmin l a st en mi : room l -> 0 <= a <= 64 * st -> 0 <= st <= en -> 64 * en <= zlen l -> (st < en -> st / 4 = (en - 1) / 4) ->
  argmin (E l) a (64 * st) mi ->
  exists mi', excess_rmq_in_block true (pack l) st en (E l (64 * st)) (E l mi) mi = Ok (E l (64 * en), E l mi', mi') /\
    argmin (E l) a (64 * en) mi'.
Proof.
  intros HR Ha H1 H2 H3 HM. destruct (block_scan l st en (E l mi) mi HR H1 H2 H3) as (m & i & Em & S1 & S2).
  destruct (Z.eq_dec st en) as [Heq|Hne].
  - destruct (S2 Heq) as [-> ->]. exists mi. split; [exact Em|]. rewrite <- Heq. exact HM.
  - specialize (S1 ltac:(lia)). apply (scan_argmin _ a) in S1; [|lia|lia|exact HM]. destruct S1 as [-> S1]. rewrite Z.add_simpl_r in S1. eauto.
Qed.

(** * Blocks and superblocks *)
Section Rmq.
Variables (l : list bool) (bp : bp_vector) (H : Z).
Hypothesis HB : bp_ok l bp.
Hypothesis Hpos : 0 < zlen l.
Hypothesis HI : bp_internal_nodes bp = 2 ^ H.
Hypothesis HT : tree_ok l H (bp_superblock_excess_min bp).

Let M (b : Z) : Z := W (bp_block_excess_min bp) b + E l (8192 * (b / 32)).
Let S (k : Z) : Z := W (bp_superblock_excess_min bp) (2 ^ H + k).
Let mins_are : mins_ok l (bp_block_excess_min bp) (nblk l) := proj1 (proj2 (proj2 (proj2 HB)) Hpos).

Lemma M_min b : 0 <= b < nblk l -> is_min (E l) (256 * b) (blk_end l b) (M b).
Proof. intros Hb. apply (proj2 mins_are b Hb). Qed.
Lemma S_min k : 0 <= k < nsup l -> is_min (E l) (8192 * k) (sup_end l k) (S k).
Proof.
  intros Hk. destruct HT as (H1 & H2 & H3 & H4). destruct (H4 0 k ltac:(lia)) as [H5 _]; [rewrite Z.sub_0_r; lia|].
  change (2 ^ 0) with 1 in H5. rewrite Z.sub_0_r, !Z.mul_1_r in H5. destruct (H5 ltac:(lia)) as (_ & H6 & _). exact H6.
Qed.

(** a superblock against its blocks *)
Lemma S_le_M b : 0 <= b < nblk l -> S (b / 32) <= M b.
Proof.
  intros Hb. pose proof (geom l Hpos) as (G1 & G2 & G3 & G4 & G5 & G6).
  pose proof (Z.div_mod b 32 ltac:(lia)). pose proof (Z.mod_pos_bound b 32 ltac:(lia)).
  destruct (M_min b Hb) as [(p & Hp & Ep) _]. destruct (S_min (b / 32) ltac:(lia)) as [_ HS]. rewrite <- Ep. apply HS.
  unfold blk_end, sup_end in *. lia.
Qed.
Lemma S_is_M k : 0 <= k -> 8192 * (k + 1) <= zlen l -> exists b, 32 * k <= b < 32 * (k + 1) /\ M b = S k.
Proof.
  intros Hk Hend. pose proof (geom l Hpos) as (G1 & G2 & G3 & G4 & G5 & G6).
  destruct (S_min k ltac:(lia)) as [(p & Hp & Ep) HS]. unfold sup_end in *.
  set (b := if p =? 8192 * (k + 1) then 32 * k + 31 else p / 256).
  pose proof (Z.div_mod p 256 ltac:(lia)). pose proof (Z.mod_pos_bound p 256 ltac:(lia)).
  assert (Hb : 32 * k <= b < 32 * (k + 1) /\ 256 * b <= p <= 256 * (b + 1)) by (unfold b; destruct (Z.eqb_spec p (8192 * (k + 1))); lia).
  clearbody b. destruct Hb as [Hb1 Hb2]. exists b. split; [exact Hb1|].
  pose proof (M_min b ltac:(lia)) as [(q & Hq & Eq) HM]. pose proof (S_le_M b ltac:(lia)) as X.
  replace (b / 32) with k in X by (apply (Z.div_unique b 32 k (b - 32 * k)); lia).
  unfold blk_end in *. specialize (HM p ltac:(lia)). lia.
Qed.

Lemma blocks_scan sb : 0 <= sb -> zlen l < 2 ^ 31 -> nonneg l -> forall n b mv mi, 32 * sb <= b -> b + Z.of_nat n <= Z.min (32 * (sb + 1)) (nblk l) ->
  exists mv' mi', rmq_blocks_loop n (bp_block_excess_min bp) b (E l (8192 * sb)) mv mi = Ok (mv', mi') /\
    scan M b (b + Z.of_nat n) mv mi mv' mi'.
Proof.
  intros Hsb Hsz HN. induction n as [|n IH]; intros b mv mi Hb Hn; cbn [rmq_blocks_loop].
  { exists mv, mi. split; [reflexivity|]. rewrite Z.add_0_r. apply scan_nil. }
  pose proof (proj1 mins_are) as HL. rewrite W_rd by lia. cbn [bind].
  assert (EM : E l (8192 * sb) + W (bp_block_excess_min bp) b = M b).
  { unfold M. replace (b / 32) with sb by (apply (Z.div_unique b 32 sb (b - 32 * sb)); lia). lia. }
  rewrite EM. rewrite int32_ok.
  2:{ destruct (M_min b ltac:(lia)) as [(p & Hp & Ep) _]. unfold blk_end in Hp. rewrite <- Ep. pose proof (HN p ltac:(lia)). pose proof (E_bound l p ltac:(lia)). lia. }
  cbn [bind].
  assert (S1 : scan M b (b + 1) mv mi (if M b <? mv then M b else mv) (if M b <? mv then b else mi)).
  { destruct (Z.ltb_spec (M b) mv).
    - right. split; [reflexivity|]. split; [lia|]. split; [lia|]. split; intros p Hp; [replace p with b by lia; lia|lia].
    - left. repeat split. intros p Hp. replace p with b by lia. lia. }
  replace (b + Z.of_nat (Datatypes.S n)) with (b + 1 + Z.of_nat n) in * by lia.
  destruct (Z.ltb_spec (M b) mv) as [Hlt|Hge].
  - destruct (IH (b + 1) (M b) b) as (m & i & E1 & S2); [lia|lia|]. exists m, i. split; [exact E1|].
    eapply scan_app; [| |exact S1|exact S2]; lia.
  - destruct (IH (b + 1) mv mi) as (m & i & E1 & S2); [lia|lia|]. exists m, i. split; [exact E1|].
    eapply scan_app; [| |exact S1|exact S2]; lia.
Qed.

Lemma superblock_scan st en mv mi : 0 <= st <= en -> en <= nblk l -> (st < en -> st / 32 = (en - 1) / 32) ->
  exists mv' mi', excess_rmq_in_superblock bp st en mv mi = Ok (mv', mi') /\ scan M st en mv mi mv' mi'.
Proof.
  intros H1 H2 H3. pose proof HB as (HRs & Hsz & HN & _). unfold excess_rmq_in_superblock, superblock_size.
  replace (st <=? en) with true by lia. unfold assert_ at 1. cbv iota.
  destruct (Z.eqb_spec st en) as [->|Hne]; [exists mv, mi; split; [reflexivity|apply scan_nil]|].
  specialize (H3 ltac:(lia)). rewrite <- H3, Z.eqb_refl. unfold assert_. cbv iota.
  pose proof (geom l Hpos) as (G1 & G2 & G3 & G4 & G5 & G6).
  pose proof (Z.div_mod st 32 ltac:(lia)). pose proof (Z.mod_pos_bound st 32 ltac:(lia)).
  pose proof (Z.div_mod (en - 1) 32 ltac:(lia)). pose proof (Z.mod_pos_bound (en - 1) 32 ltac:(lia)).
  rewrite (get_block_excess_ok l) by (auto; try lia; apply HN; lia). cbn [bind]. replace (256 * (st / 32 * 32)) with (8192 * (st / 32)) by lia.
  destruct (blocks_scan (st / 32) ltac:(lia) Hsz HN (Z.to_nat (en - st)) st mv mi) as (m & i & Em & HS); [lia|lia|].
  replace (st + Z.of_nat (Z.to_nat (en - st))) with en in HS by lia. eauto.
Qed.

(** * The tree *)
Let t := bp_superblock_excess_min bp.

(** value of a node against its leaves *)
Lemma node_leaves h j : 0 <= h <= H -> 0 <= j -> (j + 1) * 2 ^ h <= nsup l ->
  0 <= 2 ^ (H - h) + j < zlen t /\ (forall k, j * 2 ^ h <= k < (j + 1) * 2 ^ h -> W t (2 ^ (H - h) + j) <= S k) /\
  exists k, j * 2 ^ h <= k < (j + 1) * 2 ^ h /\ S k = W t (2 ^ (H - h) + j).
Proof.
  intros Hh Hj Hend. destruct HT as (H1 & H2 & H3 & H4).
  assert (P1 : 0 < 2 ^ h) by (apply Z.pow_pos_nonneg; lia). assert (P2 : 0 < 2 ^ (H - h)) by (apply Z.pow_pos_nonneg; lia).
  assert (PP : 2 ^ (H - h) * 2 ^ h = 2 ^ H) by (rewrite <- Z.pow_add_r by lia; f_equal; lia).
  assert (Hj2 : j < 2 ^ (H - h)) by (clear - PP P1 H2 Hend; nia).
  destruct (H4 h j Hh ltac:(lia)) as [H5 _]. assert (Hs : j * 2 ^ h < nsup l) by (clear - P1 Hend; nia).
  destruct (H5 Hs) as (H6 & H7 & H8). fold t in H3, H6, H7, H8. clear H5.
  set (x := j * 2 ^ h) in *. assert (Ex : (j + 1) * 2 ^ h = x + 2 ^ h) by (unfold x; ring). rewrite Ex in *.
  assert (0 <= x) by (unfold x; clear - P1 Hj; nia). clearbody x. set (d := 2 ^ h) in *. clearbody d.
  pose proof (geom l Hpos) as (G1 & G2 & G3 & G4 & G5 & G6).
  split; [lia|]. destruct H7 as [(p & Hp & Ep) H7]. 
  assert (LE : forall k, x <= k < x + d -> W t (2 ^ (H - h) + j) <= S k).
  { intros k Hk. destruct (S_min k ltac:(lia)) as [(q & Hq & Eq) _]. rewrite <- Eq. apply H7. unfold sup_end in Hq. lia. }
  split; [exact LE|].
  pose proof (Z.div_mod p 8192 ltac:(lia)). pose proof (Z.mod_pos_bound p 8192 ltac:(lia)).
  set (k := if x + d <=? p / 8192 then x + d - 1 else p / 8192).
  assert (Hk : x <= k < x + d /\ 8192 * k <= p <= sup_end l k).
  { unfold k, sup_end. destruct (Z.leb_spec (x + d) (p / 8192)); lia. }
  exists k. split; [apply Hk|]. destruct (S_min k ltac:(lia)) as [_ X]. specialize (X p ltac:(lia)). specialize (LE k ltac:(lia)). lia.
Qed.

(** [nmi] is the node that holds the leftmost minimum of the superblocks [lo..hi) *)
Definition cand (lo hi nme nmi : Z) : Prop :=
  exists h j, 0 <= h <= H /\ 0 <= j /\ nmi = 2 ^ (H - h) + j /\ lo <= j * 2 ^ h /\ (j + 1) * 2 ^ h <= hi /\ nme = W t nmi /\
    (forall k, lo <= k < hi -> nme <= S k) /\ (forall k, lo <= k < j * 2 ^ h -> nme < S k).

Lemma cand_add lo hi nme nmi h j : cand lo hi nme nmi -> 0 <= h <= H -> 0 <= j -> lo <= j * 2 ^ h <= hi ->
  hi <= (j + 1) * 2 ^ h -> (j + 1) * 2 ^ h <= nsup l ->
  let v := W t (2 ^ (H - h) + j) in
  cand lo ((j + 1) * 2 ^ h) (if v <? nme then v else nme) (if v <? nme then 2 ^ (H - h) + j else nmi).
Proof.
  intros (h' & j' & A1 & A2 & A3 & A4 & A5 & A6 & A7 & A8) Hh Hj Hlo Hhi Hn v.
  destruct (node_leaves h j Hh Hj Hn) as (N1 & N2 & N3). fold v in N2, N3.
  destruct (Z.ltb_spec v nme).
  - exists h, j. split; [exact Hh|]. split; [exact Hj|]. split; [reflexivity|]. split; [lia|]. split; [lia|]. split; [reflexivity|].
    split; intros k Hk; (destruct (Z_lt_le_dec k hi); [specialize (A7 k ltac:(lia)); lia|]); [apply N2|]; lia.
  - exists h', j'. split; [exact A1|]. split; [exact A2|]. split; [exact A3|]. split; [exact A4|]. split; [lia|]. split; [exact A6|].
    split; [|exact A8]. intros k Hk. destruct (Z_lt_le_dec k hi); [apply A7; lia|]. specialize (N2 k ltac:(lia)). lia.
Qed.

Lemma shl1_ok h : 0 <= h < 64 -> shl 1 h = Ok (2 ^ h).
Proof.
  intros Hh. rewrite shl_ok by lia. f_equal. rewrite Z.shiftl_1_l. apply u64_small.
  split; [apply Z.pow_nonneg; lia|]. apply Z.pow_lt_mono_r; lia.
Qed.

Lemma span_up_ok lo hi : 0 <= lo -> hi <= nsup l -> forall fuel h j nme nmi, 0 <= h <= H -> H - h < Z.of_nat fuel -> 0 <= j < 2 ^ (H - h) ->
  lo <= (j + 1) * 2 ^ h - 1 -> (j + 1) * 2 ^ h - 1 < hi - 1 -> cand lo ((j + 1) * 2 ^ h) nme nmi ->
  exists h' j' nme' nmi' x, span_up_loop fuel t hi (2 ^ (H - h) + j) h ((j + 1) * 2 ^ h - 1) nme nmi =
      Ok (2 ^ (H - h') + j', h', (j' + 1) * 2 ^ h' - 1, nme', nmi') /\
    0 <= h' <= H /\ 0 <= j' < 2 ^ (H - h') /\ j' * 2 ^ h' <= x <= (j' + 1) * 2 ^ h' /\ x <= hi /\
    hi - 1 <= (j' + 1) * 2 ^ h' - 1 /\ lo <= j' * 2 ^ h' /\ j' * 2 ^ h' <= hi - 1 /\ cand lo x nme' nmi'.
Proof.
  intros Hlo Hhi. pose proof HT as (H1 & H2 & H3 & _). fold t in H3.
  induction fuel as [|fuel IH]; intros h j nme nmi Hh Hf Hj Hls Hsp HC; [lia|].
  cbn [span_up_loop].
  assert (P1 : 0 < 2 ^ h) by (apply Z.pow_pos_nonneg; lia). assert (P2 : 0 < 2 ^ (H - h)) by (apply Z.pow_pos_nonneg; lia).
  replace (negb (2 ^ (H - h) + j =? 0)) with true by lia. unfold assert_. cbv iota.
  assert (HhH : h < H).
  { destruct (Z.eq_dec h H) as [->|]; [|lia]. rewrite Z.sub_diag in Hj. change (2 ^ 0) with 1 in Hj. replace j with 0 in Hsp by lia. lia. }
  set (e := H - (h + 1)). assert (He : H - h = e + 1) by (unfold e; lia). assert (e0 : 0 <= e) by (unfold e; lia).
  rewrite He in Hj. rewrite He, pow2_succ in * by lia.
  assert (PP : 2 ^ e * 2 * 2 ^ h = 2 ^ H) by (replace H with (e + 1 + h) by lia; rewrite Z.pow_add_r, pow2_succ by lia; lia).
  pose proof (Z.div_mod j 2 ltac:(lia)) as Dj. 
  assert (Ej : j mod 2 = if Z.odd j then 1 else 0) by apply Zmod_odd.
  assert (Ecur : (2 * 2 ^ e + j) / 2 = 2 ^ e + j / 2).
  { symmetry. apply (Z.div_unique _ 2 _ (j mod 2)); [left; apply Z.mod_pos_bound; lia|lia]. }
  replace (Z.odd (2 * 2 ^ e + j)) with (Z.odd j) by (rewrite Z.odd_add, Z.odd_mul; cbn; destruct (Z.odd j); reflexivity).
  assert (Pn : 2 ^ (h + 1) = 2 * 2 ^ h) by (apply pow2_succ; lia).
  destruct (Z.odd j).
  - (* right child *)
    assert (X : (j + 1) * 2 ^ h = (j / 2 + 1) * 2 ^ (h + 1)) by (rewrite Pn; replace j with (2 * (j / 2) + 1) at 1 by lia; ring).
    rewrite X in *. rewrite Ecur. fold e in IH. replace (2 ^ e) with (2 ^ (H - (h + 1))) in * by reflexivity.
    apply IH; [lia|lia| |lia|lia|exact HC]. unfold e in Hj. lia.
  - rewrite shl1_ok by lia. cbn [bind].
    set (d := 2 ^ h) in *.
    replace ((j + 1) * d - 1 + d) with ((j + 1 + 1) * d - 1) by ring.
    replace (2 * 2 ^ e + j + 1) with (2 * 2 ^ e + (j + 1)) by ring.
    assert (Hj1 : 0 <= j + 1 < 2 * 2 ^ e) by lia.
    assert (Q1 : (j + 1) * d <= (j + 1 + 1) * d) by (clear - P1 Hj; nia).
    assert (Q2 : (j + 1 + 1) * d = (j + 1) * d + d) by ring.
    assert (St : exists nme1 nmi1 x, (if (j + 1 + 1) * d - 1 <? hi
        then do v <- rd t (2 * 2 ^ e + (j + 1)); Ok (if v <? nme then (v, 2 * 2 ^ e + (j + 1)) else (nme, nmi))
        else Ok (nme, nmi)) = Ok (nme1, nmi1) /\ (j + 1) * d <= x <= (j + 1 + 1) * d /\ x <= hi /\
        ((j + 1 + 1) * d <= hi -> x = (j + 1 + 1) * d) /\ cand lo x nme1 nmi1).
    { destruct (Z.ltb_spec ((j + 1 + 1) * d - 1) hi).
      - pose proof (node_leaves h (j + 1) ltac:(lia) ltac:(lia) ltac:(fold d; lia)) as (N1 & _). rewrite He, pow2_succ in N1 by lia.
        rewrite W_rd by lia. cbn [bind].
        pose proof (cand_add lo _ nme nmi h (j + 1) HC ltac:(lia) ltac:(lia) ltac:(fold d; lia) ltac:(fold d; lia) ltac:(fold d; lia)) as CA.
        cbv zeta in CA. rewrite He, pow2_succ in CA by lia. fold d in CA.
        destruct (Z.ltb_spec (W t (2 * 2 ^ e + (j + 1))) nme); (eexists; eexists; exists ((j + 1 + 1) * d); split; [reflexivity|]; repeat split; try lia; exact CA).
      - exists nme, nmi, ((j + 1) * d). split; [reflexivity|]. repeat split; try lia. exact HC. }
    destruct St as (nme1 & nmi1 & x & St & X1 & X2 & X3 & X4). rewrite St. cbn [bind].
    destruct (Z.leb_spec (hi - 1) ((j + 1 + 1) * d - 1)) as [Hstop|Hgo].
    + exists h, (j + 1), nme1, nmi1, x. rewrite He, pow2_succ by lia. fold d.
      split; [do 5 f_equal; lia|]. repeat split; try lia; exact X4.
    + specialize (X3 ltac:(lia)). subst x.
      assert (X : (j + 1 + 1) * d = (j / 2 + 1) * 2 ^ (h + 1)) by (rewrite Pn; fold d; replace j with (2 * (j / 2)) at 1 by lia; ring).
      rewrite X in *. rewrite Ecur. fold e in IH. replace (2 ^ e) with (2 ^ (H - (h + 1))) in * by reflexivity.
      apply IH; [lia|lia| |lia|lia|exact X4]. unfold e in Hj. lia.
Qed.

Lemma span_down_ok lo hi : 0 <= lo -> hi <= nsup l -> forall fuel h j nme nmi x, 0 <= h <= H -> h <= Z.of_nat fuel -> 0 <= j < 2 ^ (H - h) ->
  j * 2 ^ h <= x <= (j + 1) * 2 ^ h -> x <= hi -> hi <= (j + 1) * 2 ^ h -> lo <= j * 2 ^ h -> j * 2 ^ h <= hi - 1 -> cand lo x nme nmi ->
  exists h' j' nme' nmi' x', span_down_loop fuel t hi (2 ^ (H - h) + j) h ((j + 1) * 2 ^ h - 1) nme nmi =
      Ok (2 ^ (H - h') + j', hi - 1, nme', nmi') /\ 0 <= h' <= H /\ 0 <= j' < 2 ^ (H - h') /\
    j' * 2 ^ h' <= x' <= hi /\ hi = (j' + 1) * 2 ^ h' /\ lo <= j' * 2 ^ h' /\ cand lo x' nme' nmi'.
Proof.
  intros Hlo Hhi. pose proof HT as (H1 & H2 & H3 & H4). fold t in H3.
  induction fuel as [|fuel IH]; intros h j nme nmi x Hh Hf Hj Hx Hxh Hend Hst Hlast HC.
  - replace h with 0 in * by lia. change (2 ^ 0) with 1 in *. rewrite !Z.mul_1_r in *. cbn [span_down_loop].
    replace (j + 1 - 1 <=? hi - 1) with true by lia. exists 0, j, nme, nmi, x. change (2 ^ 0) with 1. rewrite !Z.mul_1_r.
    split; [do 4 f_equal; lia|]. repeat split; try lia. exact HC.
  - cbn [span_down_loop]. assert (P1 : 0 < 2 ^ h) by (apply Z.pow_pos_nonneg; lia). assert (P2 : 0 < 2 ^ (H - h)) by (apply Z.pow_pos_nonneg; lia).
    destruct (Z.leb_spec ((j + 1) * 2 ^ h - 1) (hi - 1)) as [Hdone|Hgo].
    + exists h, j, nme, nmi, x. split; [do 4 f_equal; lia|]. repeat split; try lia. exact HC.
    + assert (Hs : j * 2 ^ h < nsup l) by lia. destruct (H4 h j Hh Hj) as [H5 _]. destruct (H5 Hs) as (H6 & _). fold t in H6. clear H5.
      replace (2 ^ (H - h) + j <? zlen t) with true by lia. unfold assert_ at 1. cbv iota.
      assert (h0 : 0 < h).
      { destruct (Z.eq_dec h 0) as [->|]; [|lia]. change (2 ^ 0) with 1 in *. lia. }
      replace (0 <? h) with true by lia. unfold assert_. cbv iota.
      set (g := h - 1). assert (Eh : h = g + 1) by (unfold g; lia). clearbody g. subst h.
      assert (Eg : 2 ^ (H - g) = 2 * 2 ^ (H - (g + 1))) by (rewrite <- pow2_succ by lia; f_equal; lia).
      rewrite pow2_succ in * by lia. rewrite shl1_ok by lia. cbn [bind].
      assert (P3 : 0 < 2 ^ g) by (apply Z.pow_pos_nonneg; lia). set (d := 2 ^ g) in *.
      replace ((2 ^ (H - (g + 1)) + j) * 2) with (2 ^ (H - g) + 2 * j) by lia.
      replace ((j + 1) * (2 * d)) with ((2 * j + 1 + 1) * d) in * by ring. replace (j * (2 * d)) with (2 * j * d) in * by ring.
      assert (Q1 : (2 * j + 1 + 1) * d = 2 * j * d + 2 * d) by ring. assert (Q2 : (2 * j + 1) * d = 2 * j * d + d) by ring.
      assert (Q3 : 0 <= 2 * j * d) by (clear - P3 Hj; nia).
      rewrite sub64_ok by lia.
      replace ((2 * j + 1 + 1) * d - 1 - d) with ((2 * j + 1) * d - 1) by lia.
      destruct (Z.leb_spec (hi - 1) ((2 * j + 1) * d - 1)) as [Hl|Hr].
      * destruct (IH g (2 * j) nme nmi (Z.min x ((2 * j + 1) * d))) as (h' & j' & nme' & nmi' & x' & R); fold d; try lia.
        { replace (Z.min x ((2 * j + 1) * d)) with x by lia. exact HC. }
        fold d in R. eauto 8.
      * pose proof (node_leaves g (2 * j) ltac:(lia) ltac:(lia) ltac:(fold d; lia)) as (N1 & N2 & _).
        rewrite W_rd by lia. cbn [bind].
        assert (HC' : cand lo (Z.max x ((2 * j + 1) * d)) (if W t (2 ^ (H - g) + 2 * j) <? nme then W t (2 ^ (H - g) + 2 * j) else nme)
            (if W t (2 ^ (H - g) + 2 * j) <? nme then 2 ^ (H - g) + 2 * j else nmi)).
        { destruct (Z_le_gt_dec x ((2 * j + 1) * d)) as [Hc|Hc].
          - pose proof (cand_add lo x nme nmi g (2 * j) HC ltac:(lia) ltac:(lia) ltac:(fold d; lia) ltac:(fold d; lia) ltac:(fold d; lia)) as CA.
            cbv zeta in CA. fold d in CA. replace (Z.max x ((2 * j + 1) * d)) with ((2 * j + 1) * d) by lia. exact CA.
          - replace (Z.max x ((2 * j + 1) * d)) with x by lia. destruct HC as (h' & j' & A1 & A2 & A3 & A4 & A5 & A6 & A7 & A8).
            destruct (Z.ltb_spec (W t (2 ^ (H - g) + 2 * j)) nme) as [Hlt|_].
            + exfalso. destruct (node_leaves g (2 * j) ltac:(lia) ltac:(lia) ltac:(fold d; lia)) as (_ & _ & k & Hk & Ek). fold d in Hk.
              specialize (A7 k ltac:(lia)). lia.
            + exists h', j'. auto 10. }
        replace (2 ^ (H - g) + 2 * j + 1) with (2 ^ (H - g) + (2 * j + 1)) by lia.
        destruct (Z.ltb_spec (W t (2 ^ (H - g) + 2 * j)) nme);
          (edestruct (IH g (2 * j + 1)) with (x := Z.max x ((2 * j + 1) * d)) as (h' & j' & nme' & nmi' & x' & R);
           [lia|lia|lia|fold d; lia|fold d; lia|fold d; lia|fold d; lia|fold d; lia|exact HC'|fold d in R; eauto 8]).
Qed.

Lemma min_leaf_ok v : forall fuel h j, 0 <= h <= H -> h <= Z.of_nat fuel -> 0 <= j -> (j + 1) * 2 ^ h <= nsup l -> W t (2 ^ (H - h) + j) = v ->
  exists k, min_leaf_loop fuel t (2 ^ H) (2 ^ (H - h) + j) = Ok (2 ^ H + k) /\ j * 2 ^ h <= k < (j + 1) * 2 ^ h /\ S k = v /\
    forall k', j * 2 ^ h <= k' < k -> v < S k'.
Proof.
  pose proof HT as (H1 & H2 & H3 & H4). fold t in H3.
  assert (Base0 : forall fuel j, 0 <= j -> W t (2 ^ H + j) = v -> exists k, min_leaf_loop fuel t (2 ^ H) (2 ^ H + j) = Ok (2 ^ H + k) /\
    j * 1 <= k < (j + 1) * 1 /\ S k = v /\ forall k', j * 1 <= k' < k -> v < S k').
  { intros fuel j Hj Hv. exists j. assert (min_leaf_loop fuel t (2 ^ H) (2 ^ H + j) = Ok (2 ^ H + j)) as ->.
    { destruct fuel; cbn [min_leaf_loop]; replace (2 ^ H <=? 2 ^ H + j) with true by lia; reflexivity. }
    split; [reflexivity|]. split; [lia|]. split; [exact Hv|]. lia. }
  induction fuel as [|fuel IH]; intros h j Hh Hf Hj Hend Hv.
  - replace h with 0 in * by lia. rewrite Z.sub_0_r in *. change (2 ^ 0) with 1. apply Base0; auto.
  - destruct (Z.eq_dec h 0) as [->|Hne]; [rewrite Z.sub_0_r in *; change (2 ^ 0) with 1; apply Base0; auto|].
    set (g := h - 1). assert (Eh : h = g + 1) by (unfold g; lia). clearbody g. subst h.
    assert (P2 : 0 < 2 ^ (H - (g + 1))) by (apply Z.pow_pos_nonneg; lia). assert (P3 : 0 < 2 ^ g) by (apply Z.pow_pos_nonneg; lia).
    assert (Eg : 2 ^ (H - g) = 2 * 2 ^ (H - (g + 1))) by (rewrite <- pow2_succ by lia; f_equal; lia).
    assert (PP : 2 ^ (H - (g + 1)) * (2 * 2 ^ g) = 2 ^ H) by (rewrite <- pow2_succ, <- Z.pow_add_r by lia; f_equal; lia).
    destruct (node_leaves (g + 1) j ltac:(lia) Hj Hend) as (_ & N2 & k0 & Hk0 & Ek0).
    cbn [min_leaf_loop]. rewrite pow2_succ in * by lia. set (d := 2 ^ g) in *. set (c := 2 ^ (H - (g + 1))) in *.
    assert (Hjc : j < c) by (clear - PP P3 H2 Hend; nia).
    assert (Hlt : c + j < 2 ^ H) by (clear - PP P3 Hjc Hj P2; nia).
    replace (2 ^ H <=? c + j) with false by lia.
    replace ((c + j) * 2) with (2 ^ (H - g) + 2 * j) by lia.
    replace ((j + 1) * (2 * d)) with ((2 * j + 1 + 1) * d) in * by ring. replace (j * (2 * d)) with (2 * j * d) in * by ring.
    assert (Q1 : (2 * j + 1 + 1) * d = 2 * j * d + 2 * d) by ring. assert (Q2 : (2 * j + 1) * d = 2 * j * d + d) by ring.
    destruct (node_leaves g (2 * j) ltac:(lia) ltac:(lia) ltac:(fold d; lia)) as (L1 & L2 & L3).
    destruct (node_leaves g (2 * j + 1) ltac:(lia) ltac:(lia) ltac:(fold d; lia)) as (R1 & R2 & R3). fold d in L2, L3, R2, R3.
    replace (2 ^ (H - g) + 2 * j + 1) with (2 ^ (H - g) + (2 * j + 1)) by lia.
    rewrite !W_rd by lia. cbn [bind]. rewrite Hv in N2, Ek0.
    set (L := W t (2 ^ (H - g) + 2 * j)) in *. set (R := W t (2 ^ (H - g) + (2 * j + 1))) in *.
    assert (vL : v <= L) by (destruct L3 as (k & Hk & Ek); rewrite <- Ek; apply N2; lia).
    assert (vR : v <= R) by (destruct R3 as (k & Hk & Ek); rewrite <- Ek; apply N2; lia).
    destruct (Z.ltb_spec R L) as [Hrl|Hlr].
    + assert (ER : R = v).
      { destruct (Z_lt_le_dec k0 ((2 * j + 1) * d)); [specialize (L2 k0 ltac:(lia)); lia|specialize (R2 k0 ltac:(lia)); lia]. }
      destruct (IH g (2 * j + 1)) as (k & E1 & K1 & K2 & K3); [lia|lia|lia|fold d; lia|exact ER|]. fold d in K1, K3.
      exists k. split; [exact E1|]. split; [lia|]. split; [exact K2|]. intros k' Hk'.
      destruct (Z_lt_le_dec k' ((2 * j + 1) * d)); [specialize (L2 k' ltac:(lia)); lia|apply K3; lia].
    + assert (EL : L = v).
      { destruct (Z_lt_le_dec k0 ((2 * j + 1) * d)); [specialize (L2 k0 ltac:(lia)); lia|specialize (R2 k0 ltac:(lia)); lia]. }
      destruct (IH g (2 * j)) as (k & E1 & K1 & K2 & K3); [lia|lia|lia|fold d; lia|exact EL|]. fold d in K1, K3.
      exists k. split; [exact E1|]. split; [lia|]. split; [exact K2|]. intros k' Hk'. apply K3; lia.
Qed.

Lemma tree_fuel : H < Z.of_nat (length t).
Proof.
  pose proof HT as (H1 & H2 & H3 & _). fold t in H3. pose proof (geom l Hpos) as (G1 & G2 & G3 & G4 & G5 & G6).
  pose proof (Z.pow_gt_lin_r 2 H ltac:(lia) ltac:(lia)). unfold zlen in H3. lia.
Qed.

(** one superblock is taken unconditionally, several are scanned *)
Lemma find_min_superblock_ok st en mv mi : 0 <= st <= en -> en <= nsup l -> 
  exists mv' mi', find_min_superblock bp st en mv mi = Ok (mv', mi') /\
    (en - st <> 1 -> scan S st en mv mi mv' mi') /\ (en - st = 1 -> mv' = S st /\ mi' = st).
Proof.
  intros H1 H2. unfold find_min_superblock. fold t. rewrite HI.
  destruct (Z.eqb_spec st en) as [->|Hne]; [exists mv, mi; split; [reflexivity|]; split; [intros _; apply scan_nil|lia]|].
  pose proof HT as (T1 & T2 & T3 & T4). fold t in T3. assert (0 < 2 ^ H) by (apply Z.pow_pos_nonneg; lia).
  rewrite W_rd by lia. cbn [bind]. change (W t (2 ^ H + st)) with (S st).
  rewrite sub64_ok by lia. destruct (Z.eqb_spec (en - st) 1) as [E1|N1].
  { exists (S st), st. split; [reflexivity|]. split; [lia|auto]. }
  assert (HC : cand st ((st + 1) * 2 ^ 0) (S st) (2 ^ H + st)).
  { exists 0, st. change (2 ^ 0) with 1. rewrite Z.sub_0_r, !Z.mul_1_r. repeat split; try lia.
    intros k Hk. replace k with st by lia. lia. }
  pose proof tree_fuel as HF.
  destruct (span_up_ok st en ltac:(lia) H2 (length t) 0 st (S st) (2 ^ H + st)) as (h & j & nme & nmi & x & Eup & U1 & U2 & U3 & U4 & U5 & U6 & U7 & U8);
    try (rewrite ?Z.sub_0_r; change (2 ^ 0) with 1; lia); [exact HC|].
  rewrite Z.sub_0_r in Eup. change (2 ^ 0) with 1 in Eup. rewrite Z.mul_1_r, Z.add_simpl_r in Eup. rewrite Eup. cbn [bind].
  assert (0 < 2 ^ (H - h)) by (apply Z.pow_pos_nonneg; lia).
  replace (negb (2 ^ (H - h) + j =? 0)) with true by lia. unfold assert_ at 1. cbv iota.
  destruct (span_down_ok st en ltac:(lia) H2 (length t) h j nme nmi x) as (h' & j' & nme' & nmi' & x' & Edn & D1 & D2 & D3 & D4 & D5 & D6); try lia; [exact U8|].
  rewrite Edn. cbn [bind]. replace (en - 1 <? en) with true by lia.
  destruct (node_leaves h' j' D1 ltac:(lia) ltac:(lia)) as (N1' & N2 & N3). rewrite W_rd by lia. cbn [bind].
  pose proof (cand_add st x' nme' nmi' h' j' D6 D1 ltac:(lia) ltac:(lia) ltac:(lia) ltac:(lia)) as CA. cbv zeta in CA. rewrite <- D4 in CA.
  set (v := W t (2 ^ (H - h') + j')) in *.
  assert (Epair : (if v <? nme' then (v, 2 ^ (H - h') + j') else (nme', nmi')) =
     (if v <? nme' then v else nme', if v <? nme' then 2 ^ (H - h') + j' else nmi')) by (destruct (v <? nme'); reflexivity).
  rewrite Epair. set (a := if v <? nme' then v else nme') in *. set (i := if v <? nme' then 2 ^ (H - h') + j' else nmi') in *. clearbody a i.
  rewrite Z.eqb_refl. unfold assert_ at 1. cbv iota.
  destruct CA as (hh & jj & A1 & A2 & A3 & A4 & A5 & A6 & A7 & A8).
  destruct (Z.ltb_spec a mv) as [Hlt|Hge].
  - destruct (min_leaf_ok a (length t) hh jj A1 ltac:(lia) A2 ltac:(lia)) as (k & Ek & K1 & K2 & K3); [rewrite <- A3; auto|].
    rewrite A3, Ek. cbn [bind]. rewrite W_rd by lia. cbn [bind]. change (W t (2 ^ H + k)) with (S k). rewrite K2, Z.eqb_refl. unfold assert_ at 1. cbv iota.
    replace (2 ^ H + k - 2 ^ H) with k by lia. replace (st <=? k) with true by lia. replace (k <? en) with true by lia. unfold assert_. cbv iota.
    exists a, k. split; [reflexivity|]. split; [|lia]. intros _. right. split; [auto|]. split; [exact Hlt|]. split; [lia|].
    rewrite K2. split; intros p Hp; [apply A7; lia|]. destruct (Z_lt_le_dec p (jj * 2 ^ hh)); [apply A8; lia|apply K3; lia].
  - exists mv, mi. split; [reflexivity|]. split; [|lia]. intros _. left. repeat split. intros p Hp. specialize (A7 p ltac:(lia)). lia.
Qed.

(** the superblock of the minimum stands for the whole range of superblocks *)
Lemma superblocks_scan st en me bme bmi : 0 <= st <= en -> 8192 * en <= zlen l -> bme <= me ->
  exists mv mi, (do (sme, smi) <- find_min_superblock bp st en me minus1U;
     if sme <? me then excess_rmq_in_superblock bp (smi * 32) ((smi + 1) * 32) bme bmi else Ok (bme, bmi)) = Ok (mv, mi) /\
    scan M (32 * st) (32 * en) bme bmi mv mi.
Proof.
  intros H1 H2 Hle. pose proof (geom l Hpos) as (G1 & G2 & G3 & G4 & G5 & G6).
  destruct (find_min_superblock_ok st en me minus1U H1 ltac:(lia)) as (sme & smi & E1 & F1 & F2). rewrite E1. cbn [bind].
  assert (HC : me <= sme /\ (forall k, st <= k < en -> me <= S k) \/ sme < me /\ sme = S smi /\ argmin S st (en - 1) smi).
  { destruct (Z.eq_dec (en - st) 1) as [E|E].
    - destruct (F2 E) as [-> ->]. destruct (Z_lt_le_dec (S st) me) as [Hc|Hc].
      + right. split; [exact Hc|]. split; [reflexivity|]. split; [lia|]. split; intros k Hk; [|lia]. replace k with st by lia. lia.
      + left. split; [exact Hc|]. intros k Hk. replace k with st by lia. exact Hc.
    - destruct (F1 E) as [(-> & -> & F)|(-> & F3 & F4)]; [left; split; [lia|exact F]|]. right. auto. }
  assert (HSM : forall b, 32 * st <= b < 32 * en -> st <= b / 32 < en /\ S (b / 32) <= M b).
  { intros b Hb. split; [|apply S_le_M; lia]. pose proof (Z.div_mod b 32 ltac:(lia)). pose proof (Z.mod_pos_bound b 32 ltac:(lia)). lia. }
  destruct HC as [[C1 C2]|(C1 & C2 & C3 & C4 & C5)].
  - replace (sme <? me) with false by lia. exists bme, bmi. split; [reflexivity|]. left. repeat split. intros b Hb.
    destruct (HSM b Hb) as [X1 X2]. specialize (C2 _ X1). lia.
  - replace (sme <? me) with true by lia.
    destruct (superblock_scan (smi * 32) ((smi + 1) * 32) bme bmi) as (mv & mi & E2 & HS); [lia|lia| |].
    { intros _. rewrite Z.div_mul by lia. apply (Z.div_unique _ 32 smi 31); lia. }
    exists mv, mi. split; [exact E2|]. destruct (S_is_M smi ltac:(lia) ltac:(lia)) as (b0 & Hb0 & Eb0).
    destruct HS as [(-> & -> & B)|(-> & B1 & B2 & B3 & B4)].
    + left. repeat split. intros b Hb. destruct (HSM b Hb) as [X1 X2]. specialize (C4 (b / 32) ltac:(lia)).
      specialize (B b0 ltac:(lia)). lia.
    + assert (Emi : M mi = S smi).
      { specialize (B3 b0 ltac:(lia)). destruct (HSM mi ltac:(lia)) as [_ X].
        replace (mi / 32) with smi in X by (apply (Z.div_unique _ 32 smi (mi - 32 * smi)); lia). lia. }
      right. split; [reflexivity|]. split; [exact B1|]. split; [lia|]. rewrite Emi. split; intros b Hb; (destruct (HSM b ltac:(lia)) as [X1 X2]).
      * specialize (C4 (b / 32) ltac:(lia)). lia.
      * destruct (Z_lt_le_dec b (smi * 32)).
        -- pose proof (Z.div_mod b 32 ltac:(lia)). pose proof (Z.mod_pos_bound b 32 ltac:(lia)). specialize (C5 (b / 32) ltac:(lia)). lia.
        -- rewrite <- Emi. apply B4. lia.
Qed.

Lemma all_blocks_scan ba bb me : 0 <= ba < bb -> 256 * bb < zlen l ->
  let sa := (ba + 1) / 32 in let sb := bb / 32 in
  exists mv mi, (if sa =? sb then excess_rmq_in_superblock bp (ba + 1) bb me minus1U
     else
       do (bme, bmi) <- excess_rmq_in_superblock bp (ba + 1) ((sa + 1) * 32) me minus1U;
       do (sme, smi) <- find_min_superblock bp (sa + 1) sb me minus1U;
       do (bme, bmi) <- (if sme <? me then excess_rmq_in_superblock bp (smi * 32) ((smi + 1) * 32) bme bmi else Ok (bme, bmi));
       excess_rmq_in_superblock bp (sb * 32) bb bme bmi) = Ok (mv, mi) /\
    scan M (ba + 1) bb me minus1U mv mi.
Proof.
  intros H1 H2 sa sb. pose proof (geom l Hpos) as (G1 & G2 & G3 & G4 & G5 & G6).
  pose proof (Z.div_mod (ba + 1) 32 ltac:(lia)) as D1. pose proof (Z.mod_pos_bound (ba + 1) 32 ltac:(lia)) as D2. fold sa in D1.
  pose proof (Z.div_mod bb 32 ltac:(lia)) as D3. pose proof (Z.mod_pos_bound bb 32 ltac:(lia)) as D4. fold sb in D3.
  destruct (Z.eqb_spec sa sb) as [Es|Es].
  - apply superblock_scan; [lia|lia|]. intros Hlt. fold sa. apply (Z.div_unique (bb - 1) 32 sa (bb - 1 - 32 * sa)); lia.
  - destruct (superblock_scan (ba + 1) ((sa + 1) * 32) me minus1U) as (m1 & i1 & E1 & S1); [lia|lia| |].
    { intros _. fold sa. apply (Z.div_unique _ 32 sa 31); lia. }
    rewrite E1. cbn [bind].
    assert (Hm1 : m1 <= me) by (destruct S1 as [(-> & _)|(_ & X & _)]; lia).
    destruct (superblocks_scan (sa + 1) sb me m1 i1) as (m2 & i2 & E2 & S2); [lia|lia|exact Hm1|].
    destruct (find_min_superblock bp (sa + 1) sb me minus1U) as [[sme smi]|]; [|discriminate]. cbn [bind] in *. rewrite E2. cbn [bind].
    destruct (superblock_scan (sb * 32) bb m2 i2) as (m3 & i3 & E3 & S3); [lia|lia| |].
    { intros Hlt. rewrite Z.div_mul by lia. apply (Z.div_unique _ 32 sb (bb - 1 - 32 * sb)); lia. }
    exists m3, i3. split; [exact E3|].
    apply (scan_app M (ba + 1) (32 * sb) (sb * 32) bb me minus1U m2 i2 m3 i3); [lia|lia| |exact S3].
    apply (scan_app M (ba + 1) ((sa + 1) * 32) (32 * (sa + 1)) (32 * sb) me minus1U m1 i1 m2 i2); [lia|lia|exact S1|exact S2].
Qed.

Lemma rmq_blocks_ok a ba bb mi : room l -> 0 <= ba < bb -> 256 * bb < zlen l -> 0 <= a <= 256 * (ba + 1) ->
  argmin (E l) a (256 * (ba + 1)) mi ->
  exists mi', excess_rmq_blocks true bp ba bb (E l mi) mi = Ok (E l mi', mi') /\ argmin (E l) a (256 * bb) mi'.
Proof.
  intros HR H1 H2 Ha (A1 & A2 & A3). pose proof HB as (HRs & Hsz & HN & _). pose proof (geom l Hpos) as (G1 & G2 & G3 & G4 & G5 & G6).
  unfold excess_rmq_blocks, superblock_size, bp_block_size.
  destruct (all_blocks_scan ba bb (E l mi) H1 H2) as (bme & bmi & E1 & HS). cbv zeta in E1. rewrite E1. cbn [bind]. clear E1.
  assert (HM : forall p, 256 * (ba + 1) <= p <= 256 * bb -> ba + 1 < bb -> exists b, ba + 1 <= b < bb /\ 256 * b <= p <= 256 * (b + 1) /\
     (b = p / 256 \/ p = 256 * bb) /\ M b <= E l p).
  { intros p Hp Hlt. pose proof (Z.div_mod p 256 ltac:(lia)). pose proof (Z.mod_pos_bound p 256 ltac:(lia)).
    exists (if p =? 256 * bb then bb - 1 else p / 256). set (b := if p =? 256 * bb then bb - 1 else p / 256).
    assert (Hb : ba + 1 <= b < bb /\ 256 * b <= p <= 256 * (b + 1) /\ (b = p / 256 \/ p = 256 * bb)) by (unfold b; destruct (Z.eqb_spec p (256 * bb)); lia).
    clearbody b. split; [lia|]. split; [lia|]. split; [lia|]. destruct (M_min b ltac:(lia)) as [_ X]. apply X. unfold blk_end. lia. }
  destruct HS as [(-> & -> & B)|(-> & B1 & B2 & B3 & B4)].
  - rewrite Z.ltb_irrefl. exists mi. split; [reflexivity|]. split; [lia|]. split; [|exact A3]. intros p Hp.
    destruct (Z_le_gt_dec p (256 * (ba + 1))); [apply A2; lia|].
    destruct (HM p ltac:(lia) ltac:(lia)) as (b & Hb & _ & _ & X). specialize (B b ltac:(lia)). lia.
  - apply Z.ltb_lt in B1 as B1'. rewrite B1'. rewrite (get_block_excess_ok l) by (auto; try lia; apply HN; lia). cbn [bind].
    assert (Ew : bp_words bp = pack l) by (unfold bp_words; rewrite (proj1 HRs); reflexivity). rewrite Ew.
    destruct (block_scan l (bmi * 4) ((bmi + 1) * 4) (E l mi) mi) as (m & i & Em & HSc & _); [exact HR|lia|lia| |].
    { intros _. rewrite Z.div_mul by lia. apply (Z.div_unique _ 4 bmi 3); lia. }
    replace (64 * (bmi * 4)) with (256 * bmi) in * by lia. rewrite Em. cbn [bind].
    specialize (HSc ltac:(lia)). replace (64 * ((bmi + 1) * 4) + 1) with (256 * (bmi + 1) + 1) in HSc by lia.
    destruct (M_min bmi ltac:(lia)) as [(q & Hq & Eq) Hmin]. unfold blk_end in Hq, Hmin. rewrite Z.min_l in Hq, Hmin by lia.
    destruct HSc as [(_ & _ & C)|(-> & C1 & C2 & C3 & C4)]; [specialize (C q ltac:(lia)); lia|].
    assert (Ei : E l i = M bmi).
    { specialize (Hmin i ltac:(lia)). specialize (C3 q ltac:(lia)). lia. }
    rewrite Ei, Z.eqb_refl. unfold assert_. cbv iota. exists i. rewrite Ei. split; [reflexivity|]. split; [lia|]. rewrite Ei.
    split; intros p Hp; (destruct (Z_le_gt_dec p (256 * (ba + 1))); [specialize (A2 p ltac:(lia)); lia|]).
    + destruct (HM p ltac:(lia) ltac:(lia)) as (b & Hb & _ & _ & X). specialize (B3 b ltac:(lia)). lia.
    + destruct (Z_lt_le_dec p (256 * bmi)) as [Hl|Hl].
      * destruct (HM p ltac:(lia) ltac:(lia)) as (b & Hb & Hr & _ & X). specialize (B4 b ltac:(lia)). lia.
      * rewrite <- Ei. apply C4. lia.
Qed.
End Rmq.

Lemma testbit_ones_shift k s : 0 <= s < 64 -> 0 <= k < 64 -> Z.testbit (u64 (Z.shiftl (2 ^ 64 - 1) s)) k = (s <=? k).
Proof.
  intros Hs Hk. unfold u64. rewrite Z.mod_pow2_bits_low by lia. rewrite Z.shiftl_spec by lia.
  change (2 ^ 64 - 1) with (Z.ones 64). destruct (Z.leb_spec s k); [rewrite Z.ones_spec_low by lia; reflexivity|].
  apply Z.testbit_neg_r. lia.
Qed.

Lemma excess_rmq_ok l bp a b : bp_ok l bp -> room l -> 0 <= a <= b -> b <= zlen l ->
  exists p, excess_rmq true bp a b = Ok (p, E l p) /\ argmin (E l) a b p.
Proof.
  intros HB HR Hab Hb. pose proof HB as (HRs & Hsz & HN & HP). unfold excess_rmq.
  replace (a <=? b) with true by lia. unfold assert_ at 1. cbv iota.
  rewrite (excess_ok l) by (auto; lia). cbn [bind].
  destruct (Z.eqb_spec a b) as [->|Hne].
  { exists b. split; [reflexivity|]. split; [lia|]. split; intros j Hj; [replace j with b by lia; lia|lia]. }
  assert (Hpos : 0 < zlen l) by lia. destruct (HP Hpos) as (HM & H & HI & HT). clear HP.
  pose proof (geom l Hpos) as (G1 & G2 & G3 & G4 & G5 & G6). unfold nw in *.
  assert (Ew : bp_words bp = pack l) by (unfold bp_words; rewrite (proj1 HRs); reflexivity). rewrite Ew.
  pose proof (Z.div_mod a 64 ltac:(lia)) as Da. pose proof (Z.mod_pos_bound a 64 ltac:(lia)) as Ra.
  pose proof (Z.div_mod (b - 1) 64 ltac:(lia)) as Db. pose proof (Z.mod_pos_bound (b - 1) 64 ltac:(lia)) as Rb.
  set (wa := a / 64) in *. set (wb := (b - 1) / 64) in *. set (sa := a mod 64) in *. 
  rewrite W_rd by lia. cbn [bind]. rewrite shr_ok by lia. cbn [bind].
  set (len := Z.min (64 - sa) (b - a)). assert (Hlen : 0 < len <= 64) by lia.
  assert (A0 : argmin (E l) a a a) by (split; [lia|]; split; intros j Hj; [replace j with a by lia; lia|lia]).
  assert (Tw : forall k i, 0 <= k -> 0 <= i < 64 -> Z.testbit (W (pack l) k) i = zbit l (64 * k + i)) by (intros k i Hk Hi; apply (words_ok_pack l); lia).
  (* the first word *)
  assert (St1 : exists w1, (if len =? 64 then Ok (Z.shiftr (W (pack l) wa) sa)
       else do ones <- shl (2 ^ 64 - 1) len; Ok (Z.lor (Z.shiftr (W (pack l) wa) sa) ones)) = Ok w1 /\ is_u64 w1 /\
       forall k, 0 <= k < 64 -> Z.testbit w1 k = if k <? len then zbit l (a + k) else true).
  { assert (U : is_u64 (Z.shiftr (W (pack l) wa) sa)) by (apply shiftr_is; [lia|apply W_pack_u64]).
    assert (TS : forall k, 0 <= k -> k + sa < 64 -> Z.testbit (Z.shiftr (W (pack l) wa) sa) k = zbit l (a + k)).
    { intros k Hk Hks. rewrite Z.shiftr_spec by lia. rewrite Tw by lia. f_equal. lia. }
    destruct (Z.eqb_spec len 64) as [E64|N64].
    - eexists. split; [reflexivity|]. split; [exact U|]. intros k Hk. replace (k <? len) with true by lia. apply TS; lia.
    - rewrite shl_ok by lia. cbn [bind]. eexists. split; [reflexivity|]. split; [apply lor_is; [exact U|apply is_u64_u64]|].
      intros k Hk. rewrite Z.lor_spec, testbit_ones_shift by lia. destruct (Z.ltb_spec k len).
      + replace (len <=? k) with false by lia. rewrite orb_false_r. apply TS; lia.
      + replace (len <=? k) with true by lia. apply orb_true_r. }
  destruct St1 as (w1 & Ew1 & U1 & T1). rewrite Ew1. cbn [bind].
  destruct (pad_scan l w1 a len (E l a) a U1 ltac:(lia) Hlen ltac:(lia) HR T1) as (m1 & i1 & E1 & S1). rewrite E1. cbn [bind].
  apply (scan_argmin _ a) in S1; [|lia|lia|exact A0]. destruct S1 as [-> S1]. rewrite Z.add_simpl_r in S1.
  destruct (Z.eqb_spec wa wb) as [Ewb|Nwb].
  { exists i1. split; [reflexivity|]. replace b with (a + len) by lia. exact S1. }
  assert (Elen : a + len = 64 * (wa + 1)) by lia. rewrite Elen in S1.
  rewrite i32_small by lia. rewrite int32_ok.
  2:{ pose proof (HR (a + len) ltac:(lia)). lia. }
  cbn [bind]. replace (E l (a + len) + (64 - len) - (64 - len)) with (E l (64 * (wa + 1))) by (rewrite Elen; lia).
  unfold bp_block_size.
  pose proof (Z.div_mod wa 4 ltac:(lia)) as Dba. pose proof (Z.mod_pos_bound wa 4 ltac:(lia)) as Rba.
  pose proof (Z.div_mod wb 4 ltac:(lia)) as Dbb. pose proof (Z.mod_pos_bound wb 4 ltac:(lia)) as Rbb.
  set (ba := wa / 4) in *. set (bb := wb / 4) in *.
  (* up to the last word *)
  assert (St2 : exists i2, (if ba =? bb
      then excess_rmq_in_block true (pack l) (wa + 1) wb (E l (64 * (wa + 1))) (E l i1) i1
      else
        do (_, min_exc, min_exc_idx) <- excess_rmq_in_block true (pack l) (wa + 1) ((ba + 1) * 4) (E l (64 * (wa + 1))) (E l i1) i1;
        do (min_exc, min_exc_idx) <- excess_rmq_blocks true bp ba bb min_exc min_exc_idx;
        do cur_exc <- get_block_excess (bp_rs bp) bb;
        excess_rmq_in_block true (pack l) (bb * 4) wb cur_exc min_exc min_exc_idx) = Ok (E l (64 * wb), E l i2, i2) /\
      argmin (E l) a (64 * wb) i2).
  { destruct (Z.eqb_spec ba bb) as [Eb|Nb].
    - apply block_argmin; [exact HR|lia|lia|lia| |exact S1]. intros Hlt.
      transitivity ba; [symmetry; apply (Z.div_unique _ 4 ba (wa + 1 - 4 * ba)); lia|apply (Z.div_unique _ 4 ba (wb - 1 - 4 * ba)); lia].
    - destruct (block_argmin l a (wa + 1) ((ba + 1) * 4) i1) as (j1 & F1 & A1); [exact HR|lia|lia|lia| |exact S1|].
      { intros Hlt. transitivity ba; [symmetry; apply (Z.div_unique _ 4 ba (wa + 1 - 4 * ba)); lia|apply (Z.div_unique _ 4 ba 3); lia]. }
      rewrite F1. cbn [bind]. replace (64 * ((ba + 1) * 4)) with (256 * (ba + 1)) in A1 by lia.
      destruct (rmq_blocks_ok l bp H HB Hpos HI HT a ba bb j1) as (j2 & F2 & A2); [exact HR|lia|lia|lia|exact A1|].
      rewrite F2. cbn [bind]. rewrite (get_block_excess_ok l) by (auto; unfold nw; try lia; apply HN; lia). cbn [bind].
      replace (256 * bb) with (64 * (bb * 4)) in * by lia.
      apply block_argmin; [exact HR|lia|lia|lia| |exact A2].
      intros Hlt. rewrite Z.div_mul by lia. apply (Z.div_unique _ 4 bb (wb - 1 - 4 * bb)); lia. }
  destruct St2 as (i2 & E2 & A2). rewrite E2. cbn [bind].
  (* the last word *)
  rewrite W_rd by lia. cbn [bind].
  set (lb := b - 64 * wb). assert (Hlb : 0 < lb <= 64) by lia.
  assert (Emb : b mod 64 = if lb =? 64 then 0 else lb).
  { destruct (Z.eqb_spec lb 64).
    - symmetry. apply (Z.mod_unique b 64 (wb + 1) 0); lia.
    - symmetry. apply (Z.mod_unique b 64 wb lb); lia. }
  assert (St3 : exists w3, (if b mod 64 =? 0 then Ok (W (pack l) wb)
       else do ones <- shl (2 ^ 64 - 1) (b mod 64); Ok (Z.lor (W (pack l) wb) ones)) = Ok w3 /\ is_u64 w3 /\
       forall k, 0 <= k < 64 -> Z.testbit w3 k = if k <? lb then zbit l (64 * wb + k) else true).
  { rewrite Emb. destruct (Z.eqb_spec lb 64) as [E64|N64].
    - rewrite Z.eqb_refl. eexists. split; [reflexivity|]. split; [apply W_pack_u64|]. intros k Hk. replace (k <? lb) with true by lia. apply Tw; lia.
    - replace (lb =? 0) with false by lia. rewrite shl_ok by lia. cbn [bind]. eexists. split; [reflexivity|].
      split; [apply lor_is; [apply W_pack_u64|apply is_u64_u64]|]. intros k Hk. rewrite Z.lor_spec, testbit_ones_shift, Tw by lia.
      destruct (Z.ltb_spec k lb); [replace (lb <=? k) with false by lia; apply orb_false_r|replace (lb <=? k) with true by lia; apply orb_true_r]. }
  destruct St3 as (w3 & Ew3 & U3 & T3). rewrite Ew3. cbn [bind]. rewrite (Z.mul_comm wb 64).
  destruct (pad_scan l w3 (64 * wb) lb (E l i2) i2 U3 ltac:(lia) Hlb ltac:(lia) HR T3) as (m3 & i3 & E3 & S3). rewrite E3. cbn [bind].
  apply (scan_argmin _ a) in S3; [|lia|lia|exact A2]. destruct S3 as [-> S3]. replace (64 * wb + lb + 1 - 1) with b in S3 by lia.
  pose proof (proj1 S3). replace (a <=? i3) with true by lia. unfold assert_ at 1. cbv iota.
  rewrite (excess_ok l) by (auto; lia). cbn [bind]. rewrite Z.eqb_refl. unfold assert_. cbv iota. eauto.
Qed.

Lemma bal_room l : bal l -> zlen l < 2 ^ 31 -> room l.
Proof.
  intros HL Hs p Hp. destruct (bal_excess l HL) as [L0 L1]. specialize (L1 p Hp).
  pose proof (E_bound l p ltac:(lia)). pose proof (E_lip l p (zlen l) ltac:(lia)). lia.
Qed.

Lemma bp_rmq uninit h h0 l : zlen l < 2 ^ 31 -> prefix_ok l ->
  (bal l \/ forall p, 0 <= p <= zlen l -> depth l p < 2 ^ 31 - 64) ->
  exists bp, bp_build uninit (bv_range l) h h0 = Ok bp /\
  forall a b, 0 <= a <= b -> b <= zlen l -> exists p, excess_rmq true bp a b = Ok (p, depth l p) /\ leftmost_min_depth l a b p.
Proof.
  intros Hs HP HD. pose proof (proj1 (prefix_ok_nonneg l) HP) as HN. destruct (bp_build_ok l uninit h h0 Hs HN) as (bp & Eb & HB).
  exists bp. split; [exact Eb|]. intros a b Ha Hb.
  assert (HR : room l).
  { destruct HD as [HD|HD]; [apply bal_room; auto|]. intros p Hp. specialize (HN p Hp). specialize (HD p Hp). rewrite <- E_depth in HD by lia. lia. }
  destruct (excess_rmq_ok l bp a b HB HR Ha Hb) as (p & Ep & Hp). exists p.
  destruct (argmin_leftmost l a b p ltac:(lia) Hb Hp) as [X1 X2]. rewrite <- X2. auto.
Qed.

(** all ones: the padding of the last word overflows *)
Lemma E_ones n p : 0 <= p <= n -> E (repeat true (Z.to_nat n)) p = p.
Proof.
  intros [Hp0 Hp]. revert Hp. apply (natlike_ind (fun p => p <= n -> E (repeat true (Z.to_nat n)) p = p)); [intros _; apply E_0| |exact Hp0].
  intros x Hx IH Hx2. unfold Z.succ in *. rewrite E_succ, IH by lia.
  rewrite zbit_repeat. replace ((0 <=? x) && (x <? Z.of_nat (Z.to_nat n)) && true) with true by lia. reflexivity.
Qed.

Lemma ones_word : excess_rmq_in_word true (Z.ones 64) (2 ^ 31 - 2) (2 ^ 31 - 2) (2 ^ 31 - 2) (2 ^ 31 - 2) = Ub SignedOverflow.
Proof. vm_compute. reflexivity. Qed.
Lemma ones64_u64 : is_u64 (Z.ones 64).
Proof. vm_compute. split; [discriminate|reflexivity]. Qed.

Lemma rmq_overflow_gen l bp : zlen l = 2 ^ 31 - 1 -> E l (2 ^ 31 - 2) = 2 ^ 31 - 2 -> zbit l (2 ^ 31 - 2) = true -> bp_ok l bp ->
  excess_rmq true bp (2 ^ 31 - 2) (2 ^ 31 - 1) = Ub SignedOverflow.
Proof.
  intros Hl EA ZA HB.
  destruct HB as (HRs & Hsz & _ & _). unfold excess_rmq. change (2 ^ 31 - 2 <=? 2 ^ 31 - 1) with true. unfold assert_ at 1. cbv iota.
  rewrite (excess_ok l) by (auto; lia). cbn [bind]. rewrite EA.
  change (2 ^ 31 - 2 =? 2 ^ 31 - 1) with false. cbv iota.
  assert (Ew : bp_words bp = pack l) by (unfold bp_words; rewrite (proj1 HRs); reflexivity). rewrite Ew.
  pose proof (geom l ltac:(lia)) as (G1 & G2 & _). unfold nw in *.
  change ((2 ^ 31 - 2) / 64) with (2 ^ 25 - 1). change ((2 ^ 31 - 2) mod 64) with 62. rewrite W_rd by lia. cbn [bind].
  rewrite shr_ok by lia. cbn [bind]. change (Z.min (64 - 62) (2 ^ 31 - 1 - (2 ^ 31 - 2))) with 1. change (1 =? 64) with false. cbv iota.
  rewrite shl_ok by lia. cbn [bind].
  assert (Z.lor (Z.shiftr (W (pack l) (2 ^ 25 - 1)) 62) (u64 (Z.shiftl (2 ^ 64 - 1) 1)) = Z.ones 64) as ->.
  { apply bits_inj64; [apply lor_is; [apply shiftr_is; [lia|apply W_pack_u64]|apply is_u64_u64]|exact ones64_u64|].
    intros k Hk. rewrite Z.lor_spec, testbit_ones_shift, Z.ones_spec_low by lia. destruct (Z.leb_spec 1 k); [apply orb_true_r|].
    rewrite orb_false_r. replace k with 0 by lia. rewrite Z.shiftr_spec by lia. change (0 + 62) with 62.
    rewrite (proj2 (proj2 (words_ok_pack l))) by lia. rewrite <- ZA. f_equal. }
  rewrite ones_word. reflexivity.
Qed.

Lemma rmq_overflow uninit h h0 : exists l bp, zlen l = 2 ^ 31 - 1 /\ prefix_ok l /\
  bp_build uninit (bv_range l) h h0 = Ok bp /\ excess_rmq true bp (2 ^ 31 - 2) (2 ^ 31 - 1) = Ub SignedOverflow.
Proof.
  assert (X : exists l, zlen l = 2 ^ 31 - 1 /\ nonneg l /\ E l (2 ^ 31 - 2) = 2 ^ 31 - 2 /\ zbit l (2 ^ 31 - 2) = true).
  { exists (repeat true (Z.to_nat (2 ^ 31 - 1))). rewrite zlen_repeat. split; [lia|]. split.
    - intros p Hp. rewrite zlen_repeat in Hp. rewrite E_ones; lia.
    - split; [apply E_ones; lia|]. rewrite zbit_repeat. lia. }
  destruct X as (l & Hl & HN & EA & ZA). destruct (bp_build_ok l uninit h h0 ltac:(lia) HN) as (bp & Eb & HB).
  exists l, bp. split; [exact Hl|]. split; [apply prefix_ok_nonneg; exact HN|]. split; [exact Eb|]. apply rmq_overflow_gen with l; auto.
Qed.

Lemma char_sign : exists l bp, bal l /\ bp_build 0 (bv_range l) false false = Ok bp /\
  excess_rmq true bp 16 32 = Ok (32, 0) /\ excess_rmq false bp 16 32 = Ok (24, 8).
Proof.
  exists (repeat true 16 ++ repeat false 16).
  destruct (bp_build 0 (bv_range (repeat true 16 ++ repeat false 16)) false false) as [bp|] eqn:Eb; [|vm_compute in Eb; discriminate].
  exists bp. split; [apply balb_sound; vm_compute; reflexivity|]. split; [reflexivity|].
  vm_compute in Eb. injection Eb as <-. vm_compute. auto.
Qed.
