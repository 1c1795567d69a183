(** The lengths of the select indices and of the range minimum tree. *)
From Verif Require Import Base Spec Lib S_BitVector P_BvLib P_RsBuild P_RsQuery P_Darray P_BitVector P_BpBuild P_BpSpec P_EliasFano P_EliasFano2 P_Gamma P_Typed P_RsGen.
From Verif Require Import M_Broadword M_BitVector M_RsBitVector M_Darray M_Bp S_Bp S_Darray S_EliasFano M_Gamma.

Lemma hints_len neg pairs R : forall n i hints hints', hints_gen_loop neg pairs n i (1024 * (zlen hints + 1)) hints = Ok hints' ->
  (forall j r, i < j <= i + Z.of_nat n -> block_rank_gen neg pairs j = Ok r -> r <= R) -> (hints = [] \/ 1024 * zlen hints < R) ->
  hints' = [] \/ 1024 * zlen hints' < R.
Proof.
  induction n as [|n IH]; intros i hints hints' E B H; cbn [hints_gen_loop] in E; [injection E as <-; exact H|].
  destruct (block_rank_gen neg pairs (i + 1)) as [r|] eqn:Er; [|discriminate]. cbn [bind] in E.
  pose proof (B (i + 1) r ltac:(lia) Er) as Hr. destruct (Z.ltb_spec (1024 * (zlen hints + 1)) r) as [C|C].
  - apply (IH (i + 1) (hints ++ [i])).
    + rewrite zlen_app. change (zlen [i]) with 1. rewrite <- E. f_equal. change select_ones_per_hint with 1024. lia.
    + intros j r' Hj. apply B. lia.
    + right. rewrite zlen_app. change (zlen [i]) with 1. lia.
  - apply (IH (i + 1) hints); auto. intros j r' Hj. apply B. lia.
Qed.
Lemma hints_gen_len neg l pairs hints : build_pairs (pack l) = Ok pairs -> hints_gen neg pairs = Ok hints ->
  zlen hints <= Z.max 0 (G neg l (8 * nb l) - 1) / 1024 + 1.
Proof.
  intros Ep E. destruct (build_pairs_ok l) as (p & Ep' & L & P1 & P2). rewrite Ep in Ep'. injection Ep' as <-.
  replace (nb l + 1 - 1) with (nb l) in P1 by lia. pose proof (nb_nonneg l) as Nb. unfold hints_gen in E. rewrite (num_blocks_nb l) in E by exact L.
  destruct (hints_gen_loop neg pairs (Z.to_nat (nb l)) 0 select_ones_per_hint []) as [hs|] eqn:Eh; [|discriminate]. cbn [bind] in E. injection E as <-.
  assert (Q : hs = [] \/ 1024 * zlen hs < G neg l (8 * nb l)).
  { apply (hints_len neg pairs (G neg l (8 * nb l)) (Z.to_nat (nb l)) 0 [] hs Eh); [|left; reflexivity].
    intros j r Hj Er. rewrite (block_rank_ok neg l pairs j (conj L (conj P1 P2))) in Er by lia. injection Er as <-. apply G_mono. lia. }
  rewrite zlen_app. change (zlen [nb l]) with 1. pose proof (zlen_nonneg hs).
  destruct Q as [->|Q]; [change (zlen (@nil Z)) with 0; pose proof (Z.div_pos (Z.max 0 (G neg l (8 * nb l) - 1)) 1024); lia|].
  rewrite Z.max_r by lia. clear - Q H. set (g := G neg l (8 * nb l)) in *. clearbody g. dlia.
Qed.

Lemma G_zeros l : G true l (8 * nb l) <= Z.of_nat (count false l) + 511.
Proof.
  pose proof (nb_nonneg l). rewrite G_compl by lia. pose proof (nb_words l) as Nw. rewrite G_words by lia. pose proof (words_bits l) as Hb.
  assert (C : Z.of_nat (count true l) + Z.of_nat (count false l) = zlen l).
  { pose proof (count_compl l). unfold zlen. lia. }
  lia.
Qed.
Lemma rs_hints_space l h h0 rs : rs_build (bv_range l) h h0 = Ok rs ->
  zlen (rs_hints rs) <= (if h then Z.of_nat (count true l) / 1024 + 1 else 0) /\
  zlen (rs_hints0 rs) <= (if h0 then (Z.of_nat (count false l) + 510) / 1024 + 1 else 0).
Proof.
  intros E. rewrite bv_range_ok in E. rewrite rs_build_eq in E. unfold rs_build_gen, canonical in E. cbn [bv_words] in E.
  destruct (build_pairs (pack l)) as [pairs|] eqn:Ep; [|discriminate]. cbn [bind] in E.
  destruct (if h then hints_gen false pairs else Ok []) as [hs|] eqn:E1; [|discriminate]. cbn [bind] in E.
  destruct (if h0 then hints_gen true pairs else Ok []) as [hs0|] eqn:E2; [|discriminate]. cbn [bind] in E.
  injection E as <-. cbn [rs_hints rs_hints0]. split.
  - destruct h; [|injection E1 as <-; reflexivity]. apply (hints_gen_len false l) in E1; [|exact Ep].
    pose proof (nb_words l). rewrite G_words in E1 by lia. clear - E1. eapply Z.le_trans; [exact E1|].
    apply Z.add_le_mono_r. apply Z.div_le_mono; lia.
  - destruct h0; [|injection E2 as <-; reflexivity]. apply (hints_gen_len true l) in E2; [|exact Ep].
    pose proof (G_zeros l). eapply Z.le_trans; [exact E2|]. apply Z.add_le_mono_r. apply Z.div_le_mono; lia.
Qed.

Lemma darray_space neg l : zlen l < 2 ^ 63 -> exists d, darray_build neg (bv_range l) = Ok d /\
  let m := Z.of_nat (count (negb neg) l) in
  zlen (da_blocks d) = (m + 1023) / 1024 /\ zlen (da_subs d) = (m + 31) / 32 /\ zlen (da_ovf d) <= m /\ 64 * zlen (da_ovf d) <= zlen l.
Proof.
  intros H. rewrite bv_range_ok. destruct (darray_build_ok neg l H) as (d & E & _). exists d. split; [exact E|].
  destruct (darray_typed neg l d H E) as (_ & _ & _ & _ & A & B & C). cbv zeta.
  split; [exact A|]. split; [exact B|]. split; [exact C|]. apply (darray_ovf neg l d H E).
Qed.
Lemma darray64_space gr skips : Forall (fun s => 0 <= s <= 64) skips -> zlen skips < 2 ^ 57 -> exists b d,
  append1_all gr d64_new skips = Ok b /\ d64_build b = Ok d /\
  zlen (d64_blocks d) = (zlen skips + 1023) / 1024 /\ zlen (d64_subs d) = (zlen skips + 63) / 64 /\
  bv_size (d64_bits d) = sum skips + zlen skips.
Proof.
  intros F HL. destruct (d64_all gr skips F) as (b & d & E & D & _). exists b, d. split; [exact E|]. split; [exact D|].
  destruct (d64_parts gr skips b d F ltac:(lia) E D) as ((A & B & _ & C) & _). split; [exact A|]. split; [exact B|].
  rewrite C. cbn [canonical bv_size]. clear - F. induction F as [|s skips Hs F IH]; [reflexivity|].
  unfold d64_seq, sum in *. cbn [flat_map fold_right]. rewrite !zlen_app, zlen_repeat, IH, (zlen_cons s). change (zlen [true]) with 1. lia.
Qed.
Lemma bp_space uninit h h0 l : zlen l < 2 ^ 31 -> prefix_ok l -> 0 < zlen l -> exists bp, bp_build uninit (bv_range l) h h0 = Ok bp /\
  zlen (bp_block_excess_min bp) = (zlen l + 255) / 256 /\
  (let leaves := (zlen l + 8191) / 8192 in
   leaves <= bp_internal_nodes bp < 2 * leaves /\ zlen (bp_superblock_excess_min bp) = bp_internal_nodes bp + leaves).
Proof.
  intros H HP Hl. apply prefix_ok_nonneg in HP. rewrite bv_range_ok. destruct (bp_build_ok l uninit h h0 H HP) as (bp & E & HB). rewrite bv_range_ok in E.
  exists bp. split; [exact E|]. destruct HB as (HR & _ & _ & HB). specialize (HB Hl). destruct HB as ((M1 & _) & H' & Hi & (T1 & T2 & T3 & _)).
  pose proof (geom l Hl) as (G1 & G2 & G3 & G4 & G5 & G6). rewrite T3, <- Hi, M1.
  assert (Nb : nblk l = (zlen l + 255) / 256) by (clear - G1 G2 G3 G4; dlia).
  assert (Ns : nsup l = (zlen l + 8191) / 8192) by (clear - G1 G2 G3 G4; dlia).
  cbv zeta. rewrite <- Ns. split; [exact Nb|]. split; [|reflexivity]. rewrite Hi. split; [exact T2|].
  assert (Q : exists K, bp_internal_nodes bp = 2 ^ K /\ (K = 0 \/ 0 <= K /\ 2 ^ (K - 1) < nsup l)).
  { clear Hi. unfold bp_build in E. destruct (rs_build (canonical l) h h0) as [rs|] eqn:Er; [|discriminate]. cbn [bind] in E.
    destruct (rs_build_ok l h h0) as (rs' & Er' & Rk). rewrite Er in Er'. injection Er' as <-. assert (E0 : rs_bv rs = canonical l) by apply Rk.
    unfold build_min_tree in E. rewrite E0 in E. cbn [canonical bv_size bv_words] in E. replace (zlen l =? 0) with false in E by lia.
    destruct (block_mins_loop _ _ _ _ _ _) as [[mins bm]|]; [|discriminate]. cbn [bind] in E.
    destruct (push_block_min mins bm) as [mins2|]; [|discriminate]. cbn [bind] in E.
    unfold assert_ in E. destruct (_ =? zlen mins2); [|discriminate].
    unfold bp_block_size, superblock_size, ceil_div in E. fold (nw l) in E.
    replace ((nw l + 4 - 1) / 4) with (nblk l) in E by (unfold nblk; f_equal; lia).
    replace ((nblk l + 32 - 1) / 32) with (nsup l) in E by (unfold nsup; f_equal; lia).
    destruct (complete_leaves_ok (nsup l) ltac:(lia) 64 0) as (K & EK & RK & NK & PK); [lia|lia|auto|].
    change (2 ^ 0) with 1 in EK. rewrite EK in E. cbn [bind] in E.
    destruct (leaves_loop _ _ _ _ _) as [ls|]; [|discriminate]. cbn [bind] in E.
    destruct (parents_loop _ _) as [t|]; [|discriminate]. cbn [bind] in E. injection E as <-. cbn [bp_internal_nodes]. exists K. split; [reflexivity|].
    destruct PK; [left; auto|right; split; [lia|auto]]. }
  destruct Q as (K & EK & PK). rewrite <- Hi, EK. destruct PK as [->|[K0 PK]]; [change (2 ^ 0) with 1; lia|].
  destruct (Z.eq_dec K 0) as [->|]; [change (2 ^ 0) with 1; lia|].
  replace K with (K - 1 + 1) by lia. rewrite Z.pow_add_r by lia. lia.
Qed.
