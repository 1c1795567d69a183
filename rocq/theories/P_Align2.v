From Verif Require Import Base Spec Lib S_BitVector P_BvLib P_RsBuild P_RsQuery P_Darray P_RsGen.
From Verif Require Import P_BvRank P_Builder P_BitVector P_EliasFano P_EliasFano2 P_Gamma P_Util P_BpBuild P_BpSpec P_Cartesian P_Mapper P_Typed P_Space2.
From Verif Require Import M_Broadword M_BitVector M_RsBitVector M_Darray M_EliasFano M_Gamma M_Util M_Bp M_Cartesian M_Topk.
From Verif Require Import S_Darray S_EliasFano S_Gamma S_Util S_Bp S_Cartesian M_Mapper S_Mapper S_Align P_Align.

Lemma iff_maps {A} (M : mappable A) ok x : aligned_iff M ok -> image M x -> maps_aligned M x (ok x).
Proof. intros H (T & S) flags addr post Hf Ha. apply H; auto. Qed.

Lemma da_maps neg l : zlen l < 2 ^ 63 -> exists d, darray_build neg (bv_range l) = Ok d /\
  maps_aligned da_map d (fills ((Z.of_nat (count (negb neg) l) + 31) / 32)).
Proof.
  intros H. destruct (darray_space neg l H) as (d & E & _ & B & _). exists d. split; [exact E|].
  rewrite bv_range_ok in E. destruct (da_image neg l H) as (d' & E' & I). rewrite E in E'. injection E' as <-.
  rewrite <- B. apply (iff_maps da_map _ d (proj1 alignments) I).
Qed.
Lemma bp_maps uninit h h0 l : zlen l < 2 ^ 31 -> prefix_ok l -> 0 < zlen l -> 0 <= uninit < 2 ^ 64 ->
  exists bp, bp_build uninit (bv_range l) h h0 = Ok bp /\ maps_aligned bp_map bp (fills ((zlen l + 255) / 256)).
Proof.
  intros H HP Hl Hu. destruct (bp_space uninit h h0 l H HP Hl) as (bp & E & B & _). exists bp. split; [exact E|].
  apply prefix_ok_nonneg in HP. rewrite bv_range_ok in E. destruct (bp_image l uninit h h0 H HP Hu) as (bp' & E' & I). rewrite E in E'. injection E' as <-.
  rewrite <- B. refine (iff_maps bp_map (fun bp => fills (zlen (bp_block_excess_min bp))) bp _ I). apply alignments.
Qed.
Lemma nonneg_prefix l : nonneg l -> prefix_ok l.
Proof. intros H. apply prefix_ok_nonneg. exact H. Qed.
Lemma ct_maps {T} (comp : T -> T -> bool) gr uninit e v : 2 * zlen v + 2 < 2 ^ 31 -> 0 <= uninit < 2 ^ 64 ->
  exists ct, ct_build gr uninit comp e v = Ok ct /\ maps_aligned ct_map ct (fills ((2 * zlen v + 257) / 256)) /\
  zlen (bp_block_excess_min ct) = (2 * zlen v + 257) / 256.
Proof.
  intros Hn Hu. destruct (ct_image comp gr uninit e v Hn Hu) as (ct & E & I). exists ct. split; [exact E|].
  pose proof (seq_len comp v) as SL. destruct (ct_build_bits comp gr uninit e v) as (r & Er & E').
  pose proof (zlen_nonneg v). destruct (bp_space uninit false true (seq_of comp v) ltac:(lia) (nonneg_prefix _ (seq_nonneg comp v)) ltac:(lia)) as (bp & Eb & B & _).
  assert (X : Ok ct = Ok bp) by congruence. injection X as <-. rewrite SL in B. replace (2 * zlen v + 2 + 255) with (2 * zlen v + 257) in B by lia.
  split; [|exact B]. rewrite <- B. refine (iff_maps ct_map (fun bp => fills (zlen (bp_block_excess_min bp))) ct _ I). apply alignments.
Qed.
Lemma tk_maps gr uninit lt v : 2 * zlen v + 2 < 2 ^ 31 -> Forall (fun x => 0 <= x < 2 ^ 64) v -> 0 <= uninit < 2 ^ 64 ->
  exists tk, tk_build gr uninit lt v = Ok tk /\ maps_aligned tk_map tk (fills ((2 * zlen v + 257) / 256)).
Proof.
  intros H F Hu. destruct (tk_image gr uninit lt v H F Hu) as (tk & E & I). exists tk. split; [exact E|].
  destruct (ct_maps (fun x y => lt y x) gr uninit 0 v H Hu) as (ct & Ec & _ & B). unfold tk_build in E. rewrite Ec in E. cbn [bind] in E. injection E as <-.
  rewrite <- B. refine (iff_maps tk_map (fun tk => fills (zlen (bp_block_excess_min (tk_tree tk)))) _ _ I). apply alignments.
Qed.
Lemma gv_maps gr ints : Forall (fun x => 0 <= x < 2 ^ 64 - 1) ints -> zlen ints < 2 ^ 57 ->
  exists g, gv_build gr ints = Ok g /\ maps_aligned gamma_map g (fills ((zlen ints + 64) / 64)).
Proof.
  intros F L. destruct (gv_image gr ints F L) as (g & Eg & Ig). exists g. split; [exact Eg|].
  assert (Hs : zlen (d64_subs (g_high g)) = (zlen ints + 64) / 64).
  2:{ rewrite <- Hs. refine (iff_maps gamma_map (fun g => fills (zlen (d64_subs (g_high g)))) _ _ Ig). apply alignments. }
  clear Ig. revert Eg. unfold gv_build. destruct (new_builder_ok 0 false ltac:(lia)) as (low & -> & B). cbn [bind].
  change (repeat false (Z.to_nat 0)) with (@nil bool) in B.
  assert (F' : Forall (fun y => 0 <= y < 2 ^ 64 - 1 /\ 0 <= code_len y) ints).
  { eapply Forall_impl; [|exact F]. cbv beta. intros y Hy. split; auto. apply Z.log2_nonneg. }
  assert (Fz : Forall (fun s => 0 <= s <= 64) (0 :: zs_of 0 ints)) by (constructor; [lia|]; apply zs_range; auto; lia).
  destruct (d64_all gr (0 :: zs_of 0 ints) Fz) as (b & d & E & D & _).
  assert (Lz : zlen (0 :: zs_of 0 ints) = zlen ints + 1) by (rewrite zlen_cons; unfold zs_of; rewrite zlen_map; lia).
  destruct (d64_parts gr _ b d Fz) as ((_ & Q & _) & _); auto; [lia|].
  cbn [append1_all] in E. destruct (append1_ok gr d64_new [] 0 d64_new_ok ltac:(lia)) as (h0 & E0 & I0).
  rewrite E0 in *. cbn [bind] in *.
  destruct (gv_loop_ok gr ints h0 low [] F B _ I0) as (h1 & low1 & -> & E1 & B1). cbn [bind].
  rewrite E in E1. injection E1 as <-. rewrite D. cbn [bind]. rewrite (binv_bv _ _ B1). cbn [bind app].
  intros X. injection X as <-. cbn [g_high]. rewrite Q, Lz. f_equal. lia.
Qed.
Lemma gb_maps gr ints : Forall (fun x => 0 <= x < 2 ^ 64 - 2) ints -> zlen ints < 2 ^ 57 ->
  exists g, gb_build gr ints = Ok g /\ maps_aligned gamma_map g (fills ((zlen ints + 64) / 64)).
Proof.
  intros F L. destruct (gb_image gr ints F L) as (g & Eg & Ig). exists g. split; [exact Eg|].
  assert (Hs : zlen (d64_subs (g_high g)) = (zlen ints + 64) / 64).
  2:{ rewrite <- Hs. refine (iff_maps gamma_map (fun g => fills (zlen (d64_subs (g_high g)))) _ _ Ig). apply alignments. }
  clear Ig. revert Eg. unfold gb_build. destruct (new_builder_ok 0 false ltac:(lia)) as (low & -> & B). cbn [bind].
  change (repeat false (Z.to_nat 0)) with (@nil bool) in B.
  assert (F' : Forall (fun y => 0 <= y < 2 ^ 64 - 1 /\ 1 <= code_len y) (succs ints)).
  { unfold succs. apply Forall_forall. intros y Hy. apply in_map_iff in Hy. destruct Hy as (x & <- & Hx).
    rewrite Forall_forall in F. specialize (F x Hx). pose proof (succ_len x F). lia. }
  assert (Fz : Forall (fun s => 0 <= s <= 64) (0 :: zs_of 1 (succs ints))) by (constructor; [lia|]; apply zs_range; auto; lia).
  destruct (d64_all gr (0 :: zs_of 1 (succs ints)) Fz) as (b & d & E & D & _).
  assert (Lz : zlen (0 :: zs_of 1 (succs ints)) = zlen ints + 1) by (rewrite zlen_cons; unfold zs_of; rewrite zlen_map, zlen_succs; lia).
  destruct (d64_parts gr _ b d Fz) as ((_ & Q & _) & _); auto; [lia|].
  cbn [append1_all] in E. destruct (append1_ok gr d64_new [] 0 d64_new_ok ltac:(lia)) as (h0 & E0 & I0).
  rewrite E0 in *. cbn [bind] in *.
  destruct (gb_loop_ok gr ints h0 low [] F B _ I0) as (h1 & low1 & -> & E1 & B1). cbn [bind].
  rewrite E in E1. injection E1 as <-. rewrite D. cbn [bind]. rewrite (binv_bv _ _ B1). cbn [bind app].
  intros X. injection X as <-. cbn [g_high]. rewrite Q, Lz. f_equal. lia.
Qed.
Lemma low_len_log2 n m : low_len n m = Z.log2 (n / m).
Proof.
  unfold low_len. destruct (Z.eqb_spec m 0) as [->|]; cbn [orb]; [rewrite Zdiv_0_r; reflexivity|].
  destruct (Z.eqb_spec (n / m) 0) as [->|]; reflexivity.
Qed.
Lemma ef_maps gr n m vs idx : ef_input n m vs -> exists ef, ef_make gr n m vs idx = Ok ef /\
  maps_aligned ef_map ef (fills ((zlen vs + 31) / 32) && (negb idx || fills ((m - zlen vs + 2 + n / 2 ^ Z.log2 (n / m) + 31) / 32))).
Proof.
  intros HI. destruct (ef_image gr n m vs idx HI) as (ef & Ee & Ie). exists ef. split; [exact Ee|].
  assert (Hs : zlen (da_subs (ef_d1 ef)) = (zlen vs + 31) / 32 /\
    zlen (da_subs (ef_d0 ef)) = if idx then (m - zlen vs + 2 + n / 2 ^ Z.log2 (n / m) + 31) / 32 else 0).
  2:{ destruct Hs as (H1 & H2). pose proof (iff_maps ef_map _ ef (proj1 (proj2 (proj2 alignments))) Ie) as X. cbv beta in X. rewrite H1, H2 in X.
      destruct idx; [exact X|]. cbn [negb orb]. exact X. }
  clear Ie. revert Ee. destruct HI as (Hn & Hm & H0 & Hk & F & S). unfold ef_make.
  destruct (ef_builder_new_ok gr n m (fits_simple n m Hn Hm H0)) as (b & H & -> & I). cbn [bind].
  destruct (push_all_ok gr n m _ vs b [] H I) as (b' & H' & -> & I'); auto.
  { intros i v. change (zlen (@nil Z)) with 0. lia. }
  cbn [bind app] in *. intros Ee. destruct I' as (R & _ & _ & _ & _ & _ & B1 & B2).
  destruct R as (R1 & R2 & _ & _ & R5 & R6 & R7 & R8).
  assert (C1 : Z.of_nat (count true H') = zlen vs) by (rewrite <- (zlen_positions H' 0), R8; apply zlen_highs).
  pose proof (count_compl H') as CC.
  assert (C0 : Z.of_nat (count false H') = m - zlen vs + 2 + n / 2 ^ Z.log2 (n / m)).
  { rewrite low_len_log2, Z.shiftr_div_pow2 in R6 by apply Z.log2_nonneg. unfold zlen at 1 in R6. lia. }
  unfold ef_build in Ee. rewrite (binv_bv _ _ B1) in Ee. cbn [bind] in Ee.
  destruct (darray_build false (canonical H')) as [d1|] eqn:D1; [|discriminate]. cbn [bind] in Ee.
  pose proof (darray_typed false H' d1 R7 D1) as X1. cbn [negb] in X1. cbv zeta in X1. rewrite C1 in X1.
  destruct X1 as (_ & _ & _ & _ & _ & X1 & _).
  destruct (if idx then darray_build true (canonical H') else Ok darray_empty) as [d0|] eqn:D0; [|discriminate]. cbn [bind] in Ee.
  rewrite (binv_bv _ _ B2) in Ee. cbn [bind] in Ee. injection Ee as <-. cbn [ef_d1 ef_d0]. split; [exact X1|].
  destruct idx.
  - pose proof (darray_typed true H' d0 R7 D0) as X0. cbn [negb] in X0. cbv zeta in X0. rewrite C0 in X0. apply X0.
  - injection D0 as <-. reflexivity.
Qed.
