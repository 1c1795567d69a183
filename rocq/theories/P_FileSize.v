(** Proofs for C109 *)
From Coq Require Import Sorting.Sorted String.
From Verif Require Import Base Spec Lib S_BitVector P_BvLib P_RsBuild P_RsQuery P_Darray P_BitVector P_BpBuild P_BpSpec P_EliasFano P_EliasFano2 P_Gamma P_Util
  P_Cartesian P_Builder P_Mapper P_Typed P_Space P_Space2.
From Verif Require Import M_BitVector M_RsBitVector M_Darray M_EliasFano M_Gamma M_Util M_Bp M_Cartesian M_Topk M_Mapper S_Mapper.
From Verif Require Import S_Darray S_EliasFano S_Gamma S_Util S_Bp S_Cartesian S_GammaSteps P_GammaSteps S_FileSize.

Lemma file_eq {A} (M : mappable A) x flags : P_Typed.image M x -> 0 <= flags < 2 ^ 64 -> file_bytes M x flags = 8 + frozen_size (layout_of M) (data_of M x).
Proof.
  intros (T & S) F. destruct (size_of_ok M x flags ""%string T S F) as (E & _ & E2 & _). unfold file_bytes. lia.
Qed.

Lemma rs_frozen l h h0 rs : zlen l < 2 ^ 64 -> rs_build (canonical l) h h0 = Ok rs ->
  8 * frozen_sizes rs_members (rs_datas rs) <= zlen l + zlen l / 4 + 64 * (if h then Z.of_nat (count true l) / 1024 + 1 else 0) +
    64 * (if h0 then (Z.of_nat (count false l) + 510) / 1024 + 1 else 0) + 700.
Proof.
  intros H E. rewrite <- bv_range_ok in E. destruct (rs_space l h h0 rs E) as (W & P). destruct (rs_hints_space l h h0 rs E) as (H1 & H2).
  rewrite W in P. cbn [frozen_sizes frozen_size rs_members bv_members app_members rs_datas bv_datas app_datas]. rewrite W, P.
  pose proof (zlen_nonneg l). set (a := if h then _ else _) in *. set (b := if h0 then _ else _) in *. clearbody a b.
  clear E W P. dlia.
Qed.
Lemma rs_file l h h0 flags : zlen l < 2 ^ 64 -> 0 <= flags < 2 ^ 64 -> exists rs, rs_build (bv_range l) h h0 = Ok rs /\
  8 * file_bytes rs_map rs flags <= zlen l + zlen l / 4 + zlen l / 16 + 1000.
Proof.
  intros H F. destruct (rs_image l h h0 H) as (rs & E & I). exists rs. rewrite bv_range_ok. split; [exact E|].
  rewrite (file_eq _ _ _ I F). pose proof (rs_frozen l h h0 rs H E) as B. cbn [layout_of data_of rs_map frozen_size].
  assert (C : Z.of_nat (count true l) + Z.of_nat (count false l) = zlen l) by (pose proof (count_compl l); unfold zlen; lia).
  set (x := frozen_sizes _ _) in *. clearbody x. clear E I. destruct h, h0; dlia.
Qed.

Lemma bv_file l flags : zlen l < 2 ^ 64 -> 0 <= flags < 2 ^ 64 -> file_bytes bv_map (bv_range l) flags = 24 + 8 * words_for (zlen l).
Proof.
  intros H F. rewrite bv_range_ok. rewrite file_eq; [|split; [apply bv_typed; auto|rewrite bv_frozen_c; pose proof (zlen_nonneg l); dlia]|auto].
  rewrite bv_frozen_c. unfold words_for. lia.
Qed.
Lemma nv_file l flags : Forall (fun x => 0 <= x < 16) l -> zlen l < 2 ^ 64 -> 0 <= flags < 2 ^ 64 -> exists v, nv_build l = Ok v /\
  file_bytes nv_map v flags = 24 + (zlen l + 1) / 2.
Proof.
  intros H L F. destruct (nv_image l H L) as (v & E & I). exists v. split; [auto|]. rewrite (file_eq _ _ _ I F).
  destruct (nv_ok l H) as (n & E2 & S1 & S2 & _). rewrite E in E2. injection E2 as <-. layouts. rewrite S2. clear. dlia.
Qed.

Lemma da_frozen neg l d : zlen l < 2 ^ 63 -> darray_build neg (canonical l) = Ok d -> let c := Z.of_nat (count (negb neg) l) in
  8 * frozen_size (layout_of da_map) (data_of da_map d) <= zlen l + c / 16 + c / 2 + 340.
Proof.
  intros H E c. destruct (darray_typed neg l d H E) as (A1 & A2 & A3 & A4 & A5 & A6 & A7). pose proof (darray_ovf neg l d H E) as A8. fold c in A5, A6.
  layouts. rewrite A5, A6. assert (0 <= c) by (unfold c; lia). clearbody c. clear - A8 H0. dlia.
Qed.
Lemma da_file neg l flags : zlen l < 2 ^ 63 -> 0 <= flags < 2 ^ 64 -> exists d, darray_build neg (bv_range l) = Ok d /\
  let c := Z.of_nat (count (negb neg) l) in 8 * file_bytes da_map d flags <= zlen l + c / 16 + c / 2 + 404.
Proof.
  intros H F. destruct (da_image neg l H) as (d & E & I). exists d. rewrite bv_range_ok. split; [exact E|]. cbv zeta.
  rewrite (file_eq _ _ _ I F). pose proof (da_frozen neg l d H E). cbv zeta in *. lia.
Qed.

(** ** elias_fano *)
Lemma ef_frozen_bits b vs n m l H idx ef : ebinv b vs n m l H -> ef_build b idx = Ok ef ->
  8 * frozen_size (layout_of ef_map) (data_of ef_map ef) <= l * zlen vs + 2 * zlen H + (if idx then zlen H + 9 * zlen H / 16 else 9 * zlen vs / 16) + 1200.
Proof.
  intros (R & E1 & E2 & E3 & E4 & E5 & B1 & B2) E. unfold ef_build in E. rewrite (binv_bv _ _ B1) in E. cbn [bind] in E.
  assert (BH : zlen H < 2 ^ 63) by apply R. assert (PH : positions H 0 = highs l vs 0) by apply R. destruct R as (R1 & R2 & _).
  assert (C : Z.of_nat (count true H) = zlen vs).
  { rewrite <- zlen_positions with (i := 0), PH. clear. generalize 0. induction vs as [|v vs IH]; intros i; [reflexivity|].
    cbn [highs]. rewrite !zlen_cons. rewrite IH. reflexivity. }
  assert (CC : Z.of_nat (count true H) + Z.of_nat (count false H) = zlen H) by (pose proof (count_compl H); unfold zlen; lia).
  destruct (darray_build false (canonical H)) as [d1|] eqn:D1; [|discriminate]. cbn [bind] in E.
  pose proof (da_frozen _ _ _ BH D1) as F1. cbv zeta in F1. cbn [negb] in F1.
  destruct (if idx then darray_build true (canonical H) else Ok darray_empty) as [d0|] eqn:D0; [|discriminate]. cbn [bind] in E.
  assert (F0 : 8 * frozen_size (layout_of da_map) (data_of da_map d0) <= if idx then zlen H + Z.of_nat (count false H) / 16 + Z.of_nat (count false H) / 2 + 340 else 340).
  { destruct idx; [apply (da_frozen true _ _ BH D0)|]. injection D0 as <-. vm_compute. discriminate. }
  rewrite (binv_bv _ _ B2) in E. cbn [bind] in E. injection E as <-.
  assert (LP : zlen (pieces l vs) = l * zlen vs) by (rewrite zlen_pieces; lia).
  match goal with |- 8 * frozen_size _ (data_of _ ?e) <= _ => replace (frozen_size (layout_of ef_map) (data_of ef_map e)) with
    (9 + frozen_size (layout_of bv_map) (data_of bv_map (canonical H)) + frozen_size (layout_of da_map) (data_of da_map d1) +
     frozen_size (layout_of da_map) (data_of da_map d0) + frozen_size (layout_of bv_map) (data_of bv_map (canonical (pieces l vs)))) by
    (cbn [layout_of data_of ef_map frozen_size frozen_sizes ef_size ef_high ef_d1 ef_d0 ef_low ef_l]; lia) end.
  rewrite !bv_frozen_c, LP. pose proof (zlen_nonneg H). pose proof (zlen_nonneg vs). assert (0 <= l * zlen vs) by nia.
  set (x := frozen_size (layout_of da_map) (data_of da_map d1)) in *. set (y := frozen_size (layout_of da_map) (data_of da_map d0)) in *.
  set (p := l * zlen vs) in *. clearbody x y p. rewrite C in *. clear - F1 F0 CC H0 H1 H2 C.
  set (z := Z.of_nat (count false H)) in *. assert (0 <= z) by (unfold z; lia). clearbody z. destruct idx; dlia.
Qed.
Lemma high_size n m : 0 <= n < 2 ^ 64 -> 0 < m -> Z.shiftr n (low_len n m) < 2 * m.
Proof.
  intros Hn Hm. unfold low_len. replace (m =? 0) with false by lia. cbn [orb]. destruct (Z.eqb_spec (n / m) 0) as [C|C].
  - rewrite Z.shiftr_0_r. pose proof (Z.div_mod n m ltac:(lia)) as DM. pose proof (Z.mod_pos_bound n m ltac:(lia)). nia.
  - assert (Q : 0 < n / m) by (pose proof (Z.div_pos n m ltac:(lia) ltac:(lia)); lia). destruct (Z.log2_spec _ Q) as [_ Q2].
    pose proof (Z.log2_nonneg (n / m)). rewrite Z.shiftr_div_pow2 by lia. assert (0 < 2 ^ Z.log2 (n / m)) by (apply Z.pow_pos_nonneg; lia).
    apply Z.div_lt_upper_bound; [lia|]. rewrite Z.pow_succ_r in Q2 by lia.
    pose proof (Z.div_mod n m ltac:(lia)) as DM. pose proof (Z.mod_pos_bound n m ltac:(lia)). nia.
Qed.
Lemma low_len_log n m : 0 <= n -> 0 < m -> low_len n m = Z.log2 (n / m).
Proof.
  intros Hn Hm. unfold low_len. replace (m =? 0) with false by lia. cbn [orb]. destruct (Z.eqb_spec (n / m) 0) as [->|]; reflexivity.
Qed.
Lemma ef_file gr n m vs idx flags : ef_input n m vs -> 0 < m -> 0 <= flags < 2 ^ 64 -> exists ef, ef_make gr n m vs idx = Ok ef /\
  8 * file_bytes ef_map ef flags <= m * (Z.log2 (n / m) + if idx then 11 else 7) + 1300.
Proof.
  intros HI Hmp Hf. destruct (ef_image gr n m vs idx HI) as (ef & E & Im). exists ef. split; [exact E|]. rewrite (file_eq _ _ _ Im Hf).
  destruct HI as (Hn & Hm & H0 & Hk & F & S). unfold ef_make in E.
  destruct (ef_builder_new_ok gr n m (fits_simple n m Hn Hm H0)) as (b & H & Eb & I). rewrite Eb in E. cbn [bind] in E.
  destruct (push_all_ok gr n m _ vs b [] H I) as (b' & H' & Ep & I'); auto.
  { intros i v. change (zlen (@nil Z)) with 0. lia. }
  rewrite Ep in E. cbn [bind] in E. pose proof (ef_frozen_bits _ _ _ _ _ _ _ _ I' E) as B. cbn [app] in B.
  assert (EH : zlen H' = m + 1 + Z.shiftr n (low_len n m) + 1) by apply I'. pose proof (high_size n m Hn Hmp) as HS.
  rewrite <- (low_len_log n m) by lia. pose proof (low_len_range n m Hn ltac:(lia)) as LL. pose proof (zlen_nonneg vs).
  assert (low_len n m * zlen vs <= m * low_len n m) by nia. rewrite (Z.mul_add_distr_l m).
  set (x := frozen_size _ _) in *. set (p := low_len n m * zlen vs) in *. set (q := m * low_len n m) in *. set (z := zlen H') in *. set (k := zlen vs) in *.
  set (s := Z.shiftr n (low_len n m)) in *. clearbody x p q z k s. clear - B EH HS H1 H2 Hk Hmp. destruct idx; dlia.
Qed.

(** ** gamma codes *)
Lemma payload_sum xs : sum (map code_len xs) = payload 1 xs.
Proof. induction xs as [|x l IH]; [reflexivity|]. unfold sum, payload, code_len in *. cbn [map fold_right]. rewrite IH. reflexivity. Qed.
Lemma sum_zs_all k xs : sum (zs_of k xs) = payload 1 xs - k * zlen xs.
Proof.
  induction xs as [|x l IH]; [unfold zlen; cbn; lia|]. rewrite zlen_cons. unfold zs_of, sum, payload, code_len in *. cbn [map fold_right]. rewrite IH. lia.
Qed.
Lemma zlen_d64 skips : Forall (fun s => 0 <= s <= 64) skips -> zlen (d64_seq skips) = sum skips + zlen skips.
Proof.
  induction 1 as [|s skips Hs F IH]; [reflexivity|]. unfold d64_seq, sum in *. cbn [flat_map fold_right].
  rewrite !zlen_app, zlen_repeat, IH, (zlen_cons s). change (zlen [true]) with 1. lia.
Qed.
Lemma gamma_frozen g d skips ys : g_high g = d -> g_low g = canonical (codes ys) -> zlen (d64_blocks d) = (zlen skips + 1023) / 1024 ->
  zlen (d64_subs d) = (zlen skips + 63) / 64 -> d64_bits d = canonical (d64_seq skips) -> Forall (fun s => 0 <= s <= 64) skips ->
  frozen_size (layout_of gamma_map) (data_of gamma_map g) = gamma_file (sum skips + zlen skips) (payload 1 ys) (zlen skips - 1) - 8.
Proof.
  intros <- E2 E3 E4 E5 F.
  replace (frozen_size (layout_of gamma_map) (data_of gamma_map g)) with (24 + frozen_size (layout_of bv_map) (data_of bv_map (d64_bits (g_high g))) +
    8 * zlen (d64_blocks (g_high g)) + 2 * zlen (d64_subs (g_high g)) + frozen_size (layout_of bv_map) (data_of bv_map (g_low g))) by
    (cbn [layout_of data_of gamma_map d64_map frozen_size frozen_sizes]; lia).
  rewrite E2, E3, E4, E5, !bv_frozen_c, zlen_d64, zlen_codes, payload_sum by exact F. unfold gamma_file, words_for. clear.
  replace (zlen skips - 1 + 1024) with (zlen skips + 1023) by lia. replace (zlen skips - 1 + 64) with (zlen skips + 63) by lia. lia.
Qed.
Lemma gv_file gr ints flags : Forall (fun x => 0 <= x < 2 ^ 64 - 1) ints -> zlen ints < 2 ^ 57 -> 0 <= flags < 2 ^ 64 -> exists g, gv_build gr ints = Ok g /\
  file_bytes gamma_map g flags = gamma_file (payload 1 ints + zlen ints + 1) (payload 1 ints) (zlen ints).
Proof.
  intros F L Hf. destruct (gv_image gr ints F L) as (g & Eg & Im). exists g. split; [exact Eg|]. rewrite (file_eq _ _ _ Im Hf). clear Im.
  unfold gv_build in Eg. destruct (new_builder_ok 0 false ltac:(lia)) as (low & El & B). rewrite El in Eg. cbn [bind] in Eg.
  change (repeat false (Z.to_nat 0)) with (@nil bool) in B.
  assert (F' : Forall (fun y => 0 <= y < 2 ^ 64 - 1 /\ 0 <= code_len y) ints).
  { eapply Forall_impl; [|exact F]. cbv beta. intros y Hy. split; auto. apply Z.log2_nonneg. }
  assert (Fz : Forall (fun s => 0 <= s <= 64) (0 :: zs_of 0 ints)) by (constructor; [lia|]; apply zs_range; auto; lia).
  destruct (d64_all gr (0 :: zs_of 0 ints) Fz) as (b & d & E & D & _).
  assert (Lz : zlen (0 :: zs_of 0 ints) = zlen ints + 1) by (rewrite zlen_cons; unfold zs_of; rewrite zlen_map; lia).
  destruct (d64_parts gr _ b d Fz ltac:(lia) E D) as ((X1 & X2 & _ & X3) & _).
  cbn [append1_all] in E. destruct (append1_ok gr d64_new [] 0 d64_new_ok ltac:(lia)) as (h0 & E0 & I0).
  rewrite E0 in *. cbn [bind] in *.
  destruct (gv_loop_ok gr ints h0 low [] F B _ I0) as (h1 & low1 & E2 & E1 & B1). rewrite E2 in Eg. cbn [bind] in Eg.
  rewrite E in E1. injection E1 as <-. rewrite D in Eg. cbn [bind] in Eg. rewrite (binv_bv _ _ B1) in Eg. cbn [bind app] in Eg. injection Eg as <-.
  rewrite (gamma_frozen _ d (0 :: zs_of 0 ints) ints) by auto. rewrite Lz. unfold sum at 1. cbn [fold_right]. fold (sum (zs_of 0 ints)).
  rewrite sum_zs_all. replace (0 + (payload 1 ints - 0 * zlen ints) + (zlen ints + 1)) with (payload 1 ints + zlen ints + 1) by lia.
  replace (zlen ints + 1 - 1) with (zlen ints) by lia. lia.
Qed.
Lemma gb_file gr ints flags : Forall (fun x => 0 <= x < 2 ^ 64 - 2) ints -> zlen ints < 2 ^ 57 -> 0 <= flags < 2 ^ 64 -> exists g, gb_build gr ints = Ok g /\
  file_bytes gamma_map g flags = gamma_file (payload 2 ints + 1) (payload 2 ints) (zlen ints).
Proof.
  intros F L Hf. destruct (gb_image gr ints F L) as (g & Eg & Im). exists g. split; [exact Eg|]. rewrite (file_eq _ _ _ Im Hf). clear Im.
  unfold gb_build in Eg. destruct (new_builder_ok 0 false ltac:(lia)) as (low & El & B). rewrite El in Eg. cbn [bind] in Eg.
  change (repeat false (Z.to_nat 0)) with (@nil bool) in B.
  assert (F' : Forall (fun y => 0 <= y < 2 ^ 64 - 1 /\ 1 <= code_len y) (succs ints)).
  { unfold succs. apply Forall_forall. intros y Hy. apply in_map_iff in Hy. destruct Hy as (x & <- & Hx).
    rewrite Forall_forall in F. specialize (F x Hx). pose proof (succ_len x F). lia. }
  assert (Fz : Forall (fun s => 0 <= s <= 64) (0 :: zs_of 1 (succs ints))) by (constructor; [lia|]; apply zs_range; auto; lia).
  destruct (d64_all gr (0 :: zs_of 1 (succs ints)) Fz) as (b & d & E & D & _).
  assert (Lz : zlen (0 :: zs_of 1 (succs ints)) = zlen ints + 1) by (rewrite zlen_cons; unfold zs_of; rewrite zlen_map, zlen_succs; lia).
  destruct (d64_parts gr _ b d Fz ltac:(lia) E D) as ((X1 & X2 & _ & X3) & _).
  cbn [append1_all] in E. destruct (append1_ok gr d64_new [] 0 d64_new_ok ltac:(lia)) as (h0 & E0 & I0).
  rewrite E0 in *. cbn [bind] in *.
  destruct (gb_loop_ok gr ints h0 low [] F B _ I0) as (h1 & low1 & E2 & E1 & B1). rewrite E2 in Eg. cbn [bind] in Eg.
  rewrite E in E1. injection E1 as <-. rewrite D in Eg. cbn [bind] in Eg. rewrite (binv_bv _ _ B1) in Eg. cbn [bind app] in Eg. injection Eg as <-.
  rewrite (gamma_frozen _ d (0 :: zs_of 1 (succs ints)) (succs ints)) by auto. rewrite Lz. unfold sum at 1. cbn [fold_right]. fold (sum (zs_of 1 (succs ints))).
  rewrite sum_zs_all, payload_succs, zlen_succs. replace (0 + (payload 2 ints - 1 * zlen ints) + (zlen ints + 1)) with (payload 2 ints + 1) by lia.
  replace (zlen ints + 1 - 1) with (zlen ints) by lia. lia.
Qed.

(** ** trees *)
Lemma bp_frozen l uninit h h0 bp : zlen l < 2 ^ 31 -> nonneg l -> 0 < zlen l -> bp_build uninit (canonical l) h h0 = Ok bp ->
  8 * frozen_sizes bp_members (bp_datas bp) <= zlen l + zlen l / 4 + zlen l / 8 + zlen l / 64 + 1400.
Proof.
  intros H HN Hp E. pose proof E as E'. unfold bp_build in E'.
  destruct (rs_build (canonical l) h h0) as [rs|] eqn:Er; [|discriminate]. cbn [bind] in E'.
  destruct (rs_build_ok l h h0) as (rs' & Er' & Rk). rewrite Er in Er'. injection Er' as <-.
  destruct (build_min_tree_ok l uninit rs Rk H HN) as (bp' & Eb & Ers & HB). rewrite E' in Eb. injection Eb as <-. clear E' HB Rk.
  destruct (bp_space uninit h h0 l H (proj2 (prefix_ok_nonneg l) HN) Hp) as (bp' & Eb & S1 & S2 & S3). rewrite bv_range_ok, E in Eb. injection Eb as <-.
  pose proof (rs_frozen l h h0 rs ltac:(lia) Er) as B.
  assert (C : Z.of_nat (count true l) + Z.of_nat (count false l) = zlen l) by (pose proof (count_compl l); unfold zlen; lia).
  replace (frozen_sizes bp_members (bp_datas bp)) with (frozen_sizes rs_members (rs_datas rs) + 24 + 2 * zlen (bp_block_excess_min bp) + 4 * zlen (bp_superblock_excess_min bp))
    by (unfold bp_datas; rewrite Ers; cbn [frozen_sizes frozen_size bp_members rs_members bv_members app_members rs_datas bv_datas app_datas]; lia).
  set (x := frozen_sizes _ _) in *. set (a := bp_internal_nodes bp) in *. rewrite S1, S3. clearbody x a. clear E Er S1 S3 Ers HN.
  assert (R : 8 * x <= zlen l + zlen l / 4 + zlen l / 16 + 900) by (destruct h, h0; dlia). clear B C. dlia.
Qed.
Lemma bp_file uninit l h h0 flags : zlen l < 2 ^ 31 -> prefix_ok l -> 0 < zlen l -> 0 <= uninit < 2 ^ 64 -> 0 <= flags < 2 ^ 64 ->
  exists bp, bp_build uninit (bv_range l) h h0 = Ok bp /\ 8 * file_bytes bp_map bp flags <= zlen l + zlen l / 4 + zlen l / 8 + zlen l / 64 + 1500.
Proof.
  intros H HP Hp Hu Hf. apply prefix_ok_nonneg in HP. rewrite bv_range_ok. destruct (bp_image l uninit h h0 H HP Hu) as (bp & E & Im). exists bp. split; [exact E|].
  rewrite (file_eq _ _ _ Im Hf). pose proof (bp_frozen l uninit h h0 bp H HP Hp E). cbn [layout_of data_of bp_map frozen_size]. lia.
Qed.
Lemma ct_frozen {T} (comp : T -> T -> bool) gr uninit e v ct : 2 * zlen v + 2 < 2 ^ 31 -> 0 <= uninit < 2 ^ 64 -> ct_build gr uninit comp e v = Ok ct ->
  8 * frozen_size (layout_of ct_map) (data_of ct_map ct) <= 14 * zlen v / 5 + 1410.
Proof.
  intros Hn Hu E. pose proof (seq_len comp v) as SL. destruct (ct_build_bits comp gr uninit e v) as (r & Er & E').
  destruct (bp_build_ok (seq_of comp v) uninit false true ltac:(lia) (seq_nonneg comp v)) as (bp & Eb & _).
  assert (ct = bp) by congruence. subst ct. rewrite bv_range_ok in Eb. pose proof (zlen_nonneg v).
  pose proof (bp_frozen (seq_of comp v) _ _ _ _ ltac:(lia) (seq_nonneg comp v) ltac:(lia) Eb) as B. cbn [layout_of data_of ct_map frozen_size frozen_sizes].
  rewrite SL in B. set (x := frozen_sizes _ _) in *. clearbody x. clear - B H. dlia.
Qed.
Lemma ct_file {T} (comp : T -> T -> bool) gr uninit e v flags : 2 * zlen v + 2 < 2 ^ 31 -> 0 <= uninit < 2 ^ 64 -> 0 <= flags < 2 ^ 64 ->
  exists ct, ct_build gr uninit comp e v = Ok ct /\ 8 * file_bytes ct_map ct flags <= 14 * zlen v / 5 + 1500.
Proof.
  intros Hn Hu Hf. destruct (ct_image comp gr uninit e v Hn Hu) as (ct & E & Im). exists ct. split; [exact E|].
  rewrite (file_eq _ _ _ Im Hf). pose proof (ct_frozen comp gr uninit e v ct Hn Hu E). lia.
Qed.
Lemma tk_file gr uninit lt v flags : 2 * zlen v + 2 < 2 ^ 31 -> Forall (fun x => 0 <= x < 2 ^ 64) v -> 0 <= uninit < 2 ^ 64 -> 0 <= flags < 2 ^ 64 ->
  exists tk, tk_build gr uninit lt v = Ok tk /\ 8 * file_bytes tk_map tk flags <= 64 * zlen v + 14 * zlen v / 5 + 1600.
Proof.
  intros Hn F Hu Hf. destruct (tk_image gr uninit lt v Hn F Hu) as (tk & E & Im). exists tk. split; [exact E|].
  rewrite (file_eq _ _ _ Im Hf). unfold tk_build in E.
  destruct (ct_image (fun x y => lt y x) gr uninit 0 v Hn Hu) as (ct & Ec & _). rewrite Ec in E. cbn [bind] in E. injection E as <-.
  pose proof (ct_frozen _ _ _ _ _ _ Hn Hu Ec) as B.
  match goal with |- 8 * (8 + frozen_size _ (data_of _ ?t)) <= _ => replace (frozen_size (layout_of tk_map) (data_of tk_map t)) with
    (8 + 8 * zlen v + frozen_size (layout_of ct_map) (data_of ct_map ct)) by (cbn [layout_of data_of tk_map frozen_size frozen_sizes tk_v tk_tree]; lia) end. lia.
Qed.
