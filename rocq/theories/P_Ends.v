(** Calls past the end of an enumerator. *)
From Verif Require Import Base Spec Lib M_Broadword M_BitVector M_Darray M_EliasFano S_BitVector S_EliasFano.
From Verif Require Import P_Broadword P_BvLib P_BvRank P_BitVector P_BvGen P_BvEnum P_Safety P_Reject P_RsBuild P_EliasFano P_EliasFano2.
From Verif Require Import S_Ends.

Lemma enum_start l pos : 0 <= pos -> einv (enum_new pos) l (pos, false).
Proof.
  intros Hp. apply einv_intro; try lia; [unfold is_u64; lia|]. intros _ i Hi. rewrite Z.testbit_0_l. replace (i <? 0) with false by lia. reflexivity.
Qed.
Lemma einv_to l e s os rs t : einv e l s -> espec_to l s os rs t -> exists e', einv e' l t /\
  forall os', erun (canonical l) e (os ++ os') = (do (rs', p) <- erun (canonical l) e' os'; Ok (rs ++ rs', p)).
Proof.
  intros I H. revert e I. induction H as [s|s o r s' os rs t Hs H IH]; intros e I.
  - exists e. split; auto. intros os'. cbn [app]. destruct (erun (canonical l) e os') as [(rs', p)|]; reflexivity.
  - destruct (estep_ok l e s o r s' I Hs) as (e1 & E & I1). destruct (IH e1 I1) as (e' & I' & R). exists e'. split; auto. intros os'.
    cbn [app erun]. rewrite E. cbn [bind]. rewrite R. destruct (erun (canonical l) e' os') as [(rs', p)|]; reflexivity.
Qed.

(** next from a filled buffer, or a new one, whether or not a bit is left *)
Lemma next_filled l e p : einv e l (p, false) -> 0 < e_avail e ->
  exists e', enum_next (canonical l) e = Ok (zbit l p, e') /\ einv e' l (p + 1, false) /\ e_avail e' = e_avail e - 1.
Proof.
  intros (H1 & H2 & H3 & H4 & H5) Ha. cbn [fst snd] in *. unfold enum_next. replace (e_avail e =? 0) with false by lia. cbn [bind].
  eexists. split; [f_equal; f_equal|split].
  - change 1 with (Z.ones 1) at 1. rewrite Z.land_ones, <- Z.bit0_mod by lia. rewrite H5 by lia.
    replace (0 <? e_avail e) with true by lia. cbn [andb]. rewrite Z.add_0_r. destruct (zbit l p); reflexivity.
  - rewrite H1. apply einv_intro; try lia; [apply shiftr_is; auto; lia|].
    intros _ i Hi. rewrite Z.shiftr_spec by lia. destruct (Z.eq_dec i 63) as [->|].
    + rewrite testbit_high64 by (auto; lia). replace (63 <? e_avail e - 1) with false by lia. auto.
    + rewrite H5 by lia. replace (i <? e_avail e - 1) with (i + 1 <? e_avail e) by lia. f_equal. f_equal. lia.
  - reflexivity.
Qed.
Lemma next_empty l e p : einv e l (p, false) -> e_avail e = 0 ->
  if p <? zlen l then exists e', enum_next (canonical l) e = Ok (zbit l p, e') /\ einv e' l (p + 1, false) /\ e_avail e' = 63
  else enum_next (canonical l) e = Ub AssertFailed.
Proof.
  intros H Ha. pose proof H as (H1 & H2 & _). cbn [fst] in *. destruct (Z.ltb_spec p (zlen l)) as [L|L].
  - destruct (fill_buf_ok l e ltac:(lia)) as (e1 & E & (B1 & B2 & B3 & B4) & A).
    assert (I1 : einv e1 l (p, false)).
    { split; [cbn; lia|]. split; [cbn; lia|]. split; [lia|]. split; [exact B3|]. cbn [snd fst]. rewrite <- H1. exact B4. }
    destruct (next_filled l e1 p I1 ltac:(lia)) as (e' & E' & I' & A'). exists e'. rewrite <- E'. split; [|split; [exact I'|lia]].
    unfold enum_next. rewrite Ha. cbn [Z.eqb]. rewrite E. cbn [bind]. replace (e_avail e1 =? 0) with false by lia. reflexivity.
  - unfold enum_next. rewrite Ha. cbn [Z.eqb]. unfold fill_buf, get_word. rewrite assert_false; [reflexivity|]. cbn [canonical bv_size]. lia.
Qed.

Lemma nexts_past l stop : zlen l <= stop < zlen l + 64 -> forall n e p, einv e l (p, false) -> (stop - (p + e_avail e)) mod 64 = 0 -> p + e_avail e <= stop ->
  erun (canonical l) e (repeat ENext n) =
    if p + Z.of_nat n <=? stop then Ok (map (fun i => Z.b2z (zbit l (p + Z.of_nat i))) (seq 0 n), p + Z.of_nat n) else Ub AssertFailed.
Proof.
  intros Hs. induction n as [|n IH]; intros e p I Hm Hp; cbn [repeat erun].
  - pose proof I as (P1 & _ & P3 & _). replace (p + Z.of_nat 0 <=? stop) with true by lia. cbn [seq map]. rewrite P1. cbn [fst]. f_equal. f_equal. lia.
  - assert (S : (exists e' a, enum_next (canonical l) e = Ok (zbit l p, e') /\ einv e' l (p + 1, false) /\ e_avail e' = a /\ (stop - (p + 1 + a)) mod 64 = 0 /\ p + 1 + a <= stop)
      \/ enum_next (canonical l) e = Ub AssertFailed /\ p = stop).
    { pose proof I as (_ & _ & P3 & _). destruct (Z.eq_dec (e_avail e) 0) as [A|A].
      - pose proof (next_empty l e p I A) as N. rewrite A, Z.add_0_r in Hm, Hp. destruct (Z.ltb_spec p (zlen l)).
        + destruct N as (e' & E & I' & A'). left. exists e', 63. split; [exact E|]. split; [exact I'|]. split; [exact A'|].
          apply Z.mod_divide in Hm; [|lia]. destruct Hm as (c & Hc). split; [|lia]. apply Z.mod_divide; [lia|]. exists (c - 1). lia.
        + right. split; auto. apply Z.mod_divide in Hm; [|lia]. destruct Hm as (c & Hc). lia.
      - destruct (next_filled l e p I ltac:(lia)) as (e' & E & I' & A'). left. exists e', (e_avail e - 1). split; [exact E|]. split; [exact I'|]. split; [exact A'|].
        replace (p + 1 + (e_avail e - 1)) with (p + e_avail e) by lia. auto. }
    destruct S as [(e' & a & E & I' & A' & M' & L')|(E & ->)].
    + cbn [estep]. rewrite E. cbn [bind]. rewrite (IH e' (p + 1) I') by (rewrite A'; auto).
      replace (p + 1 + Z.of_nat n) with (p + Z.of_nat (S n)) by lia. destruct (_ <=? _); [|reflexivity]. cbn [bind seq map]. f_equal. f_equal. f_equal.
      * rewrite Z.add_0_r. reflexivity.
      * rewrite <- seq_shift, map_map. apply map_ext. intros i. do 2 f_equal. lia.
    + cbn [estep]. rewrite E. cbn [bind]. replace (stop + Z.of_nat (S n) <=? stop) with false by lia. reflexivity.
Qed.

Lemma enum_past l pos n : 0 <= pos < zlen l ->
  erun (canonical l) (enum_new pos) (repeat ENext n) =
    if Z.of_nat n <=? 64 * ((zlen l - pos + 63) / 64) then Ok (map (fun i => Z.b2z (nth i l false)) (seq (Z.to_nat pos) n), pos + Z.of_nat n)
    else Ub AssertFailed.
Proof.
  intros Hp. set (c := (zlen l - pos + 63) / 64). assert (Hc : 64 * c <= zlen l - pos + 63 < 64 * c + 64) by (unfold c; dlia).
  rewrite (nexts_past l (pos + 64 * c) ltac:(lia) n (enum_new pos) pos (enum_start l pos ltac:(lia))).
  - replace (pos + Z.of_nat n <=? pos + 64 * c) with (Z.of_nat n <=? 64 * c) by lia. destruct (_ <=? _); [|reflexivity]. f_equal. f_equal.
    rewrite <- (Nat.add_0_r (Z.to_nat pos)) at 1. generalize 0%nat as a. induction n as [|n IH]; intros a; cbn [seq map]; [reflexivity|]. rewrite (IH (S a)).
    rewrite Nat.add_succ_r. f_equal. unfold zbit. replace (pos + Z.of_nat a <? 0) with false by lia. do 2 f_equal. lia.
  - cbn. replace (pos + 64 * c - (pos + 0)) with (c * 64) by lia. apply Z.mod_mul. lia.
  - cbn. lia.
Qed.

(** skip_zeros with no one left *)
Lemma skip_zeros_none l : forall fuel e p zs, einv e l (p, false) -> (forall j, p <= j -> zbit l j = false) ->
  64 <= 64 * Z.of_nat fuel -> zlen l - (p + e_avail e) + 64 <= 64 * Z.of_nat fuel -> skip_zeros_loop fuel (canonical l) e zs = Ub AssertFailed.
Proof.
  induction fuel as [|fuel IH]; intros e p zs I Hz Hf1 Hf2; [lia|]. pose proof I as (H1 & H2 & H3 & H4 & H5). cbn [fst snd] in *. cbn [skip_zeros_loop].
  assert (B : e_buf e = 0).
  { apply Z.bits_inj'. intros i Hi. rewrite Z.bits_0. destruct (Z.lt_ge_cases i 64); [|apply testbit_high64; auto]. rewrite H5, Hz by lia. apply andb_false_r. }
  rewrite B. cbn [Z.eqb]. destruct (Z.lt_ge_cases (p + e_avail e) (zlen l)) as [L|L].
  - destruct (fill_buf_ok l (mk_enum (e_pos e + e_avail e) 0 0)) as (e1 & E & (B1 & B2 & B3 & B4) & A); [cbn; lia|]. rewrite E. cbn [bind].
    cbn [e_pos] in *. assert (Hz1 : forall j, p + e_avail e <= j -> zbit l j = false) by (intros j Hj; apply Hz; lia). apply (IH e1 (p + e_avail e)); [|exact Hz1|lia|lia].
    split; [cbn; lia|]. split; [cbn; lia|]. split; [lia|]. split; [exact B3|]. cbn [snd fst]. rewrite <- H1. exact B4.
  - unfold fill_buf, get_word. rewrite assert_false; [reflexivity|]. cbn [canonical bv_size e_pos]. lia.
Qed.
Lemma enum_skip_past l pos os rs p : 0 <= pos -> espec_to l (pos, false) os rs (p, false) ->
  (forall j, p <= Z.of_nat j -> nth_error l j <> Some true) ->
  erun (canonical l) (enum_new pos) (os ++ [ESkipZeros]) = Ub AssertFailed.
Proof.
  intros Hp H Hz. destruct (einv_to l _ _ os rs (p, false) (enum_start l pos Hp) H) as (e & I & R). rewrite R. cbn [erun estep].
  unfold enum_skip_zeros. rewrite (skip_zeros_none l _ e p 0 I); [reflexivity| |lia|].
  - intros j Hj. destruct (zbit l j) eqn:Z1; auto. exfalso. pose proof (zbit_pos l j true Z1 eq_refl) as Bj. apply (Hz (Z.to_nat j)); [lia|].
    rewrite zbit_nth_error by exact Bj. rewrite Z1. reflexivity.
  - pose proof I as (_ & I2 & I3 & _). cbn [fst] in I2. cbn [canonical bv_words]. pose proof (zlen_pack l). unfold zlen in *. rewrite !Nat2Z.inj_succ. dlia.
Qed.

(** ** unary_enumerator *)
Lemma uinv_to l e s os rs t : uinv e l s -> uspec_to l s os rs t -> exists e', uinv e' l t /\
  forall os', urun (pack l) e (os ++ os') = (do rs' <- urun (pack l) e' os'; Ok (rs ++ rs')).
Proof.
  intros I H. revert e I. induction H as [s|s o r s' os rs t Hs H IH]; intros e I.
  - exists e. split; auto. intros os'. cbn [app]. destruct (urun (pack l) e os') as [rs'|]; reflexivity.
  - destruct (ustep_ok l e s o r s' I Hs) as (e1 & E & I1). destruct (IH e1 I1) as (e' & I' & R). exists e'. split; auto. intros os'.
    cbn [app urun]. rewrite E. cbn [bind]. rewrite R. destruct (urun (pack l) e' os') as [rs'|]; reflexivity.
Qed.

Lemma skip_loop_none neg l kk base : Z.of_nat (count true (flip neg (padded l))) <= Z.of_nat base + kk ->
  forall fuel k w lo sk pos, 0 <= k < zlen (pack l) -> pos / 64 = k -> masked w (flip neg (padded l)) k lo -> 0 <= lo <= 64 ->
  zlen (pack l) - k <= Z.of_nat fuel -> Z.of_nat (rank true (flip neg (padded l)) (Z.to_nat (64 * k + lo))) = Z.of_nat base + sk ->
  uskip_loop neg fuel (pack l) kk sk pos w = Ub OutOfBounds.
Proof.
  set (m := flip neg (padded l)). intros Hk.
  assert (Lm : zlen m = 64 * zlen (pack l)) by (unfold m; rewrite zlen_flip, zlen_padded; auto).
  induction fuel as [|fuel IH]; intros k w lo sk pos Hkr Hpos Hw Hlo Hf Hr; [lia|]. cbn [uskip_loop].
  pose proof (masked_popcount w m k lo Hw ltac:(lia) Hlo ltac:(lia)) as Pc.
  pose proof (rank_le_count true m (Z.to_nat (64 * (k + 1)))) as Rc.
  replace (sk + popcount w <=? kk) with true by lia. replace ((pos + 64) / 64) with (k + 1) by dlia.
  destruct (Z.eq_dec (k + 1) (zlen (pack l))) as [E|N].
  - unfold getw, rd. replace ((0 <=? k + 1) && (k + 1 <? zlen (pack l))) with false by lia. reflexivity.
  - destruct (getw_masked neg l (k + 1) ltac:(lia)) as (w' & -> & M'). cbn [bind]. apply (IH (k + 1) w' 0); try lia; try dlia; auto.
    rewrite Z.add_0_r. lia.
Qed.

Lemma count_padded_true l : count true (padded l) = count true l.
Proof. unfold padded. rewrite count_app. rewrite <- (Nat.add_0_r (count true l)) at 2. f_equal. induction (Z.to_nat _) as [|n IH]; cbn; auto. Qed.
Lemma rank_padded_true l n : rank true (padded l) n = rank true l n.
Proof.
  destruct (Nat.le_gt_cases n (length l)); [apply rank_padded; auto|]. rewrite (rank_all true l) by lia. apply Nat.le_antisymm.
  - rewrite <- count_padded_true. apply rank_le_count.
  - rewrite <- (rank_all true l (length l)) by lia. rewrite <- (rank_padded true l (length l)) by lia. apply rank_mono. lia.
Qed.

Lemma unary_skip_none l e s k : uinv e l s -> 0 <= k -> Z.of_nat (count true l) <= Z.of_nat (rank true l (ustart s)) + k ->
  unary_skip (pack l) e k = Ub OutOfBounds /\ unary_skip_no_move (pack l) e k = Ub OutOfBounds.
Proof.
  intros (H1 & H2 & H3 & H4) Hk Hc. unfold unary_skip, unary_skip_no_move. rewrite skip_loop_eq.
  assert (P0 : 0 <= fst s / 64) by (apply Z.div_pos; lia).
  rewrite (skip_loop_none false l k (rank true l (ustart s))) with (k := fst s / 64) (lo := fst s mod 64 + Z.b2z (snd s)); auto.
  - cbn [flip]. rewrite count_padded_true. exact Hc.
  - rewrite H1. reflexivity.
  - apply ulo_range; auto.
  - unfold zlen. lia.
  - cbn [flip]. rewrite rank_padded_true, ustart_eq by auto. lia.
Qed.

Lemma unary_past l pos os rs s : 0 <= pos < 64 * zlen (pack l) -> uspec_to l (pos, false) os rs s ->
  (rank true l (ustart s) = count true l -> urun_from (canonical l) pos (os ++ [UNext]) = Ub OutOfBounds) /\
  forall k, 0 <= k -> Z.of_nat (count true l) <= Z.of_nat (rank true l (ustart s)) + k ->
    urun_from (canonical l) pos (os ++ [USkip k]) = Ub OutOfBounds /\ urun_from (canonical l) pos (os ++ [USkipNoMove k]) = Ub OutOfBounds.
Proof.
  intros Hp H. unfold urun_from. cbn [canonical bv_words]. destruct (unary_new_ok l pos ltac:(lia) ltac:(dlia)) as (e0 & E0 & I0).
  rewrite E0. cbn [bind]. destruct (uinv_to l e0 _ os rs s I0 H) as (e & I & R). split.
  - intros C. rewrite R. cbn [urun ustep]. rewrite (unary_next_none l e s I C). reflexivity.
  - intros k Hk C. destruct (unary_skip_none l e s k I Hk C) as (E1 & E2). split; rewrite R; cbn [urun ustep]; [rewrite E1|rewrite E2]; reflexivity.
Qed.
Lemma unary_skip0_padded l e pos k q : uinv e l (pos, false) -> 0 <= k ->
  is_select false (padded l) (rank false (padded l) (Z.to_nat pos) + Z.to_nat k) q ->
  exists e', unary_skip0 (pack l) e k = Ok e' /\ u_pos e' = Z.of_nat q /\ uinv e' l (Z.of_nat q, false).
Proof.
  intros (H1 & H2 & H3 & H4) Hk Hq. cbn [fst snd Z.b2z] in *. rewrite Z.add_0_r in H4.
  replace (Z.to_nat pos) with (ustart (pos, false)) in Hq by (unfold ustart; cbn; f_equal; lia).
  rewrite ustart_eq in Hq by auto. cbn [fst snd Z.b2z] in Hq. rewrite Z.add_0_r in Hq.
  assert (Hm : 0 <= pos mod 64 < 64) by (apply Z.mod_pos_bound; lia).
  unfold unary_skip0. rewrite H1. rewrite shl_ok by lia. cbn [bind]. rewrite skip0_loop_eq.
  set (w0 := Z.land _ _).
  assert (M0 : masked w0 (flip true (padded l)) (pos / 64) (pos mod 64)).
  { destruct H4 as [U B]. unfold w0. split; [auto with u64s|]. intros i Hi.
    rewrite Z.land_spec, testbit_shl64, testbit_not64, B by lia.
    rewrite zbit_flip by (rewrite zlen_padded; dlia).
    replace (i <? 64) with true by lia. cbn [andb xorb]. destruct (Z.leb_spec (pos mod 64) i).
    - rewrite testbit_max by lia. replace (i - pos mod 64 <? 64) with true by lia.
      cbn [andb]. apply andb_true_r.
    - rewrite (Z.testbit_neg_r _ (i - pos mod 64)) by lia. apply andb_false_r. }
  change (is_select (negb true) (padded l)
     (rank (negb true) (padded l) (Z.to_nat (64 * (pos / 64) + pos mod 64)) + Z.to_nat k) q) in Hq.
  rewrite <- rank_flip, <- is_select_flip in Hq.
  destruct (skip_search true l pos w0 _ k q H2 H3 M0 ltac:(lia) Hk Hq)
    as (sk & pos' & w' & lo' & E & N & P & S & M & R & R2).
  rewrite E. cbn [bind]. rewrite assert_true by lia. rewrite S. cbn [bind]. rewrite align64_eq.
  rewrite R2 in *.
  assert (Em : Z.of_nat q - 64 * (Z.of_nat q / 64) = Z.of_nat q mod 64) by dlia. rewrite Em in *.
  assert (Hmq : 0 <= Z.of_nat q mod 64 < 64) by (apply Z.mod_pos_bound; lia).
  rewrite shl_ok by lia. cbn [bind]. eexists; split; [reflexivity|]. cbn [u_pos]. split; [lia|].
  split; [cbn; lia|]. cbn [fst snd u_buf Z.b2z]. split; [lia|]. split; [lia|]. rewrite Z.add_0_r.
  apply masked_flip_back with (lo := lo'); auto; lia.
Qed.

Lemma count_padded_false l : Z.of_nat (count false (padded l)) = Z.of_nat (count false l) + (64 * zlen (pack l) - zlen l).
Proof.
  unfold padded. rewrite count_app. assert (P : zlen l <= 64 * zlen (pack l)) by (pose proof (zlen_pack l); dlia).
  assert (C : forall n, count false (repeat false n) = n) by (induction n as [|n IH]; [reflexivity|]; cbn [repeat]; rewrite count_cons, IH; reflexivity). rewrite C. lia.
Qed.
Lemma mask_zeros l e pos : uinv e l (pos, false) ->
  masked (Z.land (not64 (u_buf e)) (u64 (Z.shiftl (2 ^ 64 - 1) (pos mod 64)))) (flip true (padded l)) (pos / 64) (pos mod 64).
Proof.
  intros (H1 & H2 & H3 & H4). cbn [fst snd Z.b2z] in *. rewrite Z.add_0_r in H4. destruct H4 as [U B].
  assert (Hm : 0 <= pos mod 64 < 64) by (apply Z.mod_pos_bound; lia). split; [auto with u64s|]. intros i Hi.
  rewrite Z.land_spec, testbit_shl64, testbit_not64, B by lia. rewrite zbit_flip by (rewrite zlen_padded; dlia).
  replace (i <? 64) with true by lia. cbn [andb xorb]. destruct (Z.leb_spec (pos mod 64) i).
  - rewrite testbit_max by lia. replace (i - pos mod 64 <? 64) with true by lia. cbn [andb]. apply andb_true_r.
  - rewrite (Z.testbit_neg_r _ (i - pos mod 64)) by lia. apply andb_false_r.
Qed.
Lemma unary_skip0_none l e pos k : uinv e l (pos, false) -> Z.of_nat (count false (padded l)) <= Z.of_nat (rank false (padded l) (Z.to_nat pos)) + k ->
  unary_skip0 (pack l) e k = Ub OutOfBounds.
Proof.
  intros I C. pose proof (mask_zeros l e pos I) as M. destruct I as (H1 & H2 & H3 & H4). cbn [fst snd Z.b2z] in *.
  assert (Hm : 0 <= pos mod 64 < 64) by (apply Z.mod_pos_bound; lia). assert (P0 : 0 <= pos / 64) by (apply Z.div_pos; lia).
  unfold unary_skip0. rewrite H1, shl_ok by lia. cbn [bind]. rewrite skip0_loop_eq.
  rewrite (skip_loop_none true l k (rank false (padded l) (Z.to_nat pos))) with (k := pos / 64) (lo := pos mod 64); auto; try lia.
  - change (Z.of_nat (count true (map negb (padded l))) <= Z.of_nat (rank false (padded l) (Z.to_nat pos)) + k).
    rewrite <- (rank_all true (map negb (padded l)) (length (padded l))) by (rewrite map_length; lia).
    rewrite rank_map_negb. rewrite rank_all by lia. exact C.
  - unfold zlen. lia.
  - rewrite rank_flip. cbn [negb]. replace (64 * (pos / 64) + pos mod 64) with pos by dlia. lia.
Qed.
Lemma padded_sel l j : (j < Z.to_nat (64 * zlen (pack l) - zlen l))%nat -> is_select false (padded l) (count false l + j) (length l + j).
Proof.
  intros Hj. unfold padded. split.
  - rewrite nth_error_app2 by lia. replace (length l + j - length l)%nat with j by lia.
    rewrite (nth_error_nth' _ false) by (rewrite repeat_length; lia). rewrite nth_repeat. reflexivity.
  - rewrite rank_app2 by lia. replace (length l + j - length l)%nat with j by lia. f_equal. revert j Hj.
    induction (Z.to_nat (64 * zlen (pack l) - zlen l)) as [|n IH]; intros j Hj; [lia|]. destruct j as [|j]; [reflexivity|].
    cbn [repeat]. change (rank false (false :: repeat false n) (S j)) with (S (rank false (repeat false n) j)). f_equal. apply IH. lia.
Qed.

Lemma skip0_past l pos os rs p k : 0 <= pos < 64 * zlen (pack l) -> uspec_to l (pos, false) os rs (p, false) -> p <= zlen l -> 0 <= k ->
  Z.of_nat (count false l) <= Z.of_nat (rank false l (Z.to_nat p)) + k ->
  urun_from (canonical l) pos (os ++ [USkip0 k]) =
    let q := zlen l + (Z.of_nat (rank false l (Z.to_nat p)) + k - Z.of_nat (count false l)) in
    if q <? 64 * ((zlen l + 63) / 64) then Ok (rs ++ [q]) else Ub OutOfBounds.
Proof.
  intros Hp H Hl Hk C. cbv zeta. rewrite <- zlen_pack. unfold urun_from. cbn [canonical bv_words].
  destruct (unary_new_ok l pos ltac:(lia) ltac:(dlia)) as (e0 & E0 & I0).
  rewrite E0. cbn [bind]. destruct (uinv_to l e0 _ os rs (p, false) I0 H) as (e & I & R). rewrite R. cbn [urun ustep].
  pose proof I as (_ & I2 & _). cbn [fst] in I2.
  assert (RP : rank false (padded l) (Z.to_nat p) = rank false l (Z.to_nat p)) by (apply rank_padded; unfold zlen in Hl; lia).
  pose proof (count_padded_false l) as CP. pose proof (zlen_nonneg l).
  destruct (Z.ltb_spec (zlen l + (Z.of_nat (rank false l (Z.to_nat p)) + k - Z.of_nat (count false l))) (64 * zlen (pack l))) as [L|L].
  - set (j := Z.to_nat (Z.of_nat (rank false l (Z.to_nat p)) + k - Z.of_nat (count false l))).
    pose proof (padded_sel l j ltac:(unfold j; lia)) as S.
    replace (count false l + j)%nat with (rank false (padded l) (Z.to_nat p) + Z.to_nat k)%nat in S by (rewrite RP; unfold j; lia).
    destruct (unary_skip0_padded l e p k _ I Hk S) as (e' & -> & P & _). cbn [bind]. rewrite P. do 3 f_equal. unfold zlen, j. lia.
  - rewrite (unary_skip0_none l e p k I) by (rewrite RP, CP; lia). reflexivity.
Qed.

(** ** elias_fano::select_enumerator *)
Definition left_in_word (l n i0 i : Z) : Z := if l =? 0 then n - (i - i0) else (i0 - i) mod (64 / l).
Lemma left_step l n i0 i : 0 <= l < 64 -> i0 <= i < n -> 0 <= i0 ->
  (if left_in_word l n i0 i =? 0 then sub64 (if l =? 0 then 0 else 64 / l) 1 else left_in_word l n i0 i - 1) = left_in_word l n i0 (i + 1).
Proof.
  intros Hl Hi H0. unfold left_in_word. destruct (Z.eqb_spec l 0); [replace (n - (i - i0) =? 0) with false by lia; lia|].
  assert (W : 1 <= 64 / l) by (apply Z.div_le_lower_bound; lia). set (w := 64 / l) in *. clearbody w.
  pose proof (Z.mod_pos_bound (i0 - i) w ltac:(lia)) as B. pose proof (Z.div_mod (i0 - i) w ltac:(lia)) as D.
  destruct (Z.eqb_spec ((i0 - i) mod w) 0) as [Z0|N].
  - rewrite sub64_ok by lia. apply (Z.mod_unique _ _ ((i0 - i) / w - 1)); [left; lia|]. rewrite Z0 in D. lia.
  - apply (Z.mod_unique _ _ ((i0 - i) / w)); [left; lia|]. lia.
Qed.

Lemma se_next_avail ef e x e' : se_next ef e = Ok (x, e') ->
  se_avail e' = (if se_avail e =? 0 then sub64 (se_in_word e) 1 else se_avail e - 1) /\ se_in_word e' = se_in_word e.
Proof.
  unfold se_next. intros H. apply bind_inv in H. destruct H as ((buf, avail) & H1 & H). apply bind_inv in H. destruct H as ((high, u) & _ & H).
  apply bind_inv in H. destruct H as (s & _ & H). unfold assert_ in H. destruct (high =? s); [|discriminate].
  apply bind_inv in H. destruct H as (h & _ & H). apply bind_inv in H. destruct H as (b & _ & H). injection H as _ <-. cbn. split; [|reflexivity].
  destruct (se_avail e =? 0); [|injection H1 as _ <-; reflexivity]. apply bind_inv in H1. destruct H1 as (w & _ & H1). injection H1 as _ <-. reflexivity.
Qed.

Lemma se_end ef vs n m l H idx i0 : ef_ok ef vs n m l H idx -> 0 <= i0 -> forall k e i, seinv vs l H e i -> se_avail e = left_in_word l (zlen vs) i0 i ->
  i0 <= i -> i + Z.of_nat k = zlen vs ->
  se_run ef e (S k) = Ub (if left_in_word l (zlen vs) i0 (zlen vs) =? 0 then AssertFailed else OutOfBounds).
Proof.
  intros OK H0. pose proof OK as ((Hl & _) & _ & El & Eh & Elow & _). induction k as [|k IH]; intros e i E A Hi Hk.
  - cbn [se_run]. destruct E as (E1 & E2 & E3 & (u & s & E4 & U & Ru) & _). assert (i = zlen vs) as -> by lia. unfold se_next. rewrite A.
    destruct (left_in_word l (zlen vs) i0 (zlen vs) =? 0).
    + unfold get_word. rewrite assert_false; [reflexivity|]. rewrite Elow, E1, El. cbn [canonical bv_size]. rewrite zlen_pieces by lia. lia.
    + cbn [bind]. rewrite E4, Eh. cbn [canonical bv_words]. rewrite (unary_next_none H u s U); [reflexivity|].
      pose proof (count_ones _ _ _ _ _ _ _ OK). lia.
  - change (se_run ef e (S (S k))) with (do (v, e) <- se_next ef e; do vs <- se_run ef e (S k); Ok (v :: vs)).
    destruct (se_next_ok _ _ _ _ _ _ _ e i OK ltac:(lia) E) as (e' & E' & I'). rewrite E'. cbn [bind].
    destruct (se_next_avail _ _ _ _ E') as (A' & _). rewrite (IH e' (i + 1) I'); [reflexivity| |lia|lia].
    rewrite A', A. destruct E as (_ & _ & E3 & _). rewrite E3. apply left_step; lia.
Qed.

Lemma ef_enum_past gr n m vs idx : ef_input n m vs -> exists ef, ef_make gr n m vs idx = Ok ef /\
  forall i, (i < length vs)%nat -> exists e, se_new ef (Z.of_nat i) = Ok e /\
  se_run ef e (S (length vs - i)) =
    Ub (if (if ef_l ef =? 0 then Z.of_nat i =? 0 else (zlen vs - Z.of_nat i) mod (64 / ef_l ef) =? 0) then AssertFailed else OutOfBounds).
Proof.
  intros I. destruct (ef_make_ok gr n m vs idx I) as (ef & H & E & OK). exists ef. split; [auto|]. intros i Hi.
  pose proof OK as ((Hl & _) & _ & El & _). match type of El with _ = ?x => set (l := x) in * end.
  destruct (se_new_ok _ _ _ _ _ _ _ (Z.of_nat i) OK) as (e & En & J); [unfold zlen; lia|]. exists e. split; [auto|].
  assert (A : se_avail e = left_in_word l (zlen vs) (Z.of_nat i) (Z.of_nat i)).
  { unfold se_new in En. apply bind_inv in En. destruct En as (mk & _ & En). rewrite (num_ones_ok _ _ _ _ _ _ _ OK), El in En.
    replace (zlen vs =? 0) with false in En by (unfold zlen; lia). apply bind_inv in En. destruct En as (p & _ & En). apply bind_inv in En. destruct En as (u & _ & En).
    unfold assert_ in En. destruct (l <? 64); [|discriminate]. injection En as <-. cbn [se_avail]. unfold left_in_word. rewrite !Z.sub_diag.
    destruct (l =? 0); [lia|rewrite Zmod_0_l; reflexivity]. }
  rewrite (se_end _ _ _ _ _ _ _ (Z.of_nat i) OK ltac:(lia) (length vs - i) e (Z.of_nat i) J A ltac:(lia)) by (unfold zlen; lia).
  f_equal. rewrite El. unfold left_in_word. destruct (Z.eqb_spec l 0) as [Z0|Z0].
  - replace (zlen vs - (zlen vs - Z.of_nat i) =? 0) with (Z.of_nat i =? 0) by lia. reflexivity.
  - assert (W : 1 <= 64 / l) by (apply Z.div_le_lower_bound; lia). set (w := 64 / l) in *. clearbody w.
    destruct (Z.eqb_spec ((Z.of_nat i - zlen vs) mod w) 0) as [M|M], (Z.eqb_spec ((zlen vs - Z.of_nat i) mod w) 0) as [M'|M']; try reflexivity; exfalso.
    + apply M'. replace (zlen vs - Z.of_nat i) with (- (Z.of_nat i - zlen vs)) by lia. apply Z.mod_opp_l_z; auto; lia.
    + apply M. replace (Z.of_nat i - zlen vs) with (- (zlen vs - Z.of_nat i)) by lia. apply Z.mod_opp_l_z; auto; lia.
Qed.

