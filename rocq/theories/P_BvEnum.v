(** The two enumerators of bit_vector. *)
From Verif Require Import Base Spec Lib M_Broadword M_BitVector S_BitVector M_Darray P_BvGen.
From Verif Require Import P_BvLib P_BvRank P_Broadword P_Broadword2 P_BitVector.

(** ** enumerator *)
Definition einv (e : enumerator) (l : list bool) (s : estate) : Prop :=
  e_pos e = fst s /\ 0 <= fst s /\ 0 <= e_avail e <= 64 /\ is_u64 (e_buf e) /\
  if snd s then e_avail e = 0
  else forall i, 0 <= i < 64 -> Z.testbit (e_buf e) i = (i <? e_avail e) && zbit l (fst s + i).

Lemma einv_intro pos buf av l st : 0 <= pos -> 0 <= av <= 64 -> is_u64 buf ->
  (st = true -> av = 0) ->
  (st = false -> forall i, 0 <= i < 64 -> Z.testbit buf i = (i <? av) && zbit l (pos + i)) ->
  einv (mk_enum pos buf av) l (pos, st).
Proof. intros. split; [reflexivity|]. do 3 (split; [assumption|]). destruct st; cbn; auto. Qed.

(** a usable buffer with at least [n] bits *)
Definition ebuf (e : enumerator) (l : list bool) (pos n : Z) : Prop :=
  e_pos e = pos /\ n <= e_avail e <= 64 /\ is_u64 (e_buf e) /\
  forall i, 0 <= i < 64 -> Z.testbit (e_buf e) i = (i <? e_avail e) && zbit l (pos + i).

Lemma fill_buf_ok l e : 0 <= e_pos e < zlen l ->
  exists e', fill_buf (canonical l) e = Ok e' /\ ebuf e' l (e_pos e) 64 /\ e_avail e' = 64.
Proof.
  intros H. unfold fill_buf. rewrite get_word_bits by auto. cbn [bind].
  eexists; split; [reflexivity|]. split; [|reflexivity]. split; [reflexivity|]. split; [cbn; lia|].
  split; [apply value_window_u64|]. intros i Hi. cbn.
  rewrite testbit_value_z, zbit_window by lia. rewrite Z2Nat.id by lia. reflexivity.
Qed.

Lemma refill l e s n : einv e l s -> 0 < n <= 64 -> fst s < zlen l ->
  exists e', (if e_avail e <? n then fill_buf (canonical l) e else Ok e) = Ok e' /\
             ebuf e' l (fst s) n.
Proof.
  intros (H1 & H2 & H3 & H4 & H5) Hn Hp. destruct (Z.ltb_spec (e_avail e) n).
  - destruct (fill_buf_ok l e ltac:(lia)) as (e' & E & (B1 & B2 & B3 & B4) & A). exists e'.
    split; auto. rewrite H1 in *. repeat split; auto; try lia; apply B3.
  - exists e. split; auto. destruct s as [p st]; cbn [fst snd] in *. destruct st; [lia|].
    repeat split; auto; try lia; apply H4.
Qed.

Lemma enum_next_ok l e pos st b : einv e l (pos, st) -> nth_error l (Z.to_nat pos) = Some b ->
  exists e', enum_next (canonical l) e = Ok (b, e') /\ einv e' l (pos + 1, false).
Proof.
  intros H Hb. pose proof H as (_ & H2 & H3 & _). cbn [fst] in H2.
  assert (Hp : pos < zlen l).
  { unfold zlen. assert (Z.to_nat pos < length l)%nat by (apply nth_error_Some; congruence). lia. }
  unfold enum_next.
  replace (e_avail e =? 0) with (e_avail e <? 1) by lia.
  destruct (refill l e _ 1 H ltac:(lia) Hp) as (e1 & -> & B1 & B2 & B3 & B4). cbn [bind fst] in *.
  eexists; split.
  - f_equal. f_equal. change 1 with (Z.ones 1) at 1. rewrite Z.land_ones, <- Z.bit0_mod by lia.
    rewrite B4 by lia. replace (0 <? e_avail e1) with true by lia. cbn [andb].
    rewrite Z.add_0_r. assert (zbit l pos = b) as ->.
    { rewrite zbit_nth_error in Hb by lia. congruence. }
    destruct b; reflexivity.
  - rewrite B1. apply einv_intro; try lia; [apply shiftr_is; auto; lia|].
    intros _ i Hi. rewrite Z.shiftr_spec by lia. destruct (Z.eq_dec i 63) as [->|].
    + rewrite testbit_high64 by (auto; lia). replace (63 <? e_avail e1 - 1) with false by lia. auto.
    + rewrite B4 by lia. replace (i <? e_avail e1 - 1) with (i + 1 <? e_avail e1) by lia.
      f_equal. f_equal. lia.
Qed.

Lemma enum_take_ok l e pos st n : einv e l (pos, st) -> 0 < n <= 64 -> pos < zlen l ->
  exists e', enum_take (canonical l) e n = Ok (value (window l (Z.to_nat pos) (Z.to_nat n)), e') /\
             einv e' l (pos + n, n =? 64).
Proof.
  intros H Hn Hp. pose proof H as (_ & H2 & _). cbn [fst] in H2. unfold enum_take.
  destruct (refill l e _ n H Hn Hp) as (e1 & -> & B1 & B2 & B3 & B4). cbn [bind fst] in *.
  assert (V : forall i, 0 <= i -> Z.testbit (value (window l (Z.to_nat pos) (Z.to_nat n))) i =
      (i <? n) && zbit l (pos + i)).
  { intros i Hi. rewrite testbit_value_z, zbit_window by lia. rewrite !Z2Nat.id by lia. auto. }
  destruct (Z.eqb_spec n 64) as [->|Hn64].
  - cbn [bind]. eexists; split.
    + do 2 f_equal. apply Z.bits_inj'. intros i Hi. rewrite V by auto.
      destruct (Z.ltb_spec i 64); [|apply testbit_high64; auto]. rewrite B4 by lia.
      replace (i <? e_avail e1) with true by lia. reflexivity.
    + rewrite B1, u64_small by lia. apply einv_intro; try lia; auto.
  - rewrite shl_ok by lia. cbn [bind]. rewrite shr_ok by lia. cbn [bind].
    eexists; split.
    + do 2 f_equal. apply Z.bits_inj'. intros i Hi. rewrite V by auto.
      rewrite Z.land_spec, testbit_mask by lia. destruct (Z.ltb_spec i n).
      * rewrite B4 by lia. replace (i <? e_avail e1) with true by lia. rewrite andb_true_r. reflexivity.
      * apply andb_false_r.
    + rewrite B1, u64_small by lia. apply einv_intro; try lia; [apply shiftr_is; auto; lia|].
      intros _ i Hi. rewrite Z.shiftr_spec by lia. destruct (Z.lt_ge_cases (i + n) 64).
      * rewrite B4 by lia. replace (i <? e_avail e1 - n) with (i + n <? e_avail e1) by lia.
        f_equal. f_equal. lia.
      * rewrite testbit_high64 by (auto; lia). replace (i <? e_avail e1 - n) with false by lia. auto.
Qed.

Lemma skip_zeros_loop_ok l q fuel : q < zlen l -> zbit l q = true -> forall e zs,
  0 <= e_pos e -> ebuf e l (e_pos e) 0 -> 0 <= e_avail e -> e_pos e <= q ->
  (forall p, e_pos e <= p < q -> zbit l p = false) ->
  q - e_pos e < 64 * Z.of_nat fuel + e_avail e ->
  exists e', skip_zeros_loop fuel (canonical l) e zs = Ok (e', zs + (e_pos e' - e_pos e)) /\
    ebuf e' l (e_pos e') 0 /\ e_pos e <= e_pos e' <= q /\ e_buf e' <> 0.
Proof.
  intros Hq Eq. induction fuel as [|fuel IH]; intros e zs Hp (B1 & B2 & B3 & B4) Ha Hpq Hz Hf.
  all: cbn [skip_zeros_loop]; destruct (Z.eqb_spec (e_buf e) 0) as [E0|E0].
  2,4: exists e; rewrite Z.sub_diag, Z.add_0_r; repeat split; auto; try lia; apply B3.
  - exfalso. assert (T : Z.testbit (e_buf e) (q - e_pos e) = true).
    { rewrite B4 by lia. replace (q - e_pos e <? e_avail e) with true by lia.
      replace (e_pos e + (q - e_pos e)) with q by lia. auto. }
    rewrite E0, Z.testbit_0_l in T. discriminate.
  - assert (G : e_pos e + e_avail e <= q).
    { destruct (Z.le_gt_cases (e_pos e + e_avail e) q); auto. exfalso.
      assert (T : Z.testbit (e_buf e) (q - e_pos e) = true).
      { rewrite B4 by lia. replace (q - e_pos e <? e_avail e) with true by lia.
        replace (e_pos e + (q - e_pos e)) with q by lia. auto. }
      rewrite E0, Z.testbit_0_l in T. discriminate. }
    destruct (fill_buf_ok l (mk_enum (e_pos e + e_avail e) (e_buf e) 0) ltac:(cbn; lia))
      as (e1 & -> & B & A). cbn [bind]. cbn in B. pose proof B as (P1 & _).
    assert (Be : ebuf e1 l (e_pos e1) 0)
      by (rewrite P1; destruct B as (? & ? & ? & ?); split; [|split; [lia|split]]; auto).
    assert (Hz1 : forall p, e_pos e1 <= p < q -> zbit l p = false) by (intros; apply Hz; lia).
    destruct (IH e1 (zs + e_avail e) ltac:(lia) Be ltac:(lia) ltac:(lia) Hz1 ltac:(lia))
      as (e2 & E2 & B' & R & N).
    exists e2. rewrite E2. split; [|split; [|split]]; auto; try lia.
    rewrite P1. do 2 f_equal. lia.
Qed.

Lemma lsb_of_first w c : is_u64 w -> 0 <= c < 64 -> Z.testbit w c = true ->
  (forall i, 0 <= i < c -> Z.testbit w i = false) -> is_lsb w c.
Proof. intros. split; [lia|]. split; auto. Qed.

Lemma enum_skip_zeros_ok l e pos q : einv e l (pos, false) -> pos <= q ->
  nth_error l (Z.to_nat q) = Some true ->
  (forall p, pos <= p < q -> nth_error l (Z.to_nat p) = Some false) ->
  exists e', enum_skip_zeros (canonical l) e = Ok (q - pos, e') /\ einv e' l (q + 1, false).
Proof.
  intros (H1 & H2 & H3 & H4 & H5) Hpq Hq Hz. cbn [fst snd] in *. unfold enum_skip_zeros.
  assert (Hql : q < zlen l).
  { unfold zlen. assert (Z.to_nat q < length l)%nat by (apply nth_error_Some; congruence). lia. }
  assert (Eq : zbit l q = true) by (rewrite zbit_nth_error in Hq by lia; congruence).
  assert (Ez : forall p, pos <= p < q -> zbit l p = false).
  { intros p Hp. specialize (Hz p Hp). rewrite zbit_nth_error in Hz by lia. congruence. }
  subst pos.
  destruct (skip_zeros_loop_ok l q (S (S (length (bv_words (canonical l))))) Hql Eq e 0)
    as (e1 & -> & (B1 & B2 & B3 & B4) & R & N); auto; try lia.
  { split; [auto|]. split; [lia|]. split; auto. }
  { assert (zlen l <= 64 * zlen (pack l)) by (rewrite zlen_pack; clear; dlia).
    unfold canonical; cbn [bv_words]. unfold zlen in *. lia. }
  cbn [bind].
  set (c := q - e_pos e1).
  assert (Hc : 0 <= c < 64 /\ c < e_avail e1).
  { assert (exists i, 0 <= i < 64 /\ Z.testbit (e_buf e1) i = true) as (i & Hi & Ti).
    { destruct (is_lsb_exists (e_buf e1)) as [i Hi]; [unfold is_u64 in B3; lia|].
      exists i. split; [eapply is_lsb_lt64; eauto|]. apply Hi. }
    rewrite B4 in Ti by auto. apply andb_true_iff in Ti. destruct Ti as [T1 T2].
    destruct (Z.lt_ge_cases (e_pos e1 + i) q).
    - rewrite Ez in T2 by lia. discriminate.
    - unfold c. lia. }
  assert (L : is_lsb (e_buf e1) c).
  { apply lsb_of_first; auto; [lia| |].
    - rewrite B4 by lia. replace (c <? e_avail e1) with true by lia. cbn [andb].
      replace (e_pos e1 + c) with q by (unfold c; lia). auto.
    - intros i Hi. rewrite B4 by lia. rewrite Ez by (unfold c in *; lia). apply andb_false_r. }
  rewrite (lsb_correct _ c) by auto. cbn [bind]. rewrite shr_ok by lia. cbn [bind].
  rewrite u64_small by lia.
  eexists; split; [f_equal; f_equal; unfold c; lia|].
  replace (e_pos e1 + (c + 1)) with (q + 1) by (unfold c; lia).
  apply einv_intro; try lia; [apply shiftr_is; [lia|]; apply shiftr_is; auto; lia|].
  intros _ i Hi. rewrite !Z.shiftr_spec by lia. destruct (Z.lt_ge_cases (i + 1 + c) 64).
  - rewrite B4 by lia. replace (i <? e_avail e1 - (c + 1)) with (i + 1 + c <? e_avail e1) by lia.
    f_equal. f_equal. unfold c. lia.
  - rewrite testbit_high64 by (auto; lia). replace (i <? e_avail e1 - (c + 1)) with false by lia. auto.
Qed.

Lemma estep_ok l e s o r s' : einv e l s -> espec l s o r s' ->
  exists e', estep (canonical l) e o = Ok (r, e') /\ einv e' l s'.
Proof.
  intros H Hs. inversion Hs; subst; cbn [estep].
  - destruct (enum_next_ok l e _ _ b H H0) as (e' & -> & I). cbn [bind]. eauto.
  - unfold enum_take. replace (e_avail e <? 0) with false by (destruct H as (_ & _ & H & _); lia).
    cbn [bind Z.eqb]. rewrite shl_ok, shr_ok by lia. cbn [bind].
    change (u64 (u64 (Z.shiftl 1 0) - 1)) with 0. rewrite Z.land_0_r, Z.shiftr_0_r.
    pose proof H as (P1 & P2 & P3 & P4 & P5).
    eexists; split; [reflexivity|]. rewrite Z.sub_0_r, u64_small, Z.add_0_r by lia.
    destruct e; exact H.
  - destruct (enum_take_ok l e _ _ n H H0 H1) as (e' & -> & I). eauto.
  - apply enum_skip_zeros_ok; auto.
Qed.

Theorem enum_history l pos os rs p : 0 <= pos ->
  espec_run l (pos, false) os rs p -> erun (canonical l) (enum_new pos) os = Ok (rs, p).
Proof.
  intros Hp H.
  assert (I : einv (enum_new pos) l (pos, false)).
  { apply einv_intro; try lia; [unfold is_u64; lia|]. intros _ i Hi. rewrite Z.testbit_0_l.
    replace (i <? 0) with false by lia. reflexivity. }
  remember (pos, false) as s eqn:Es. clear Es Hp. revert I. generalize (enum_new pos).
  induction H as [pos' st|s o r s' os rs p Hs Hr IH]; intros e I; cbn [erun].
  - destruct I as (-> & _). reflexivity.
  - destruct (estep_ok l e s o r s' I Hs) as (e' & -> & I'). cbn [bind].
    rewrite (IH e' I'). reflexivity.
Qed.

(** ** unary_enumerator *)

(** the sequence padded to whole words, complemented when looking for zeros *)
Definition padded (l : list bool) : list bool :=
  l ++ repeat false (Z.to_nat (64 * zlen (pack l) - zlen l)).
Definition flip (neg : bool) (l : list bool) : list bool := if neg then map negb l else l.

Lemma zlen_padded l : zlen (padded l) = 64 * zlen (pack l).
Proof. unfold padded. rewrite zlen_app, zlen_repeat. pose proof (zlen_pack l). dlia. Qed.
Lemma zbit_padded l p : zbit (padded l) p = zbit l p.
Proof.
  unfold padded. rewrite zbit_app, zbit_repeat, andb_false_r.
  destruct (Z.ltb_spec p (zlen l)); auto. symmetry; apply zbit_out; lia.
Qed.
Lemma zlen_flip neg l : zlen (flip neg l) = zlen l.
Proof. destruct neg; cbn; auto. apply zlen_map. Qed.
Lemma zbit_flip neg l p : 0 <= p < zlen l -> zbit (flip neg l) p = xorb neg (zbit l p).
Proof.
  intros. destruct neg; cbn [flip xorb].
  - apply zbit_map_negb; auto.
  - destruct (zbit l p); auto.
Qed.
Lemma is_select_flip neg l k q : is_select true (flip neg l) k q <-> is_select (negb neg) l k q.
Proof. destruct neg; cbn; [apply is_select_map_negb|reflexivity]. Qed.
Lemma rank_flip neg l p : rank true (flip neg l) p = rank (negb neg) l p.
Proof. destruct neg; cbn; [apply rank_map_negb|reflexivity]. Qed.
Lemma rank_padded b l p : (p <= length l)%nat -> rank b (padded l) p = rank b l p.
Proof. intros; apply rank_app1; auto. Qed.
Lemma is_select_padded b l k q : is_select b l k q -> is_select b (padded l) k q.
Proof. apply is_select_app1. Qed.

Lemma getw_masked neg l k : 0 <= k < zlen (pack l) ->
  exists w, getw neg (pack l) k = Ok w /\ masked w (flip neg (padded l)) k 0.
Proof.
  intros Hk. destruct (getw_ok neg (pack l) l k (words_ok_pack l) Hk) as (w & E & U & B).
  exists w. split; auto. split; auto. intros i Hi. rewrite B by auto.
  rewrite zbit_flip by (rewrite zlen_padded; lia). rewrite zbit_padded.
  replace (0 <=? i) with true by lia. reflexivity.
Qed.

(** [base]: rank at the start of the search *)
Lemma skip_loop_ok neg l kk q base fuel : 0 <= kk ->
  is_select true (flip neg (padded l)) (base + Z.to_nat kk) q ->
  forall k w lo sk pos, 0 <= k -> pos / 64 = k -> masked w (flip neg (padded l)) k lo -> 0 <= lo <= 64 ->
  k <= Z.of_nat q / 64 -> Z.of_nat q / 64 - k < Z.of_nat fuel -> 0 <= sk <= kk ->
  Z.of_nat (rank true (flip neg (padded l)) (Z.to_nat (64 * k + lo))) = Z.of_nat base + sk ->
  exists sk' pos' w' lo', uskip_loop neg fuel (pack l) kk sk pos w = Ok (sk', pos', w') /\
    pos' / 64 = Z.of_nat q / 64 /\ masked w' (flip neg (padded l)) (pos' / 64) lo' /\
    0 <= lo' <= 64 /\ 0 <= sk' <= kk /\ (pos' / 64 = k -> lo' = lo) /\ (pos' / 64 <> k -> lo' = 0) /\
    Z.of_nat (rank true (flip neg (padded l)) (Z.to_nat (64 * (pos' / 64) + lo'))) = Z.of_nat base + sk'.
Proof.
  set (m := flip neg (padded l)). intros Hkk Hq.
  assert (Lm : zlen m = 64 * zlen (pack l)) by (unfold m; rewrite zlen_flip, zlen_padded; auto).
  pose proof (is_select_bound _ _ _ _ Hq) as Hql.
  assert (Hq64 : Z.of_nat q / 64 < zlen (pack l)) by (unfold zlen in Lm, Hql; unfold zlen; dlia).
  pose proof (Z.div_mod (Z.of_nat q) 64 ltac:(lia)) as Dq.
  pose proof (Z.mod_pos_bound (Z.of_nat q) 64 ltac:(lia)) as Mq.
  set (Q := Z.of_nat q / 64) in *. set (r := Z.of_nat q mod 64) in *. clearbody Q r.
  induction fuel as [|fuel IH]; intros k w lo sk pos Hk Hpos Hw Hlo HkQ Hf Hsk Hr; [lia|].
  cbn [uskip_loop].
  pose proof (masked_popcount w m k lo Hw Hk Hlo ltac:(lia)) as Pc.
  destruct (Z.leb_spec (sk + popcount w) kk) as [C|C].
  - assert (HkQ' : k < Q).
    { destruct (Z.eq_dec k Q); [|lia]. exfalso.
      pose proof (is_select_rank_lt _ _ _ _ (Z.to_nat (64 * (k + 1))) Hq ltac:(lia)). lia. }
    replace ((pos + 64) / 64) with (k + 1) by dlia.
    destruct (getw_masked neg l (k + 1) ltac:(lia)) as (w1 & -> & Hw1). cbn [bind]. fold m in Hw1.
    pose proof (popcount_le w (proj1 Hw)) as PL.
    destruct (IH (k + 1) w1 0 (sk + popcount w) (pos + 64)) as (sk' & pos' & w' & lo' & E & R1 & R2 & R3 & R4 & R5 & R6 & R7);
      auto; try lia; try dlia.
    { rewrite Z.add_0_r. lia. }
    exists sk', pos', w', lo'. repeat split; auto; try lia; apply R2.
  - exists sk, pos, w, lo.
    assert (EQ : Q = k).
    { destruct (Z.eq_dec k Q); [lia|]. exfalso.
      pose proof (is_select_rank_ge _ _ _ _ (Z.to_nat (64 * (k + 1))) Hq ltac:(lia)). lia. }
    rewrite Hpos.
    repeat split; auto; try lia; apply Hw.
Qed.

Lemma align64_eq pos : align64 pos = 64 * (pos / 64).
Proof. reflexivity. Qed.

Definition uinv (e : unary_enum) (l : list bool) (s : Z * bool) : Prop :=
  u_pos e = fst s /\ 0 <= fst s /\ fst s / 64 < zlen (pack l) /\
  masked (u_buf e) (padded l) (fst s / 64) (fst s mod 64 + Z.b2z (snd s)).

Lemma ustart_eq s : 0 <= fst s ->
  ustart s = Z.to_nat (64 * (fst s / 64) + (fst s mod 64 + Z.b2z (snd s))).
Proof. intros. unfold ustart. f_equal. dlia. Qed.

Lemma ulo_range s : 0 <= fst s -> 0 <= fst s mod 64 + Z.b2z (snd s) <= 64.
Proof. intros. destruct (snd s); simpl Z.b2z; dlia. Qed.

(** keeping the bits from [c] on *)
Lemma masked_above w m k lo c : masked w m k lo -> lo <= c -> 0 <= c < 64 ->
  masked (Z.land w (u64 (Z.shiftl (2 ^ 64 - 1) c))) m k c.
Proof.
  intros [U B] Hc Hc'. split; [auto with u64s|]. intros i Hi.
  rewrite Z.land_spec, testbit_shl64, B by lia. destruct (Z.leb_spec c i).
  - rewrite testbit_max by lia. replace (i - c <? 64) with true by lia.
    replace (lo <=? i) with true by lia. rewrite andb_true_r. reflexivity.
  - rewrite (Z.testbit_neg_r _ (i - c)) by lia. apply andb_false_r.
Qed.

Lemma masked_flip_back w l k lo c : masked w (flip true (padded l)) k lo -> 0 <= k < zlen (pack l) ->
  lo <= c -> 0 <= c < 64 ->
  masked (Z.land (not64 w) (u64 (Z.shiftl (2 ^ 64 - 1) c))) (padded l) k c.
Proof.
  intros [U B] Hk Hc Hc'. split; [auto with u64s|]. intros i Hi.
  rewrite Z.land_spec, testbit_shl64, testbit_not64, B by lia.
  replace (i <? 64) with true by lia. cbn [andb]. destruct (Z.leb_spec c i).
  - rewrite testbit_max by lia. replace (i - c <? 64) with true by lia.
    replace (lo <=? i) with true by lia. cbn [andb]. rewrite andb_true_r.
    rewrite zbit_flip by (rewrite zlen_padded; lia). cbn [xorb]. apply negb_involutive.
  - rewrite (Z.testbit_neg_r _ (i - c)) by lia. apply andb_false_r.
Qed.

Lemma unary_new_ok l pos : 0 <= pos -> pos / 64 < zlen (pack l) ->
  exists e, unary_new (pack l) pos = Ok e /\ uinv e l (pos, false).
Proof.
  intros Hp Hl. unfold unary_new. rewrite W_rd by dlia. cbn [bind].
  assert (Hm : 0 <= pos mod 64 < 64) by (apply Z.mod_pos_bound; lia).
  rewrite shl_ok by lia. eexists; split; [reflexivity|]. split; [reflexivity|]. cbn [fst snd Z.b2z].
  split; [auto|]. split; [auto|]. rewrite Z.add_0_r. cbn [u_buf].
  apply masked_above with (lo := 0); try lia.
  destruct (words_ok_pack l) as (U & E & B). split; [auto with u64s|]. intros i Hi.
  rewrite zbit_padded, B by dlia. replace (0 <=? i) with true by lia. reflexivity.
Qed.

(** the common search of skip, skip_no_move and skip0 *)
Lemma skip_search neg l pos w lo kk q : 0 <= pos -> pos / 64 < zlen (pack l) ->
  masked w (flip neg (padded l)) (pos / 64) lo -> 0 <= lo <= 64 -> 0 <= kk ->
  is_select true (flip neg (padded l))
    (rank true (flip neg (padded l)) (Z.to_nat (64 * (pos / 64) + lo)) + Z.to_nat kk) q ->
  exists sk pos' w' lo',
    uskip_loop neg (S (length (pack l))) (pack l) kk 0 pos w = Ok (sk, pos', w') /\
    w' <> 0 /\ 0 <= pos' / 64 < zlen (pack l) /\
    select_in_word w' (kk - sk) = Ok (Z.of_nat q - 64 * (pos' / 64)) /\
    masked w' (flip neg (padded l)) (pos' / 64) lo' /\
    0 <= lo' <= Z.of_nat q - 64 * (pos' / 64) /\ pos' / 64 = Z.of_nat q / 64.
Proof.
  intros Hp Hl Hw Hlo Hkk Hq.
  set (m := flip neg (padded l)) in *. set (base := rank true m (Z.to_nat (64 * (pos / 64) + lo))) in *.
  assert (Lm : zlen m = 64 * zlen (pack l)) by (unfold m; rewrite zlen_flip, zlen_padded; auto).
  pose proof (is_select_bound _ _ _ _ Hq) as Hql.
  assert (Hq64 : 0 <= Z.of_nat q / 64 < zlen (pack l)) by (unfold zlen in Lm, Hql; unfold zlen; dlia).
  assert (Hge : (Z.to_nat (64 * (pos / 64) + lo) <= q)%nat).
  { destruct (Nat.le_gt_cases (Z.to_nat (64 * (pos / 64) + lo)) q); auto. exfalso.
    pose proof (is_select_rank_lt _ _ _ _ _ Hq H). fold base in H0. lia. }
  assert (P0 : 0 <= pos / 64) by (apply Z.div_pos; lia).
  assert (P1 : pos / 64 <= Z.of_nat q / 64).
  { clear - Hge Hlo P0. set (a := pos / 64) in *. clearbody a. dlia. }
  assert (P2 : Z.of_nat q / 64 - pos / 64 < Z.of_nat (S (length (pack l)))) by (unfold zlen in *; lia).
  assert (P3 : Z.of_nat (rank true (flip neg (padded l)) (Z.to_nat (64 * (pos / 64) + lo))) = Z.of_nat base + 0)
    by (fold m; unfold base; lia).
  destruct (skip_loop_ok neg l kk q base (S (length (pack l))) Hkk Hq
              (pos / 64) w lo 0 pos P0 eq_refl Hw Hlo P1 P2 ltac:(lia) P3)
    as (sk & pos' & w' & lo' & E & R1 & R2 & R3 & R4 & R5 & R6 & R7).
  exists sk, pos', w', lo'. fold m in R2, R7.
  destruct (masked_select w' m (pos' / 64) lo' (kk - sk) q) as [S1 S2]; auto; try lia; try dlia.
  { replace (rank true m (Z.to_nat (64 * (pos' / 64) + lo')) + Z.to_nat (kk - sk))%nat
      with (base + Z.to_nat kk)%nat by lia. auto. }
  split; [auto|]. split.
  { intros ->. pose proof (masked_popcount 0 m (pos' / 64) lo' R2 ltac:(lia) R3 ltac:(lia)) as P.
    change (popcount 0) with 0 in P.
    pose proof (is_select_rank_lt _ _ _ _ (Z.to_nat (64 * (pos' / 64 + 1))) Hq ltac:(dlia)). lia. }
  split; [lia|]. split; [auto|]. split; [auto|]. split; [lia|auto].
Qed.

Lemma masked_false m : flip false m = m.
Proof. reflexivity. Qed.

Lemma ustart_le l s : 0 <= fst s -> fst s / 64 < zlen (pack l) ->
  (ustart s <= length (padded l))%nat.
Proof.
  intros H1 H2. rewrite ustart_eq by auto. pose proof (ulo_range s H1).
  pose proof (zlen_padded l). unfold zlen in *. lia.
Qed.

(** a select of the sequence is one of the padded sequence, from a start inside it *)
Lemma sel_pad b l s k q : is_select b l (rank b l (ustart s) + k) q ->
  is_select b (padded l) (rank b (padded l) (ustart s) + k) q.
Proof.
  intros H. destruct (Nat.le_gt_cases (ustart s) (length l)) as [L|L].
  - rewrite rank_padded by auto. apply is_select_padded; auto.
  - exfalso. rewrite rank_all in H by lia. destruct H as [H1 H2].
    assert (q < length l)%nat by (apply nth_error_Some; congruence).
    pose proof (rank_S b l q b H1) as H3. rewrite eqb_reflx in H3.
    pose proof (rank_le_count b l (S q)). lia.
Qed.

Lemma unary_skip_no_move_ok l e s k q : uinv e l s -> 0 <= k ->
  is_select true l (rank true l (ustart s) + Z.to_nat k) q ->
  unary_skip_no_move (pack l) e k = Ok (Z.of_nat q) /\
  exists e', unary_skip (pack l) e k = Ok e' /\ u_pos e' = Z.of_nat q /\ uinv e' l (Z.of_nat q, false).
Proof.
  intros (H1 & H2 & H3 & H4) Hk Hq. apply sel_pad in Hq. rewrite ustart_eq in Hq by auto.
  destruct (skip_search false l (fst s) (u_buf e) _ k q H2 H3 H4 (ulo_range s H2) Hk Hq)
    as (sk & pos' & w' & lo' & E & N & P & S & M & R).
  unfold unary_skip_no_move, unary_skip. rewrite !skip_loop_eq. rewrite H1, E. cbn [bind].
  rewrite !assert_true by lia. rewrite S. cbn [bind]. rewrite align64_eq. split; [f_equal; lia|].
  destruct R as [R R2]. rewrite R2 in *.
  assert (Em : Z.of_nat q - 64 * (Z.of_nat q / 64) = Z.of_nat q mod 64) by dlia. rewrite Em in *.
  assert (Hm : 0 <= Z.of_nat q mod 64 < 64) by (apply Z.mod_pos_bound; lia).
  rewrite shl_ok by lia. cbn [bind]. eexists; split; [reflexivity|]. cbn [u_pos]. split; [lia|].
  split; [cbn; lia|]. cbn [fst snd u_buf Z.b2z]. split; [lia|]. split; [lia|]. rewrite Z.add_0_r.
  apply masked_above with (lo := lo'); auto; lia.
Qed.

Lemma unary_skip0_ok l e pos k q : uinv e l (pos, false) -> 0 <= k ->
  is_select false l (rank false l (Z.to_nat pos) + Z.to_nat k) q ->
  exists e', unary_skip0 (pack l) e k = Ok e' /\ u_pos e' = Z.of_nat q /\ uinv e' l (Z.of_nat q, false).
Proof.
  intros (H1 & H2 & H3 & H4) Hk Hq. cbn [fst snd Z.b2z] in *. rewrite Z.add_0_r in H4.
  replace (Z.to_nat pos) with (ustart (pos, false)) in Hq by (unfold ustart; cbn; f_equal; lia).
  apply sel_pad in Hq.
  rewrite ustart_eq in Hq by auto. cbn [fst snd Z.b2z] in Hq. rewrite Z.add_0_r in Hq.
  assert (Hm : 0 <= pos mod 64 < 64) by (apply Z.mod_pos_bound; lia).
  unfold unary_skip0. rewrite H1. rewrite shl_ok by lia. cbn [bind]. rewrite skip0_loop_eq.
  set (w0 := Z.land _ _).
  assert (M0 : masked w0 (flip true (padded l)) (pos / 64) (pos mod 64)).
  { destruct H4 as [U B]. unfold w0. split; [auto with u64s|]. intros i Hi.
    rewrite Z.land_spec, testbit_shl64, testbit_not64, B by lia.
    rewrite zbit_flip by (rewrite zlen_padded; dlia).
    replace (i <? 64) with true by lia. cbn [andb xorb]. destruct (Z.leb_spec (pos mod 64) i).
    - rewrite testbit_max by lia. replace (i - pos mod 64 <? 64) with true by lia.
      cbn [andb]. apply andb_true_r.
    - rewrite (Z.testbit_neg_r _ (i - pos mod 64)) by lia. apply andb_false_r. }
  change (is_select (negb true) (padded l)
     (rank (negb true) (padded l) (Z.to_nat (64 * (pos / 64) + pos mod 64)) + Z.to_nat k) q) in Hq.
  rewrite <- rank_flip, <- is_select_flip in Hq.
  destruct (skip_search true l pos w0 _ k q H2 H3 M0 ltac:(lia) Hk Hq)
    as (sk & pos' & w' & lo' & E & N & P & S & M & R & R2).
  rewrite E. cbn [bind]. rewrite assert_true by lia. rewrite S. cbn [bind]. rewrite align64_eq.
  rewrite R2 in *.
  assert (Em : Z.of_nat q - 64 * (Z.of_nat q / 64) = Z.of_nat q mod 64) by dlia. rewrite Em in *.
  assert (Hmq : 0 <= Z.of_nat q mod 64 < 64) by (apply Z.mod_pos_bound; lia).
  rewrite shl_ok by lia. cbn [bind]. eexists; split; [reflexivity|]. cbn [u_pos]. split; [lia|].
  split; [cbn; lia|]. cbn [fst snd u_buf Z.b2z]. split; [lia|]. split; [lia|]. rewrite Z.add_0_r.
  apply masked_flip_back with (lo := lo'); auto; lia.
Qed.

Lemma clear_lsb w m k lo c : masked w m k lo -> is_lsb w c -> 0 <= c < 64 -> lo <= c ->
  masked (Z.land w (u64 (w - 1))) m k (c + 1).
Proof.
  intros [U B] L Hc Hlc. split; [auto with u64s|]. intros i Hi.
  pose proof (is_lsb_nonzero w c L) as N.
  assert (Hw : 0 < w) by (unfold is_u64 in U; lia).
  destruct (lowest_bit_exists w Hw) as (c' & q & Hc' & Hq & E).
  assert (c' = c).
  { apply (is_lsb_unique w); auto. rewrite E. apply lowest_bit_bits; auto. }
  subst c'. rewrite Z.land_spec. unfold u64. rewrite Z.mod_pow2_bits_low by lia.
  destruct L as (_ & L1 & L2).
  assert (P : 0 < 2 ^ c) by (apply Z.pow_pos_nonneg; lia).
  assert (P' : 2 ^ (c + 1) = 2 * 2 ^ c) by (rewrite Z.pow_add_r by lia; lia).
  destruct (Z.lt_trichotomy i c) as [D|[D|D]].
  - rewrite L2 by lia. replace (c + 1 <=? i) with false by lia. reflexivity.
  - subst i. replace (c + 1 <=? c) with false by lia.
    replace (Z.testbit (w - 1) c) with false; [apply andb_false_r|].
    change c with (0 + c) at 1. rewrite <- Z.shiftr_spec, Z.shiftr_div_pow2 by lia.
    replace ((w - 1) / 2 ^ c) with (2 * q); [symmetry; apply Z.testbit_even_0|].
    apply Z.div_unique with (2 ^ c - 1); nia.
  - replace (Z.testbit (w - 1) i) with (Z.testbit w i).
    { rewrite B by lia. replace (lo <=? i) with true by lia. replace (c + 1 <=? i) with true by lia.
      destruct (zbit _ _); reflexivity. }
    replace i with ((i - (c + 1)) + (c + 1)) by lia.
    rewrite <- !Z.shiftr_spec, !Z.shiftr_div_pow2 by lia. f_equal.
    transitivity q; [symmetry|]; [apply Z.div_unique with (2 ^ c) | apply Z.div_unique with (2 ^ c - 1)]; nia.
Qed.

Lemma first_one m s q : is_select true m (rank true m s) q ->
  (s <= q)%nat /\ zbit m (Z.of_nat q) = true /\
  forall j, Z.of_nat s <= j < Z.of_nat q -> zbit m j = false.
Proof.
  intros H. pose proof (is_select_bound _ _ _ _ H) as Hb. split; [|split].
  - destruct (Nat.le_gt_cases s q) as [|G]; auto. pose proof (is_select_rank_lt _ _ _ _ _ H G). lia.
  - pose proof (zbit_nth_error m (Z.of_nat q) ltac:(unfold zlen; lia)) as E. rewrite Nat2Z.id in E.
    destruct H as [H _]. congruence.
  - intros j Hj. destruct (zbit m j) eqn:E; auto. exfalso.
    pose proof (zbit_nth_error m j ltac:(unfold zlen; lia)) as E'. rewrite E in E'. clear E. rename E' into E.
    pose proof (rank_S true m (Z.to_nat j) true E) as R. cbn [eqb] in R.
    pose proof (rank_mono true m s (Z.to_nat j) ltac:(lia)).
    pose proof (rank_mono true m (S (Z.to_nat j)) q ltac:(lia)). destruct H as [_ H]. lia.
Qed.

Lemma unary_next_loop_ok l q : Z.of_nat q / 64 < zlen (pack l) -> zbit (padded l) (Z.of_nat q) = true ->
  forall fuel k w lo pos, 0 <= k -> pos / 64 = k -> masked w (padded l) k lo -> 0 <= lo <= 64 ->
  64 * k + lo <= Z.of_nat q -> (forall j, 64 * k + lo <= j < Z.of_nat q -> zbit (padded l) j = false) ->
  Z.of_nat q / 64 - k < Z.of_nat fuel ->
  exists pos' w' lo', unary_next_loop fuel (pack l) pos w = Ok (pos', w', Z.of_nat q mod 64) /\
    pos' / 64 = Z.of_nat q / 64 /\ masked w' (padded l) (Z.of_nat q / 64) lo' /\
    is_lsb w' (Z.of_nat q mod 64) /\ lo' <= Z.of_nat q mod 64.
Proof.
  intros Hl Hq.
  pose proof (Z.div_mod (Z.of_nat q) 64 ltac:(lia)) as Dq.
  pose proof (Z.mod_pos_bound (Z.of_nat q) 64 ltac:(lia)) as Mq.
  set (Q := Z.of_nat q / 64) in *. set (r := Z.of_nat q mod 64) in *. set (z := Z.of_nat q) in *.
  clearbody Q r z.
  induction fuel as [|fuel IH]; intros k w lo pos Hk Hp Hw Hlo Hle Hz Hf; [lia|].
  cbn [unary_next_loop]. destruct (Z.eq_dec k Q) as [->|NQ].
  - assert (L : is_lsb w r).
    { destruct Hw as [U B]. split; [lia|]. split.
      - rewrite B by lia. replace (lo <=? r) with true by lia. rewrite <- Dq. auto.
      - intros i Hi. rewrite B by lia. destruct (Z.leb_spec lo i); auto. cbn [andb]. apply Hz. lia. }
    rewrite (lsb_opt_correct w r (proj1 Hw) L). cbn [bind].
    exists pos, w, lo. split; [auto|]. split; [auto|]. split; [auto|]. split; [auto|]. lia.
  - assert (kQ : k < Q) by lia.
    assert (w = 0).
    { destruct Hw as [U B]. apply Z.bits_inj'. intros i Hi. rewrite Z.bits_0.
      destruct (Z.lt_ge_cases i 64).
      - rewrite B by lia. destruct (Z.leb_spec lo i); auto. cbn [andb]. apply Hz. lia.
      - apply testbit_high64; auto. }
    subst w. rewrite lsb_opt_zero. cbn [bind].
    replace ((pos + 64) / 64) with (k + 1) by dlia.
    rewrite W_rd by lia. cbn [bind].
    apply (IH (k + 1) _ 0); try lia; try dlia.
    + destruct (words_ok_pack l) as (U & E & B). split; [auto with u64s|]. intros i Hi.
      rewrite zbit_padded, B by (clear - Hk kQ Hl Hi E; lia). replace (0 <=? i) with true by lia. reflexivity.
    + intros j Hj. apply Hz. lia.
Qed.

Lemma unary_next_ok l e s q : uinv e l s -> is_select true l (rank true l (ustart s)) q ->
  exists e', unary_next (pack l) e = Ok (Z.of_nat q, e') /\ uinv e' l (Z.of_nat q, true).
Proof.
  intros (H1 & H2 & H3 & H4) Hq.
  rewrite <- (Nat.add_0_r (rank _ _ _)) in Hq. apply sel_pad in Hq. rewrite Nat.add_0_r in Hq.
  pose proof (is_select_bound _ _ _ _ Hq) as Hb.
  destruct (first_one _ _ _ Hq) as (F1 & F2 & F3).
  rewrite ustart_eq in F1, F3 by auto. pose proof (ulo_range s H2) as Ul.
  assert (P0 : 0 <= fst s / 64) by (apply Z.div_pos; lia).
  pose proof (zlen_padded l) as Lp. unfold zlen in Lp at 1.
  destruct (unary_next_loop_ok l q ltac:(clear - Hb Lp; dlia) F2 (S (length (pack l))) _ _ _ (u_pos e)
              P0 ltac:(rewrite H1; reflexivity) H4 ltac:(lia) ltac:(lia))
    as (pos' & w' & lo' & E & R1 & R2 & R3 & R4).
  { intros j Hj. apply F3. lia. }
  { clear - Hb Lp P0. unfold zlen in *. dlia. }
  assert (Hm : 0 <= Z.of_nat q mod 64 < 64) by (apply Z.mod_pos_bound; lia).
  unfold unary_next. rewrite E. cbn [bind]. rewrite align64_eq, R1.
  rewrite <- Z.div_mod by lia. eexists; split; [reflexivity|].
  split; [reflexivity|]. cbn [fst snd u_buf Z.b2z]. split; [lia|]. split; [clear - Hb Lp; dlia|].
  apply clear_lsb with (lo := lo'); auto.
Qed.

Lemma ustep_ok l e s o r s' : uinv e l s -> uspec l s o r s' ->
  exists e', ustep (pack l) e o = Ok (r, e') /\ uinv e' l s'.
Proof.
  intros I H. destruct H as [s q Hq|s k q Hk Hq|s k q Hk Hq|pos k q Hk Hq]; cbn [ustep].
  - apply (unary_next_ok l e s q I Hq).
  - destruct (unary_skip_no_move_ok l e s k q I Hk Hq) as (_ & e' & -> & P & I').
    cbn [bind]. rewrite P. eauto.
  - destruct (unary_skip_no_move_ok l e s k q I Hk Hq) as (-> & _). cbn [bind]. eauto.
  - destruct (unary_skip0_ok l e pos k q I Hk Hq) as (e' & -> & P & I').
    cbn [bind]. rewrite P. eauto.
Qed.

Lemma unary_history l pos os rs : 0 <= pos < 64 * zlen (pack l) -> uspec_run l (pos, false) os rs ->
  urun_from (canonical l) pos os = Ok rs.
Proof.
  intros Hp H. unfold urun_from. cbn [canonical bv_words].
  destruct (unary_new_ok l pos ltac:(lia) ltac:(dlia)) as (e & -> & I). cbn [bind].
  revert e I. induction H as [|s o r s' os rs Hs H IH]; intros e I; cbn [urun]; auto.
  destruct (ustep_ok l e s o r s' I Hs) as (e' & -> & I'). cbn [bind].
  rewrite (IH e' I'). reflexivity.
Qed.
