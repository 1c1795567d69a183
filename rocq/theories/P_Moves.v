(** Proofs for C113: what growing a builder costs *)
From Verif Require Import Base Spec Lib M_Broadword M_BitVector S_BitVector P_BvLib P_Builder P_BitVector S_Reserve P_Reserve P_Reserve2 S_Moves M_Moves.

(** the words moved and the reallocations made, from the capacity, after [R] calls of reserve *)
Definition paid (R : Z) (b : builder) (m : Z) : Prop :=
  0 <= b_cap b /\ 0 <= m <= (1 + R) * b_cap b /\ 0 <= b_gen b /\ (b_gen b <= R \/ 2 ^ (b_gen b - R) <= 2 * b_cap b).
(** and from capacity and size *)
Definition paid2 (R : Z) (b : builder) (m : Z) : Prop :=
  0 <= b_cap b /\ 0 <= m <= (1 + R) * (b_cap b + zlen (b_bits b)) /\ 0 <= b_gen b /\
  (b_gen b <= R \/ 2 ^ (b_gen b - R) <= 2 * (b_cap b * zlen (b_bits b))).
(** the words moved where a reallocation adds the [k]-th part *)
Definition paidk (k R : Z) (b : builder) (m : Z) : Prop := 0 <= b_cap b /\ 0 <= m <= k * (1 + R) * b_cap b.
(** how a call other than reserve changes capacity, words and counter *)
Definition mrel (gr : policy) (b : builder) (m : Z) (b' : builder) (m' : Z) : Prop :=
  zlen (b_bits b) <= b_cap b ->
    zlen (b_bits b') <= b_cap b' /\ zlen (b_bits b) <= zlen (b_bits b') /\
    (doubles_cap gr -> forall R, 0 <= R -> paid R b m -> paid R b' m') /\
    (doubles_size gr -> forall R, 0 <= R -> paid2 R b m -> paid2 R b' m') /\
    (forall k, 1 <= k -> grows_by k gr -> forall R, 0 <= R -> paidk k R b m -> paidk k R b' m') /\
    (at_most_double gr -> b_cap b' = b_cap b \/ b_cap b' <= 2 * zlen (b_bits b')).

Lemma paid2_longer R b m b' : 0 <= R -> b_cap b' = b_cap b -> b_gen b' = b_gen b -> zlen (b_bits b) <= zlen (b_bits b') -> paid2 R b m -> paid2 R b' m.
Proof.
  intros HR E1 E2 L (P0 & P1 & P2 & P3). unfold paid2. rewrite E1, E2. pose proof (zlen_nonneg (b_bits b)). split; [exact P0|]. split; [nia|]. split; [exact P2|].
  destruct P3 as [P3|P3]; [left; exact P3|]. right. nia.
Qed.
Lemma mrel_keep gr b b' m : b_cap b' = b_cap b -> b_gen b' = b_gen b -> zlen (b_bits b) <= zlen (b_bits b') <= Z.max (b_cap b) (zlen (b_bits b)) -> mrel gr b m b' m.
Proof.
  intros E1 E2 E3 H. unfold paid, paidk. split; [lia|]. split; [lia|]. split; [rewrite E1, E2; auto|]. split; [|split; [rewrite E1; auto|auto]].
  intros _ R HR P. eapply paid2_longer; eauto. lia.
Qed.
Lemma mrel_same gr b b' m : b_cap b' = b_cap b -> b_gen b' = b_gen b -> zlen (b_bits b') = zlen (b_bits b) -> mrel gr b m b' m.
Proof. intros E1 E2 E3. apply mrel_keep; auto. lia. Qed.
Lemma mrel_trans gr b1 m1 b2 m2 b3 m3 : mrel gr b1 m1 b2 m2 -> mrel gr b2 m2 b3 m3 -> mrel gr b1 m1 b3 m3.
Proof.
  intros A B H. destruct (A H) as (A1 & A2 & A3 & A4 & A6 & A5). destruct (B A1) as (B1 & B2 & B3 & B4 & B6 & B5).
  split; [exact B1|]. split; [lia|]. split; [auto|]. split; [auto|]. split; [eauto|]. intros T. destruct (A5 T), (B5 T); lia.
Qed.
Lemma pow_less g R x : 2 ^ (g - R) <= 2 * x -> 0 <= x -> g <= R + 1 \/ 2 ^ (g - (R + 1)) <= 2 * x.
Proof.
  intros P X. destruct (Z.le_gt_cases g (R + 1)); [left; lia|]. right. replace (g - R) with (g - (R + 1) + 1) in P by lia.
  rewrite Z.pow_add_r in P by lia. change (2 ^ 1) with 2 in P. pose proof (Z.pow_nonneg 2 (g - (R + 1))). lia.
Qed.
Lemma pow_more g R x y : g <= R \/ 2 ^ (g - R) <= 2 * x -> 0 <= x -> 2 * x <= y -> 1 <= y -> g + 1 <= R \/ 2 ^ (g + 1 - R) <= 2 * y.
Proof.
  intros P X Y Y1. destruct (Z.le_gt_cases (g + 1) R); [left; lia|]. right. destruct P as [P|P]; [replace (g + 1 - R) with 1 by lia; lia|].
  replace (g + 1 - R) with (g - R + 1) by lia. rewrite Z.pow_add_r by lia. change (2 ^ 1) with 2. lia.
Qed.
Lemma paid_more R b m : 0 <= R -> paid R b m -> paid (R + 1) b m.
Proof.
  intros HR (P0 & (P1 & P2) & P3 & P4). split; [exact P0|]. split; [nia|]. split; [exact P3|].
  destruct P4 as [P4|P4]; [lia|]. apply pow_less; auto.
Qed.
Lemma paid2_more R b m : 0 <= R -> paid2 R b m -> paid2 (R + 1) b m.
Proof.
  intros HR (P0 & (P1 & P2) & P3 & P4). pose proof (zlen_nonneg (b_bits b)). split; [exact P0|]. split; [nia|]. split; [exact P3|].
  destruct P4 as [P4|P4]; [lia|]. apply pow_less; auto. nia.
Qed.

Lemma paidk_more k R b m : 1 <= k -> 0 <= R -> paidk k R b m -> paidk k (R + 1) b m.
Proof. intros Hk HR (P0 & P1). split; [exact P0|]. assert (0 <= k * b_cap b) by nia. lia. Qed.
(** a reallocation that ends with more than the old capacity in use *)
Lemma move_rel gr b m n ws : b_cap b < n -> n <= zlen ws <= Z.max n (gr (zlen (b_bits b)) (b_cap b) n) ->
  mrel gr b m (with_bits (v_need (gr (zlen (b_bits b))) b n) ws) (m + zlen (b_bits b)).
Proof.
  intros L W H. unfold v_need. replace (n <=? b_cap b) with false by lia. unfold paid, paid2, paidk. cbn [with_bits b_bits b_cap b_gen]. pose proof (zlen_nonneg (b_bits b)) as N.
  split; [lia|]. split; [lia|]. split; [|split; [|split]].
  - intros D R HR (P0 & (P1 & P2) & P3 & P4). specialize (D (zlen (b_bits b)) (b_cap b) n ltac:(lia) L). split; [lia|]. split; [nia|]. split; [lia|].
    eapply pow_more; [exact P4|lia|lia|lia].
  - intros D R HR (P0 & (P1 & P2) & P3 & P4). specialize (D (zlen (b_bits b)) (b_cap b) n ltac:(lia) L). split; [lia|]. split; [nia|]. split; [lia|].
    set (c' := Z.max n (gr (zlen (b_bits b)) (b_cap b) n)) in *. assert (2 * zlen (b_bits b) <= c') by lia. assert (1 <= c') by lia.
    eapply pow_more; [exact P4|nia| |nia]. nia.
  - intros k Hk D R HR (P0 & P1). specialize (D (zlen (b_bits b)) (b_cap b) n ltac:(lia) L).
    set (c' := Z.max n (gr (zlen (b_bits b)) (b_cap b) n)) in *. split; [lia|]. split; [lia|].
    apply Z.le_trans with (k * (1 + R) * b_cap b + (1 + R) * b_cap b); [nia|]. replace (k * (1 + R) * b_cap b + (1 + R) * b_cap b) with ((1 + R) * ((k + 1) * b_cap b)) by ring.
    replace (k * (1 + R) * c') with ((1 + R) * (k * c')) by ring. apply Z.mul_le_mono_nonneg_l; lia.
  - intros T. specialize (T (zlen (b_bits b)) (b_cap b) n ltac:(lia) L). right. lia.
Qed.
Lemma need_any gr b m n : zlen (b_bits b) <= b_cap b -> b_cap b < n -> forall R, 0 <= R ->
  (paid R b m -> paid (R + 1) (v_need gr b n) (m + zlen (b_bits b))) /\ (paid2 R b m -> paid2 (R + 1) (v_need gr b n) (m + zlen (b_bits b))) /\
  (forall k, 1 <= k -> paidk k R b m -> paidk k (R + 1) (v_need gr b n) (m + zlen (b_bits b))).
Proof.
  intros Z L R HR. unfold v_need. replace (n <=? b_cap b) with false by lia. unfold paid, paid2, paidk. cbn [b_bits b_cap b_gen]. pose proof (zlen_nonneg (b_bits b)).
  replace (b_gen b + 1 - (R + 1)) with (b_gen b - R) by lia.
  split; [|split].
  - intros (P0 & (P1 & P2) & P3 & P4). split; [lia|]. split; [nia|]. split; [lia|]. destruct P4 as [P4|P4]; [left; lia|right; lia].
  - intros (P0 & (P1 & P2) & P3 & P4). split; [lia|]. split; [nia|]. split; [lia|]. destruct P4 as [P4|P4]; [left; lia|right].
    set (c' := Z.max n (gr (b_cap b) n)) in *. assert (b_cap b <= c') by lia. nia.
  - intros k Hk (P0 & P1). set (c' := Z.max n (gr (b_cap b) n)) in *. assert (b_cap b <= c') by lia. split; [lia|].
    split; [lia|]. apply Z.le_trans with (k * (1 + R) * c' + k * c'); [|apply Z.eq_le_incl; ring]. apply Z.add_le_mono; [|nia].
    apply Z.le_trans with (k * (1 + R) * b_cap b); [lia|]. apply Z.mul_le_mono_nonneg_l; [nia|lia].
Qed.

Lemma m_push_rel gr b m w : exists m', m_push gr (b, m) w = (v_push (gr (zlen (b_bits b))) b w, m') /\ mrel gr b m (v_push (gr (zlen (b_bits b))) b w) m'.
Proof.
  unfold m_push, m_need, v_push. cbn [fst]. destruct (Z.leb_spec (zlen (b_bits b) + 1) (b_cap b)) as [L|L].
  - exists m. unfold v_need. replace (zlen (b_bits b) + 1 <=? b_cap b) with true by lia. split; [reflexivity|].
    apply mrel_keep; try reflexivity. cbn [with_bits b_bits]. rewrite zlen_app. change (zlen [w]) with 1. lia.
  - exists (m + zlen (b_bits b)). split; [reflexivity|]. apply move_rel; [lia|]. unfold v_need. replace (zlen (b_bits b) + 1 <=? b_cap b) with false by lia.
    cbn [b_bits]. rewrite zlen_app. change (zlen [w]) with 1. lia.
Qed.
Lemma m_grow_rel gr b m n : zlen (b_bits b) <= n -> exists m', m_grow gr (b, m) n = (v_grow (gr (zlen (b_bits b))) b n, m') /\ mrel gr b m (v_grow (gr (zlen (b_bits b))) b n) m'.
Proof.
  intros Hn. unfold m_grow, m_need, v_grow. pose proof (zlen_nonneg (b_bits b)). destruct (Z.leb_spec n (b_cap b)) as [L|L].
  - exists m. unfold v_need. replace (n <=? b_cap b) with true by lia. split; [reflexivity|].
    apply mrel_keep; try reflexivity. cbn [with_bits b_bits]. rewrite zlen_app, zlen_repeat. lia.
  - exists (m + zlen (b_bits b)). split; [reflexivity|]. apply move_rel; [lia|]. unfold v_need. replace (n <=? b_cap b) with false by lia.
    cbn [b_bits]. rewrite zlen_app, zlen_repeat. lia.
Qed.
Lemma m_reserve_rel gr b m n : zlen (b_bits b) <= b_cap b -> exists m', m_reserve gr (b, m) n = (reserve (gr (zlen (b_bits b))) b n, m') /\
  forall R, 0 <= R -> (paid R b m -> paid (R + 1) (reserve (gr (zlen (b_bits b))) b n) m') /\ (paid2 R b m -> paid2 (R + 1) (reserve (gr (zlen (b_bits b))) b n) m') /\
    (forall k, 1 <= k -> paidk k R b m -> paidk k (R + 1) (reserve (gr (zlen (b_bits b))) b n) m').
Proof.
  intros H. unfold m_reserve, m_need, reserve. destruct (Z.leb_spec (words_for n) (b_cap b)) as [L|L].
  - exists m. unfold v_need. replace (words_for n <=? b_cap b) with true by lia. split; [reflexivity|]. intros R HR. split; [apply paid_more; exact HR|]. split; [apply paid2_more; exact HR|]. intros k Hk. apply paidk_more; auto.
  - exists (m + zlen (b_bits b)). split; [reflexivity|]. apply need_any; auto.
Qed.
Lemma cur_or_len b x b' : cur_or b x = Ok b' -> zlen (b_bits b') = zlen (b_bits b).
Proof.
  unfold cur_or. destruct (b_cur b) as [[g i]|]; [|discriminate]. destruct (g =? b_gen b); [|discriminate]. intros H.
  apply bind_inv in H. destruct H as (w & _ & H). apply bind_inv in H. destruct H as (ws & E & H). injection H as <-. cbn. eapply wr_len; eauto.
Qed.
Lemma mrel_or gr b m x b' : cur_or b x = Ok b' -> mrel gr b m b' m.
Proof.
  unfold cur_or. destruct (b_cur b) as [[g i]|]; [|discriminate]. destruct (g =? b_gen b); [|discriminate]. intros H.
  apply bind_inv in H. destruct H as (w & _ & H). apply bind_inv in H. destruct H as (ws & E & H). injection H as <-. apply mrel_same; try reflexivity. cbn. eapply wr_len; eauto.
Qed.
Lemma mrel_back gr b m b' m' : mrel gr b m b' m' -> mrel gr b m (set_cur_back b') m'.
Proof. intros H. exact H. Qed.
Lemma mrel_size gr b m b' m' n : mrel gr b m b' m' -> mrel gr b m (with_size b' n) m'.
Proof. intros H. exact H. Qed.

Lemma m_push_back_rel gr b m x b' : push_back (gr (zlen (b_bits b))) b x = Ok b' -> exists m', m_push_back gr (b, m) x = Ok (b', m') /\ mrel gr b m b' m'.
Proof.
  unfold push_back, m_push_back. cbv zeta. cbn [fst]. intros H. apply bind_inv in H. destruct H as (y & Ey & H). apply bind_inv in H. destruct H as (b1 & E & H). injection H as <-.
  destruct (b_size b mod 64 =? 0).
  - destruct (m_push_rel gr b m 0) as (m' & Em & R). rewrite Em, Ey. cbn [bind]. rewrite E. cbn [bind]. eexists. split; [reflexivity|].
    apply mrel_size. eapply mrel_trans; [apply mrel_back; exact R|eapply mrel_or; exact E].
  - rewrite Ey. cbn [bind]. rewrite E. cbn [bind]. eexists. split; [reflexivity|]. apply mrel_size. eapply mrel_or; exact E.
Qed.
Lemma m_append_bits_rel gr b m bits len b' : append_bits (gr (zlen (b_bits b))) b bits len = Ok b' -> exists m', m_append_bits gr (b, m) bits len = Ok (b', m') /\ mrel gr b m b' m'.
Proof.
  unfold append_bits, m_append_bits. intros H. apply bind_inv in H. destruct H as (ok & Eok & H). rewrite Eok. cbn [bind]. destruct ok; [|discriminate]. cbn [assert_] in *.
  destruct (len =? 0); [injection H as <-; exists m; split; [reflexivity|apply mrel_same; reflexivity]|]. cbv zeta in *. set (b0 := with_size b (b_size b + len)) in *.
  assert (R0 : mrel gr b m b0 m) by (apply mrel_same; reflexivity). destruct (b_size b mod 64 =? 0).
  - injection H as <-. destruct (m_push_rel gr b0 m bits) as (m' & Em & R). rewrite Em. exists m'. split; [reflexivity|]. apply mrel_back. eapply mrel_trans; [exact R0|exact R].
  - apply bind_inv in H. destruct H as (x & Ex & H). rewrite Ex. cbn [bind]. apply bind_inv in H. destruct H as (b1 & E & H). rewrite E. cbn [bind].
    assert (R1 : mrel gr b m b1 m) by (eapply mrel_trans; [exact R0|eapply mrel_or; exact E]).
    destruct (64 - b_size b mod 64 <? len).
    + assert (El : zlen (b_bits b1) = zlen (b_bits b)) by (apply cur_or_len in E; exact E). rewrite <- El in H.
      apply bind_inv in H. destruct H as (y & Ey & H). rewrite Ey. cbn [bind]. injection H as <-. destruct (m_push_rel gr b1 m y) as (m' & Em & R). rewrite Em.
      exists m'. split; [reflexivity|]. apply mrel_back. eapply mrel_trans; [exact R1|exact R].
    + injection H as <-. exists m. split; [reflexivity|]. apply mrel_back. exact R1.
Qed.
Lemma m_zero_extend_rel gr b m n b' : zero_extend (gr (zlen (b_bits b))) b n = Ok b' -> exists m', m_zero_extend gr (b, m) n = Ok (b', m') /\ mrel gr b m b' m'.
Proof.
  unfold zero_extend, m_zero_extend. cbv zeta. set (b0 := with_size b (b_size b + n)) in *. set (needed := u64 _). assert (N : 0 <= needed) by apply u64_range.
  clearbody needed. destruct (needed =? 0); intros H; injection H as <-.
  - exists m. split; [reflexivity|apply mrel_same; reflexivity].
  - destruct (m_grow_rel gr b0 m (zlen (b_bits b0) + needed) ltac:(lia)) as (m' & Em & R). rewrite Em. exists m'. split; [reflexivity|].
    apply mrel_back. eapply mrel_trans; [|exact R]. apply mrel_same; reflexivity.
Qed.
Lemma m_one_loop_rel gr fuel : forall b m l n, binv b l -> 0 <= n -> n / 64 <= Z.of_nat fuel ->
  exists b' m', m_one_extend_loop gr fuel (b, m) n = Ok ((b', m'), n mod 64) /\ binv b' (l ++ repeat true (Z.to_nat (n - n mod 64))) /\ mrel gr b m b' m'.
Proof.
  induction fuel as [|fuel IH]; intros b m l n H Hn Hf; cbn [m_one_extend_loop].
  - replace (64 <=? n) with false by dlia. exists b, m. rewrite Z.mod_small by dlia.
    rewrite Z.sub_diag. cbn [Z.to_nat repeat]. rewrite app_nil_r. split; [reflexivity|]. split; [exact H|]. apply mrel_same; reflexivity.
  - destruct (Z.leb_spec 64 n).
    + destruct (append_bits_ok (gr (zlen (b_bits b))) b l (2 ^ 64 - 1) 64 H ltac:(lia) ltac:(lia)) as (b1 & E1 & I1).
      destruct (m_append_bits_rel gr b m _ _ _ E1) as (m1 & M1 & R1). rewrite M1. cbn [bind].
      destruct (IH b1 m1 _ (n - 64) I1 ltac:(lia) ltac:(dlia)) as (b2 & m2 & E2 & I2 & R2).
      exists b2, m2. rewrite E2. split; [do 2 f_equal; dlia|]. split; [|eapply mrel_trans; [exact R1|exact R2]].
      rewrite <- app_assoc in I2. pose proof (bits_of_ones 64 ltac:(lia)) as O.
      change (Z.shiftr (2 ^ 64 - 1) (64 - Z.of_nat 64)) with (2 ^ 64 - 1) in O.
      change (Z.to_nat 64) with 64%nat in I2. rewrite O in I2.
      replace (Z.to_nat (n - n mod 64)) with (64 + Z.to_nat (n - 64 - (n - 64) mod 64))%nat by dlia.
      rewrite repeat_app. exact I2.
    + exists b, m. rewrite Z.mod_small by lia. rewrite Z.sub_diag. cbn [Z.to_nat repeat].
      rewrite app_nil_r. split; [reflexivity|]. split; [exact H|]. apply mrel_same; reflexivity.
Qed.
Lemma m_one_extend_rel gr b m l n : binv b l -> 0 <= n ->
  exists b' m', m_one_extend gr (b, m) n = Ok (b', m') /\ binv b' (l ++ repeat true (Z.to_nat n)) /\ mrel gr b m b' m'.
Proof.
  intros H Hn. unfold m_one_extend.
  destruct (m_one_loop_rel gr (Z.to_nat (n / 64)) b m l n H Hn ltac:(dlia)) as (b1 & m1 & E1 & I1 & R1).
  rewrite E1. cbn [bind]. assert (Hm : 0 <= n mod 64 < 64) by (apply Z.mod_pos_bound; lia).
  destruct (Z.eqb_spec (n mod 64) 0) as [E|E].
  - exists b1, m1. split; [reflexivity|]. rewrite E, Z.sub_0_r in I1. split; [exact I1|exact R1].
  - rewrite shr_ok by lia. cbn [bind].
    set (x := Z.shiftr _ _).
    assert (Rx : 0 <= x < 2 ^ (n mod 64)).
    { unfold x. apply shiftr_range; try lia. replace (n mod 64 + (64 - n mod 64)) with 64 by lia. lia. }
    destruct (append_bits_ok (gr (zlen (b_bits b1))) b1 _ x (n mod 64) I1 ltac:(lia) Rx) as (b2 & E2 & I2).
    destruct (m_append_bits_rel gr b1 m1 _ _ _ E2) as (m2 & M2 & R2).
    exists b2, m2. split; [exact M2|]. split; [|eapply mrel_trans; [exact R1|exact R2]]. rewrite <- app_assoc in I2.
    pose proof (bits_of_ones (Z.to_nat (n mod 64)) ltac:(lia)) as O. rewrite Z2Nat.id in O by lia.
    fold x in O. rewrite O in I2. rewrite <- repeat_app in I2.
    replace (Z.to_nat (n - n mod 64) + Z.to_nat (n mod 64))%nat with (Z.to_nat n) in I2 by dlia. exact I2.
Qed.
Lemma m_append_rel gr b m c b' : zlen (b_bits b) <= words_for (b_size b + b_size c) -> append (gr (zlen (b_bits b))) b c = Ok b' ->
  exists m', m_append gr (b, m) c = Ok (b', m') /\ mrel gr b m b' m'.
Proof.
  intros Hn. unfold append, m_append. destruct (b_size c =? 0); [intros [= <-]; exists m; split; [reflexivity|apply mrel_same; reflexivity]|]. cbv zeta. cbn [with_size b_size b_bits].
  set (b0 := with_size b (b_size b + b_size c)). replace (words_for (b_size b + b_size c) <? zlen (b_bits b)) with false by lia.
  destruct (m_grow_rel gr b0 m (words_for (b_size b + b_size c)) Hn) as (m1 & E1 & R1). fold b0 in E1.
  rewrite E1. change (zlen (b_bits b0)) with (zlen (b_bits b)) in *.
  assert (R : mrel gr b m (v_grow (gr (zlen (b_bits b))) b0 (words_for (b_size b + b_size c))) m1) by (eapply mrel_trans; [|exact R1]; apply mrel_same; reflexivity).
  revert R. generalize (v_grow (gr (zlen (b_bits b))) b0 (words_for (b_size b + b_size c))). clear E1 R1. intros b1 R.
  intros H. destruct (b_size b mod 64 =? 0).
  - destruct (Z.leb_spec (zlen (b_bits b) + zlen (b_bits c)) (zlen (b_bits b1))) as [L|L]; [|discriminate]. injection H as <-. exists m1. split; [reflexivity|].
    apply mrel_back. eapply mrel_trans; [exact R|]. apply mrel_same; try reflexivity. cbn [with_bits b_bits].
    pose proof (zlen_nonneg (b_bits b)). pose proof (zlen_nonneg (b_bits c)). rewrite !zlen_app, zlen_firstn, zlen_skipn. lia.
  - apply bind_inv in H. destruct H as (lw & -> & H). cbn [bind]. apply bind_inv in H. destruct H as ([ws cur] & E & H). rewrite E. cbn [bind].
    apply bind_inv in H. destruct H as (x & -> & H). cbn [bind]. apply bind_inv in H. destruct H as (w1 & E1 & H). rewrite E1. cbn [bind].
    assert (L1 : zlen w1 = zlen (b_bits b1)) by (rewrite (mod_word_len _ _ _ _ E1); eapply append_loop_len; eauto).
    destruct (cur <? zlen w1 - 1).
    + apply bind_inv in H. destruct H as (y & -> & H). cbn [bind]. apply bind_inv in H. destruct H as (w2 & E2 & H). rewrite E2. cbn [bind]. injection H as <-.
      exists m1. split; [reflexivity|]. apply mrel_back. eapply mrel_trans; [exact R|]. apply mrel_same; try reflexivity. cbn. rewrite (wr_len _ _ _ _ E2). exact L1.
    + injection H as <-. exists m1. split; [reflexivity|]. apply mrel_back. eapply mrel_trans; [exact R|]. apply mrel_same; try reflexivity. exact L1.
Qed.

(** the calls that write in place *)
Lemma bset_rel gr b m pos x b' : bset b pos x = Ok b' -> mrel gr b m b' m.
Proof.
  unfold bset. cbv zeta. intros H. apply bind_inv in H. destruct H as (k & _ & H). apply bind_inv in H. destruct H as (w1 & E1 & H).
  apply bind_inv in H. destruct H as (y & _ & H). apply bind_inv in H. destruct H as (w2 & E2 & H). injection H as <-.
  apply mrel_same; try reflexivity. cbn. rewrite (mod_word_len _ _ _ _ E2). eapply mod_word_len; eauto.
Qed.
Lemma set_bits_rel gr b m pos bits len b' : set_bits b pos bits len = Ok b' -> mrel gr b m b' m.
Proof.
  unfold set_bits. cbv zeta. destruct (u64 (pos + len) <=? b_size b); [|discriminate]. cbn [assert_]. intros H.
  apply bind_inv in H. destruct H as (ok & _ & H). destruct ok; [|discriminate]. cbn [assert_] in H.
  destruct (len =? 0); [injection H as <-; apply mrel_same; reflexivity|].
  apply bind_inv in H. destruct H as (mk & _ & H). apply bind_inv in H. destruct H as (k & _ & H). apply bind_inv in H. destruct H as (w1 & E1 & H).
  apply bind_inv in H. destruct H as (y & _ & H). apply bind_inv in H. destruct H as (w2 & E2 & H). apply mod_word_len in E1, E2.
  destruct (64 - pos mod 64 <? len).
  - apply bind_inv in H. destruct H as (k3 & _ & H). apply bind_inv in H. destruct H as (w3 & E3 & H).
    apply bind_inv in H. destruct H as (y4 & _ & H). apply bind_inv in H. destruct H as (w4 & E4 & H). apply mod_word_len in E3, E4. injection H as <-.
    apply mrel_same; try reflexivity. cbn. lia.
  - injection H as <-. apply mrel_same; try reflexivity. cbn. lia.
Qed.
Lemma reverse_loop_len : forall ws sh rm ws' r', reverse_loop sh rm ws = Ok (ws', r') -> length ws' = length ws.
Proof.
  induction ws as [|w ws IH]; intros sh rm ws' r' H; cbn [reverse_loop] in H; [injection H as <- <-; reflexivity|].
  apply bind_inv in H. destruct H as ([c r1] & _ & H). apply bind_inv in H. destruct H as ([ws1 r2] & E & H). injection H as <- <-.
  cbn [length]. f_equal. eapply IH; eauto.
Qed.
Lemma reverse_rel gr b m b' : reverse b = Ok b' -> mrel gr b m b' m.
Proof.
  unfold reverse. cbv zeta. intros H. apply bind_inv in H. destruct H as ([ws rm] & E & H). destruct (rm =? 0); [|discriminate]. injection H as <-.
  apply mrel_same; try reflexivity. cbn. unfold zlen. rewrite rev_length. f_equal. eapply reverse_loop_len; eauto.
Qed.
Lemma new_paid size init b : 0 <= size -> new_builder size init = Ok b -> (forall R, 0 <= R -> paid R b 0 /\ paid2 R b 0 /\ forall k, 1 <= k -> paidk k R b 0) /\ b_cap b <= 2 * zlen (b_bits b).
Proof.
  intros Hs. unfold new_builder. cbv zeta. assert (N : 0 <= words_for size) by (unfold words_for, ceil_div; apply Z.div_pos; lia).
  revert N. generalize (words_for size). intros n N.
  assert (P : forall (ws : list Z) sz cu, zlen ws = n -> (forall R, 0 <= R -> paid R (mk_builder ws sz n 0 cu) 0 /\ paid2 R (mk_builder ws sz n 0 cu) 0 /\ forall k, 1 <= k -> paidk k R (mk_builder ws sz n 0 cu) 0) /\ n <= 2 * zlen ws).
  { intros ws sz cu E. split; [|lia]. intros R HR. unfold paid, paid2, paidk. cbn [b_bits b_cap b_gen]. rewrite E. split; [|split]; [| |intros k Hk; split; [lia|split; [lia|]; apply Z.mul_nonneg_nonneg; [nia|lia]]]; (split; [lia|]; split; [nia|]; split; [lia|]; left; lia). }
  assert (L : forall f : Z, zlen (repeat f (Z.to_nat n)) = n) by (intros; rewrite zlen_repeat; lia).
  destruct (size =? 0); [intros [= <-]; apply P; apply L|].
  destruct (init && negb (size mod 64 =? 0)).
  - intros H. apply bind_inv in H. destruct H as (w & _ & H). apply bind_inv in H. destruct H as (w' & _ & H). apply bind_inv in H. destruct H as (ws & E & H). injection H as <-.
    refine (P ws size _ _). rewrite (wr_len _ _ _ _ E). apply L.
  - intros [= <-]. refine (P _ size _ _). apply L.
Qed.

(** one call on the family *)
Definition thrifty (b : builder) : Prop := b_cap b <= 2 * zlen (b_bits b).
Definition is_reserve (o : op) : bool := match o with Reserve _ _ => true | _ => false end.
Definition fam_rel (r : bool) (gr : policy) (ms ms' : nat -> mbuilder) : Prop :=
  ((r = false -> doubles_cap gr) -> forall R, 0 <= R -> (forall i, paid R (fst (ms i)) (snd (ms i))) -> forall i, paid (R + Z.b2z r) (fst (ms' i)) (snd (ms' i))) /\
  ((r = false -> doubles_size gr) -> forall R, 0 <= R -> (forall i, paid2 R (fst (ms i)) (snd (ms i))) -> forall i, paid2 (R + Z.b2z r) (fst (ms' i)) (snd (ms' i))) /\
  (forall k, 1 <= k -> (r = false -> grows_by k gr) -> forall R, 0 <= R -> (forall i, paidk k R (fst (ms i)) (snd (ms i))) -> forall i, paidk k (R + Z.b2z r) (fst (ms' i)) (snd (ms' i))) /\
  (r = false -> at_most_double gr -> (forall i, thrifty (fst (ms i))) -> forall i, thrifty (fst (ms' i))).
Definition msinv (ms : nat -> mbuilder) (s : nat -> list bool) : Prop := forall i, binv (fst (ms i)) (s i).

Lemma fam_put gr ms s i b' m' l : msinv ms s -> mrel gr (fst (ms i)) (snd (ms i)) b' m' -> binv b' l ->
  msinv (put ms i (b', m')) (put s i l) /\ fam_rel false gr ms (put ms i (b', m')).
Proof.
  intros S R I. destruct (S i) as (_ & _ & C & _). destruct (R C) as (R1 & R2 & R3 & R4 & R6 & R5). unfold msinv, fam_rel, put. cbn [Z.b2z]. split; [|split; [|split; [|split]]].
  - intros j. destruct (Nat.eqb_spec j i); auto.
  - intros D k K P j. rewrite Z.add_0_r. destruct (Nat.eqb_spec j i); cbn [fst snd]; auto.
  - intros D k K P j. rewrite Z.add_0_r. destruct (Nat.eqb_spec j i); cbn [fst snd]; auto.
  - intros q Hq D k K P j. rewrite Z.add_0_r. destruct (Nat.eqb_spec j i); cbn [fst snd]; auto.
  - intros E A T j. destruct (Nat.eqb_spec j i); cbn [fst]; auto. specialize (T i). unfold thrifty in *. destruct (R5 A); lia.
Qed.

Lemma m_step_ok gr s ms o : msinv ms s -> legal s o ->
  exists ms', m_step gr ms o = Ok ms' /\ msinv ms' (spec_step s o) /\ fam_rel (is_reserve o) gr ms ms'.
Proof.
  intros S L. assert (M : forall i, ms i = (fst (ms i), snd (ms i))) by (intros i; destruct (ms i); reflexivity).
  destruct o; cbn [m_step spec_step is_reserve legal] in *.
  - destruct L as (L & _). destruct (new_builder_ok size init L) as (b & E & I). rewrite E. cbn [bind].
    destruct (new_paid _ _ _ L E) as (P & T). eexists. split; [reflexivity|]. unfold msinv, fam_rel, put. cbn [Z.b2z]. split; [|split; [|split; [|split]]].
    + intros j. destruct (Nat.eqb_spec j i); auto.
    + intros _ k K Q j. rewrite Z.add_0_r. destruct (Nat.eqb_spec j i); cbn [fst snd]; auto. apply P; auto.
    + intros _ k K Q j. rewrite Z.add_0_r. destruct (Nat.eqb_spec j i); cbn [fst snd]; auto. apply P; auto.
    + intros q Hq _ k K Q j. rewrite Z.add_0_r. destruct (Nat.eqb_spec j i); cbn [fst snd]; auto. apply P; auto.
    + intros _ _ Q j. destruct (Nat.eqb_spec j i); cbn [fst]; auto.
  - destruct (S i) as (_ & _ & C & _). destruct (m_reserve_rel gr (fst (ms i)) (snd (ms i)) n C) as (m' & E & R). rewrite M, E.
    eexists. split; [reflexivity|]. unfold msinv, fam_rel, put. change (Z.b2z true) with 1. split; [|split; [|split; [|split]]].
    + intros j. destruct (Nat.eqb_spec j i) as [->|]; auto. cbn [fst]. apply reserve_ok; auto.
    + intros _ k K P j. destruct (Nat.eqb_spec j i); cbn [fst snd]; [apply R; auto|apply paid_more; auto].
    + intros _ k K P j. destruct (Nat.eqb_spec j i); cbn [fst snd]; [apply R; auto|apply paid2_more; auto].
    + intros q Hq _ k K P j. destruct (Nat.eqb_spec j i); cbn [fst snd]; [apply R; auto|apply paidk_more; auto].
    + discriminate.
  - destruct (push_back_ok (gr (zlen (b_bits (fst (ms i))))) _ _ b (S i)) as (b1 & E & I). destruct (m_push_back_rel gr _ (snd (ms i)) _ _ E) as (m' & E' & R).
    rewrite M, E'. cbn [bind]. eexists. split; [reflexivity|]. apply fam_put; auto.
  - destruct (bset_ok _ _ pos b (S i) L) as (b1 & E & I). rewrite E. cbn [bind]. eexists. split; [reflexivity|]. apply fam_put; auto. eapply bset_rel; eauto.
  - destruct L as (L1 & L2 & L3 & L4). destruct (set_bits_ok _ _ pos bits len (S i) L1 L2 L3 L4) as (b1 & E & I). rewrite E. cbn [bind].
    eexists. split; [reflexivity|]. apply fam_put; auto. eapply set_bits_rel; eauto.
  - destruct L as (L1 & L2 & _). destruct (append_bits_ok (gr (zlen (b_bits (fst (ms i))))) _ _ bits len (S i) L1 L2) as (b1 & E & I).
    destruct (m_append_bits_rel gr _ (snd (ms i)) _ _ _ E) as (m' & E' & R). rewrite M, E'. cbn [bind]. eexists. split; [reflexivity|]. apply fam_put; auto.
  - destruct L as (L1 & L2). destruct (zero_extend_ok (gr (zlen (b_bits (fst (ms i))))) _ _ n (S i) L1 L2) as (b1 & E & I).
    destruct (m_zero_extend_rel gr _ (snd (ms i)) _ _ E) as (m' & E' & R). rewrite M, E'. cbn [bind]. eexists. split; [reflexivity|]. apply fam_put; auto.
  - destruct L as (L1 & _). destruct (m_one_extend_rel gr _ (snd (ms i)) _ n (S i) L1) as (b1 & m' & E & I & R).
    rewrite M, E. cbn [bind]. eexists. split; [reflexivity|]. apply fam_put; auto.
  - destruct (append_ok (gr (zlen (b_bits (fst (ms i))))) _ _ _ _ (S i) (S j)) as (b1 & E & I).
    assert (W : zlen (b_bits (fst (ms i))) <= words_for (b_size (fst (ms i)) + b_size (fst (ms j)))).
    { destruct (S i) as (S1 & (_ & S2 & _) & _). destruct (S j) as (T1 & _). rewrite S1, T1, S2. pose proof (zlen_nonneg (s j)). unfold words_for, ceil_div.
      apply Z.div_le_mono; lia. }
    destruct (m_append_rel gr _ (snd (ms i)) _ _ W E) as (m' & E' & R).
    rewrite (M i), E'. cbn [bind]. eexists. split; [reflexivity|]. apply fam_put; auto.
  - destruct (reverse_ok _ _ (S i)) as (b1 & E & I). rewrite E. cbn [bind]. eexists. split; [reflexivity|]. apply fam_put; auto. eapply reverse_rel; eauto.
  - rewrite builder_swap_ok. eexists. split; [reflexivity|]. unfold msinv, fam_rel, put. cbn [Z.b2z]. split; [|split; [|split; [|split]]].
    + intros k. destruct (Nat.eqb_spec k j); cbn [fst]; auto. destruct (Nat.eqb_spec k i); cbn [fst]; auto.
    + intros _ r Hr Q k. rewrite Z.add_0_r. destruct (Nat.eqb_spec k j); cbn [fst snd]; auto. destruct (Nat.eqb_spec k i); cbn [fst snd]; auto.
    + intros _ r Hr Q k. rewrite Z.add_0_r. destruct (Nat.eqb_spec k j); cbn [fst snd]; auto. destruct (Nat.eqb_spec k i); cbn [fst snd]; auto.
    + intros q Hq _ r Hr Q k. rewrite Z.add_0_r. destruct (Nat.eqb_spec k j); cbn [fst snd]; auto. destruct (Nat.eqb_spec k i); cbn [fst snd]; auto.
    + intros _ _ Q k. destruct (Nat.eqb_spec k j); cbn [fst]; auto. destruct (Nat.eqb_spec k i); cbn [fst]; auto.
Qed.

(** whole histories *)
Lemma m_run_ok pol os : forall s ms, msinv ms s -> legal_run s os ->
  exists ms', m_run pol ms os = Ok ms' /\ msinv ms' (spec_run s os) /\
    ((forall o, not_reserve o -> doubles_cap (pol o)) -> forall R, 0 <= R -> (forall i, paid R (fst (ms i)) (snd (ms i))) -> forall i, paid (R + reserves os) (fst (ms' i)) (snd (ms' i))) /\
    ((forall o, not_reserve o -> doubles_size (pol o)) -> forall R, 0 <= R -> (forall i, paid2 R (fst (ms i)) (snd (ms i))) -> forall i, paid2 (R + reserves os) (fst (ms' i)) (snd (ms' i))) /\
    (forall k, 1 <= k -> (forall o, not_reserve o -> grows_by k (pol o)) -> forall R, 0 <= R -> (forall i, paidk k R (fst (ms i)) (snd (ms i))) -> forall i, paidk k (R + reserves os) (fst (ms' i)) (snd (ms' i))) /\
    ((forall o, not_reserve o -> at_most_double (pol o)) -> reserves os = 0 -> (forall i, thrifty (fst (ms i))) -> forall i, thrifty (fst (ms' i))).
Proof.
  induction os as [|o os IH]; intros s ms H L; cbn [m_run spec_run legal_run reserves] in *.
  - exists ms. split; [reflexivity|]. split; [exact H|]. split; [|split; [|split; [|auto]]].
    + intros _ R _ P i. rewrite Z.add_0_r. apply P.
    + intros _ R _ P i. rewrite Z.add_0_r. apply P.
    + intros k _ _ R _ P i. rewrite Z.add_0_r. apply P.
  - destruct L as [L1 L2]. destruct (m_step_ok (pol o) s ms o H L1) as (ms1 & M1 & H1 & P1 & Q1 & K1 & T1).
    rewrite M1. cbn [bind]. destruct (IH _ ms1 H1 L2) as (ms2 & M2 & H2 & P2 & Q2 & K2 & T2).
    assert (N : is_reserve o = false -> not_reserve o) by (destruct o; cbn; auto; discriminate).
    assert (B : (match o with Reserve _ _ => 1 | _ => 0 end) = Z.b2z (is_reserve o)) by (destruct o; reflexivity). rewrite B.
    assert (V : 0 <= reserves os) by (clear; induction os as [|o os IH]; [reflexivity|]; cbn [reserves]; destruct o; lia).
    assert (W : 0 <= Z.b2z (is_reserve o)) by (destruct (is_reserve o); cbn; lia).
    exists ms2. split; [exact M2|]. split; [exact H2|]. split; [|split; [|split]].
    + intros D R HR P i. rewrite Z.add_assoc. apply P2; auto. lia.
    + intros D R HR P i. rewrite Z.add_assoc. apply Q2; auto. lia.
    + intros k Hk D R HR P i. rewrite Z.add_assoc. apply K2; auto. lia.
    + intros A R0 T. assert (is_reserve o = false) by (destruct (is_reserve o); cbn [Z.b2z] in R0; auto; lia). apply T2; auto. lia.
Qed.
Lemma msinv0 : msinv mbuilders0 seqs0.
Proof. exact sinv0. Qed.
Lemma paid0 i : paid 0 (fst (mbuilders0 i)) (snd (mbuilders0 i)).
Proof. unfold paid. cbn. lia. Qed.
Lemma paid20 i : paid2 0 (fst (mbuilders0 i)) (snd (mbuilders0 i)).
Proof. unfold paid2. cbn. change (zlen []) with 0. lia. Qed.

Theorem moves_content pol os : legal_run seqs0 os ->
  exists ms, m_run pol mbuilders0 os = Ok ms /\ forall i, bv_of_builder (fst (ms i)) = Ok (canonical (spec_run seqs0 os i)) /\
    zlen (b_bits (fst (ms i))) = (zlen (spec_run seqs0 os i) + 63) / 64.
Proof.
  intros L. destruct (m_run_ok pol os _ mbuilders0 msinv0 L) as (ms & M & S & _). exists ms. split; [exact M|]. intros i. split; [apply binv_bv; apply S|].
  destruct (S i) as (_ & (_ & W & _) & _). exact W.
Qed.
Theorem moves_size pol os ms : (forall o, not_reserve o -> doubles_size (pol o)) -> legal_run seqs0 os -> m_run pol mbuilders0 os = Ok ms ->
  forall i, 0 <= snd (ms i) <= (1 + reserves os) * (b_cap (fst (ms i)) + (zlen (spec_run seqs0 os i) + 63) / 64) /\
    (b_gen (fst (ms i)) <= reserves os \/ 2 ^ (b_gen (fst (ms i)) - reserves os) <= 2 * (b_cap (fst (ms i)) * ((zlen (spec_run seqs0 os i) + 63) / 64))).
Proof.
  intros D L E i. destruct (m_run_ok pol os _ mbuilders0 msinv0 L) as (ms' & M & S & _ & P & _). rewrite E in M. injection M as <-.
  destruct (P D 0 ltac:(lia) paid20 i) as (_ & P1 & _ & P2). destruct (S i) as (_ & (_ & W & _) & _). rewrite W in *. auto.
Qed.
Theorem moves_cap pol os ms : (forall o, not_reserve o -> doubles_cap (pol o)) -> legal_run seqs0 os -> m_run pol mbuilders0 os = Ok ms ->
  forall i, 0 <= snd (ms i) <= (1 + reserves os) * b_cap (fst (ms i)) /\
    (b_gen (fst (ms i)) <= reserves os \/ 2 ^ (b_gen (fst (ms i)) - reserves os) <= 2 * b_cap (fst (ms i))).
Proof.
  intros D L E i. destruct (m_run_ok pol os _ mbuilders0 msinv0 L) as (ms' & M & S & P & _). rewrite E in M. injection M as <-.
  destruct (P D 0 ltac:(lia) paid0 i) as (_ & P1 & _ & P2). auto.
Qed.
Theorem moves_room pol os ms : (forall o, not_reserve o -> at_most_double (pol o)) -> legal_run seqs0 os -> reserves os = 0 -> m_run pol mbuilders0 os = Ok ms ->
  forall i, b_cap (fst (ms i)) <= 2 * ((zlen (spec_run seqs0 os i) + 63) / 64).
Proof.
  intros A L N E i. destruct (m_run_ok pol os _ mbuilders0 msinv0 L) as (ms' & M & S & _ & _ & _ & T). rewrite E in M. injection M as <-.
  destruct (S i) as (_ & (_ & W & _) & _). rewrite <- W. apply (T A N). intros j. apply Z.le_refl.
Qed.
Theorem moves_by k pol os ms : 1 <= k -> (forall o, not_reserve o -> grows_by k (pol o)) -> legal_run seqs0 os -> m_run pol mbuilders0 os = Ok ms ->
  forall i, 0 <= snd (ms i) <= k * (1 + reserves os) * b_cap (fst (ms i)).
Proof.
  intros Hk D L E i. destruct (m_run_ok pol os _ mbuilders0 msinv0 L) as (ms' & M & S & _ & _ & P & _). rewrite E in M. injection M as <-.
  destruct (P k Hk D 0 ltac:(lia)) with (i := i) as (_ & P1); [|exact P1]. intros j. unfold paidk. cbn. lia.
Qed.
Lemma lib_msvc : grows_by 3 msvc /\ at_most_double msvc.
Proof. split; intros s c n H L; unfold msvc; dlia. Qed.
Lemma lib_cap : doubles_cap libcxx /\ at_most_double libcxx.
Proof. split; intros s c n H L; unfold libcxx; lia. Qed.
Lemma lib_size : doubles_size libstdcxx /\ at_most_double libstdcxx.
Proof. split; intros s c n H L; unfold libstdcxx; lia. Qed.
Theorem moves_libs os : legal_run seqs0 os -> reserves os = 0 ->
  (exists ms, m_run (fun _ => libcxx) mbuilders0 os = Ok ms /\ forall i, 0 <= snd (ms i) <= 2 * ((zlen (spec_run seqs0 os i) + 63) / 64)) /\
  (exists ms, m_run (fun _ => libstdcxx) mbuilders0 os = Ok ms /\ forall i, 0 <= snd (ms i) <= 3 * ((zlen (spec_run seqs0 os i) + 63) / 64)) /\
  (exists ms, m_run (fun _ => msvc) mbuilders0 os = Ok ms /\ forall i, 0 <= snd (ms i) <= 6 * ((zlen (spec_run seqs0 os i) + 63) / 64)).
Proof.
  intros L N. destruct lib_cap as (C1 & C2). destruct lib_size as (D1 & D2). destruct lib_msvc as (V1 & V2). split; [|split].
  - destruct (moves_content (fun _ => libcxx) os L) as (ms & E & _). exists ms. split; [exact E|]. intros i.
    destruct (moves_cap _ os ms (fun _ _ => C1) L E i) as (P & _). pose proof (moves_room _ os ms (fun _ _ => C2) L N E i). rewrite N in P. lia.
  - destruct (moves_content (fun _ => libstdcxx) os L) as (ms & E & _). exists ms. split; [exact E|]. intros i.
    destruct (moves_size _ os ms (fun _ _ => D1) L E i) as (P & _). pose proof (moves_room _ os ms (fun _ _ => D2) L N E i). rewrite N in P. lia.
  - destruct (moves_content (fun _ => msvc) os L) as (ms & E & _). exists ms. split; [exact E|]. intros i.
    pose proof (moves_by 3 _ os ms ltac:(lia) (fun _ _ => V1) L E i) as P. pose proof (moves_room _ os ms (fun _ _ => V2) L N E i). rewrite N in P. lia.
Qed.

(** ** A policy that takes only what is asked for *)
Lemma tight_step st t g c k w : 0 <= k -> zlen st = k -> 0 <= w < 2 ^ 64 ->
  m_append_bits tight (mk_builder st (64 * k) k g c, t) w 64 = Ok (mk_builder (st ++ [w]) (64 * (k + 1)) (k + 1) (g + 1) (Some (g + 1, k)), t + k).
Proof.
  intros K E W. unfold m_append_bits, no_spurious. cbn [Z.eqb Pos.eqb bind assert_ b_size]. cbv zeta.
  replace (64 * k) with (k * 64) by lia. rewrite Z.mod_mul by lia. cbn [Z.eqb]. unfold m_push, m_need, with_size. cbn [fst b_bits b_cap]. rewrite E.
  replace (k + 1 <=? k) with false by lia. unfold v_need, tight. cbn [b_bits b_cap b_gen b_size b_cur]. replace (k + 1 <=? k) with false by lia.
  unfold with_bits, set_cur_back. cbn [b_bits b_cap b_gen b_size b_cur]. rewrite zlen_app, E. change (zlen [w]) with 1.
  do 2 f_equal. f_equal; try lia. do 2 f_equal. lia.
Qed.
Lemma tight_run w : 0 <= w < 2 ^ 64 -> forall n ms st t g c k, ms 0%nat = (mk_builder st (64 * k) k g c, t) -> 0 <= k -> zlen st = k -> 2 * t = k * (k - 1) ->
  exists ms', m_run (fun _ => tight) ms (repeat (AppendBits 0 w 64) n) = Ok ms' /\ 2 * snd (ms' 0%nat) = (k + Z.of_nat n) * (k + Z.of_nat n - 1).
Proof.
  intros W. induction n as [|n IH]; intros ms st t g c k M K E T; cbn [repeat m_run m_step].
  - exists ms. split; [reflexivity|]. rewrite M. cbn [snd]. rewrite T. replace (k + Z.of_nat 0) with k by lia. reflexivity.
  - rewrite M, tight_step by auto. cbn [bind].
    destruct (IH (put ms 0 (mk_builder (st ++ [w]) (64 * (k + 1)) (k + 1) (g + 1) (Some (g + 1, k)), t + k)) (st ++ [w]) (t + k) (g + 1) (Some (g + 1, k)) (k + 1)) as (ms' & R & V).
    + reflexivity.
    + lia.
    + rewrite zlen_app, E. reflexivity.
    + nia.
    + exists ms'. split; [exact R|]. rewrite V. replace (k + 1 + Z.of_nat n) with (k + Z.of_nat (S n)) by lia. reflexivity.
Qed.
Lemma tight_legal w : 0 <= w < 2 ^ 64 -> forall n s, zlen (s 0%nat) + 64 * Z.of_nat n < 2 ^ 64 - 64 -> legal_run s (repeat (AppendBits 0 w 64) n).
Proof.
  intros W. induction n as [|n IH]; intros s L; cbn [repeat legal_run]; [exact I|]. split.
  - cbn [legal]. unfold fits. lia.
  - apply IH. cbn [spec_step]. unfold put. cbn [Nat.eqb]. rewrite zlen_app, zlen_bits_of. lia.
Qed.
Theorem tight_moves n : 64 * Z.of_nat n < 2 ^ 64 - 64 ->
  legal_run seqs0 (repeat (AppendBits 0 1 64) n) /\
  exists ms, m_run (fun _ => tight) mbuilders0 (repeat (AppendBits 0 1 64) n) = Ok ms /\ 2 * snd (ms 0%nat) = Z.of_nat n * (Z.of_nat n - 1).
Proof.
  intros H. split; [apply tight_legal; [lia|exact H]|].
  destruct (tight_run 1 ltac:(lia) n mbuilders0 [] 0 0 None 0) as (ms & R & V); try reflexivity. exists ms. auto.
Qed.
