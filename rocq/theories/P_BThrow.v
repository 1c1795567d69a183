(** Proofs about builder calls that throw. *)
From Verif Require Import Base Spec Lib P_BvLib M_Broadword M_BitVector S_BitVector P_Builder
  M_BThrow S_BThrow.

(** ** calls that return do what they always do *)
Lemma x_push_back_fair lim gr b x b' : x_push_back lim gr b x = Ok (b', false) ->
  push_back gr b x = Ok b'.
Proof.
  unfold x_push_back, push_back, x_push. cbv zeta.
  destruct (b_size b mod 64 =? 0).
  - destruct (x_fails _ _ _ _); [discriminate|].
    destruct (shl _ _) as [y|]; cbn [bind]; [|discriminate].
    destruct (cur_or _ _) as [z|]; cbn [bind]; [|discriminate]. congruence.
  - destruct (shl _ _) as [y|]; cbn [bind]; [|discriminate].
    destruct (cur_or _ _) as [z|]; cbn [bind]; [|discriminate]. congruence.
Qed.

Lemma x_append_bits_fair lim gr b bits len b' : x_append_bits lim gr b bits len = Ok (b', false) ->
  append_bits gr b bits len = Ok b'.
Proof.
  unfold x_append_bits, append_bits, x_push.
  destruct (no_spurious bits len) as [[|]|]; cbn [bind assert_]; try discriminate.
  destruct (len =? 0); [congruence|]. cbv zeta.
  destruct (b_size b mod 64 =? 0).
  - destruct (x_fails _ _ _ _); congruence.
  - destruct (shl _ _) as [y|]; cbn [bind]; [|discriminate].
    destruct (cur_or _ _) as [z|]; cbn [bind]; [|discriminate].
    destruct (_ <? len); [|congruence].
    destruct (shr _ _) as [w|]; cbn [bind]; [|discriminate].
    destruct (x_fails _ _ _ _); congruence.
Qed.

Lemma x_zero_extend_fair lim gr b n b' : x_zero_extend lim gr b n = Ok (b', false) ->
  zero_extend gr b n = Ok b'.
Proof.
  unfold x_zero_extend, zero_extend. cbv zeta. destruct (_ =? 0); [congruence|].
  destruct (x_fails _ _ _ _); congruence.
Qed.

Lemma x_one_extend_loop_fair lim gr fuel : forall b n b' m,
  x_one_extend_loop lim gr fuel b n = Ok (b', m, false) -> one_extend_loop gr fuel b n = Ok (b', m).
Proof.
  induction fuel as [|fuel IH]; intros b n b' m; cbn [x_one_extend_loop one_extend_loop].
  - destruct (64 <=? n); congruence.
  - destruct (64 <=? n); [|congruence].
    destruct (x_append_bits _ _ _ _ _) as [[b1 [|]]|] eqn:E; cbn [bind]; try discriminate.
    rewrite (x_append_bits_fair _ _ _ _ _ _ E). cbn [bind]. apply IH.
Qed.

Lemma x_one_extend_fair lim gr b n b' : x_one_extend lim gr b n = Ok (b', false) ->
  one_extend gr b n = Ok b'.
Proof.
  unfold x_one_extend, one_extend.
  destruct (x_one_extend_loop _ _ _ _ _) as [[[b1 m] [|]]|] eqn:E; cbn [bind]; try discriminate.
  rewrite (x_one_extend_loop_fair _ _ _ _ _ _ _ E). cbn [bind].
  destruct (m =? 0); [congruence|].
  destruct (shr _ _) as [w|]; cbn [bind]; [|discriminate]. apply x_append_bits_fair.
Qed.

Lemma x_append_fair lim gr b c b' : x_append lim gr b c = Ok (b', false) -> append gr b c = Ok b'.
Proof.
  unfold x_append. destruct (b_size c =? 0) eqn:E.
  { unfold append. rewrite E. congruence. }
  cbv zeta. destruct (x_fails _ _ _ _); [discriminate|].
  destruct (append gr b c); cbn [bind]; congruence.
Qed.

Theorem bxstep_fair lim gr s o s' : bxstep lim gr s o = Ok (s', false) -> step gr s o = Ok s'.
Proof.
  destruct o; cbn [bxstep]; intros E.
  - unfold x_new in E. destruct (lim <? _); cbn [bind] in E; [discriminate|]. cbn [step].
    destruct (new_builder size init); cbn [bind] in *; congruence.
  - unfold x_reserve in E. destruct (x_fails _ _ _ _); [discriminate|]. cbn [step]. congruence.
  - destruct (x_push_back _ _ _ _) as [[b1 [|]]|] eqn:F; cbn [bind] in E; try discriminate.
    cbn [step]. rewrite (x_push_back_fair _ _ _ _ _ F). cbn [bind]. congruence.
  - destruct (step _ _ _); cbn [bind] in E; congruence.
  - destruct (step _ _ _); cbn [bind] in E; congruence.
  - destruct (x_append_bits _ _ _ _ _) as [[b1 [|]]|] eqn:F; cbn [bind] in E; try discriminate.
    cbn [step]. rewrite (x_append_bits_fair _ _ _ _ _ _ F). cbn [bind]. congruence.
  - destruct (x_zero_extend _ _ _ _) as [[b1 [|]]|] eqn:F; cbn [bind] in E; try discriminate.
    cbn [step]. rewrite (x_zero_extend_fair _ _ _ _ _ F). cbn [bind]. congruence.
  - destruct (x_one_extend _ _ _ _) as [[b1 [|]]|] eqn:F; cbn [bind] in E; try discriminate.
    cbn [step]. rewrite (x_one_extend_fair _ _ _ _ _ F). cbn [bind]. congruence.
  - destruct (x_append _ _ _ _) as [[b1 [|]]|] eqn:F; cbn [bind] in E; try discriminate.
    cbn [step]. rewrite (x_append_fair _ _ _ _ _ F). cbn [bind]. congruence.
  - destruct (step _ _ _); cbn [bind] in E; congruence.
  - destruct (step _ _ _); cbn [bind] in E; congruence.
Qed.

(** ** calls of [keeps] that throw change nothing *)
Lemma put_same {A} (s : nat -> A) i j : put s i (s i) j = s j.
Proof. unfold put. destruct (Nat.eqb_spec j i) as [->|]; auto. Qed.

Theorem bxstep_keeps lim gr s o s' : keeps o -> bxstep lim gr s o = Ok (s', true) ->
  forall j, s' j = s j.
Proof.
  intros K E j. destruct o; cbn [bxstep keeps] in *; try contradiction;
    try (destruct (step _ _ _); cbn [bind] in E; discriminate).
  - unfold x_new in E. destruct (lim <? _); cbn [bind] in E; [congruence|].
    destruct (new_builder size init); cbn [bind] in E; discriminate.
  - unfold x_reserve in E. destruct (x_fails _ _ _ _); [|discriminate].
    injection E as <-. apply put_same.
  - destruct (x_push_back _ _ _ _) as [[b1 t]|] eqn:F; cbn [bind] in E; try discriminate.
    injection E as <- ->. unfold x_push_back, x_push in F.
    destruct (b_size (s i) mod 64 =? 0).
    + destruct (x_fails _ _ _ _).
      * injection F as <-. apply put_same.
      * destruct (shl _ _) as [y|]; cbn [bind] in F; [|discriminate].
        destruct (cur_or _ _) as [z|]; cbn [bind] in F; discriminate.
    + destruct (shl _ _) as [y|]; cbn [bind] in F; [|discriminate].
      destruct (cur_or _ _) as [z|]; cbn [bind] in F; discriminate.
Qed.

(** ** what the other calls leave when they throw *)

(** a builder for [l] followed by some of [new], whose size was raised by [k] more bits for which
    it has no words; [full] when that is the size the call was to reach *)
Definition torn (full : bool) (b : builder) (l new : list bool) : Prop :=
  exists b0 m k, ((m + k <= length new)%nat /\ (full = true -> m + k = length new)%nat) /\ binv b0 (l ++ firstn m new) /\
    b = with_size b0 (zlen (l ++ firstn m new) + Z.of_nat k) /\
    (zlen (l ++ firstn m new) + 63) / 64 <> (zlen (l ++ firstn m new) + Z.of_nat k + 63) / 64.

Lemma torn_bv f b l new : torn f b l new -> bv_of_builder b = Ub AssertFailed.
Proof.
  intros (b0 & m & k & Hk & (H1 & (_ & E & _) & _) & -> & D).
  unfold bv_of_builder, words_for, ceil_div. cbn [b_size with_size b_bits].
  rewrite E. unfold assert_. destruct (Z.eqb_spec ((zlen (l ++ firstn m new) + Z.of_nat k + 64 - 1) / 64)
    ((zlen (l ++ firstn m new) + 63) / 64)) as [C|C]; auto.
  exfalso. apply D. rewrite <- C. f_equal. lia.
Qed.

Lemma torn_repair f gr b l new : torn f b l new -> fits (zlen l + zlen new) ->
  exists b' m k, zero_extend gr b 0 = Ok b' /\
    ((m + k <= length new)%nat /\ (f = true -> m + k = length new)%nat) /\
    binv b' (l ++ firstn m new ++ repeat false k).
Proof.
  intros (b0 & m & k & Hk & I & -> & D) F.
  assert (F' : fits (zlen (l ++ firstn m new) + Z.of_nat k)).
  { unfold fits in *. rewrite zlen_app. unfold zlen in *. rewrite firstn_length. lia. }
  destruct (zero_extend_ok gr b0 _ (Z.of_nat k) I ltac:(lia) F') as (b' & E & I').
  exists b', m, k. split; [|split; auto].
  - rewrite <- E. unfold zero_extend. cbn [b_size with_size b_bits b_cap b_gen b_cur].
    destruct I as (Es & _). rewrite Es, Z.add_0_r. reflexivity.
  - rewrite Nat2Z.id, <- app_assoc in I'. exact I'.
Qed.

Lemma torn_weaken f b l a r : torn f b l a -> torn false b l (a ++ r).
Proof.
  intros (b0 & m & k & Hk & I & E & D). exists b0, m, k.
  rewrite firstn_app. replace (m - length a)%nat with 0%nat by lia. cbn [firstn]. rewrite app_nil_r.
  rewrite app_length. split; [split; [lia|discriminate]|]. auto.
Qed.

Lemma torn_shift f b l a new : torn f b (l ++ a) new -> torn f b l (a ++ new).
Proof.
  intros (b0 & m & k & Hk & I & E & D). exists b0, (length a + m)%nat, k.
  rewrite firstn_app_2, app_length. rewrite <- app_assoc in *.
  split; [split; [lia|intros F; destruct Hk as (_ & Hk); specialize (Hk F); lia]|]. auto.
Qed.

Lemma bits_of_firstn n m x y : (n <= m)%nat ->
  (forall i, 0 <= i < Z.of_nat n -> Z.testbit x i = Z.testbit y i) ->
  bits_of n x = firstn n (bits_of m y).
Proof.
  intros H E. apply zbit_ext.
  - rewrite zlen_firstn, !zlen_bits_of. lia.
  - rewrite zlen_bits_of. intros p Hp. rewrite zbit_firstn, !zbit_bits_of.
    destruct (Z.ltb_spec p (Z.of_nat n)); [|lia].
    destruct (Z.ltb_spec p (Z.of_nat m)); [|lia].
    destruct (Z.leb_spec 0 p); [|lia]. cbn. rewrite E by lia. reflexivity.
Qed.

Lemma x_append_bits_ok lim gr b l bits len : binv b l -> 0 <= len <= 64 -> 0 <= bits < 2 ^ len ->
  exists b' t, x_append_bits lim gr b bits len = Ok (b', t) /\
    if t then torn true b' l (bits_of (Z.to_nat len) bits)
    else binv b' (l ++ bits_of (Z.to_nat len) bits).
Proof.
  intros H Hl Hb.
  destruct (x_append_bits lim gr b bits len) as [[b' [|]]|] eqn:X.
  2:{ exists b', false. split; auto. apply x_append_bits_fair in X.
      destruct (append_bits_ok gr b l bits len H Hl Hb) as (b1 & E1 & I1). congruence. }
  - exists b', true. split; auto. revert X. pose proof H as (H1 & H2 & Hc & H3).
    unfold x_append_bits. rewrite no_spurious_ok by auto. cbn [bind]. rewrite assert_true by auto.
    destruct (Z.eqb_spec len 0) as [|Hn]; [discriminate|]. cbv zeta.
    pose proof (Z.mod_pos_bound (b_size b) 64 ltac:(lia)) as Rs.
    pose proof (zlen_nonneg l) as Nl.
    assert (Lb : length (bits_of (Z.to_nat len) bits) = Z.to_nat len)
      by (pose proof (zlen_bits_of (Z.to_nat len) bits) as E; unfold zlen in E; lia).
    unfold x_push. destruct (Z.eqb_spec (b_size b mod 64) 0) as [E|E].
    + destruct (x_fails _ _ _ _); [|discriminate]. intros X. injection X as <-.
      exists b, 0%nat, (Z.to_nat len). cbn [firstn]. rewrite app_nil_r.
      split; [lia|]. split; auto. rewrite Z2Nat.id by lia. split; [rewrite H1; auto|].
      rewrite H1 in E. clear - E Hl Hn Nl. dlia.
    + rewrite shl_ok by lia. cbn [bind]. rewrite H1 in E, Rs |- *.
      set (s := zlen l mod 64) in *.
      rewrite cur_or_ok; cbn [b_cur b_gen b_bits with_size]; [|auto|eapply words_ok_pos; eauto].
      cbn [bind]. destruct (Z.ltb_spec (64 - s) len) as [G|G]; [|discriminate].
      rewrite shr_ok by lia. cbn [bind].
      destruct (x_fails _ _ _ _); [|discriminate]. intros X. injection X as <-.
      set (bits' := bits mod 2 ^ (64 - s)).
      assert (Rb : 0 <= bits' < 2 ^ (64 - s)) by (apply Z.mod_pos_bound; lia).
      destruct (append_bits_ok gr b l bits' (64 - s) H ltac:(lia) Rb) as (b0 & E0 & I0).
      assert (B : bits_of (Z.to_nat (64 - s)) bits' =
                  firstn (Z.to_nat (64 - s)) (bits_of (Z.to_nat len) bits)).
      { apply bits_of_firstn; [lia|]. intros i Hi. unfold bits'.
        rewrite Z.mod_pow2_bits_low by lia. reflexivity. }
      rewrite B in I0.
      exists b0, (Z.to_nat (64 - s)), (Z.to_nat (len - (64 - s))).
      assert (EL : zlen (l ++ firstn (Z.to_nat (64 - s)) (bits_of (Z.to_nat len) bits)) =
                   zlen l + (64 - s)).
      { rewrite zlen_app, zlen_firstn, zlen_bits_of. lia. }
      split; [lia|]. split; [auto|]. rewrite EL. split.
      * revert E0. unfold append_bits. rewrite no_spurious_ok by (auto; lia). cbn [bind].
        rewrite assert_true by auto. destruct (Z.eqb_spec (64 - s) 0); [lia|]. cbv zeta.
        rewrite H1. fold s. destruct (Z.eqb_spec s 0); [lia|].
        rewrite shl_ok by lia. cbn [bind].
        rewrite cur_or_ok; cbn [b_cur b_gen b_bits with_size]; [|auto|eapply words_ok_pos; eauto].
        cbn [bind]. destruct (Z.ltb_spec (64 - s) (64 - s)); [lia|]. intros X. injection X as <-.
        unfold with_size, set_cur_back, with_bits. cbn [b_bits b_size b_cap b_gen b_cur].
        rewrite zlen_upd, H3 by auto. f_equal; [|lia].
        do 2 f_equal. unfold bits'. apply Z.bits_inj'. intros i Hi. unfold u64.
        destruct (Z.ltb_spec i 64) as [Li|Li].
        -- rewrite !Z.mod_pow2_bits_low, !Z.shiftl_spec by lia.
           destruct (Z.ltb_spec i s) as [Q|Q]; [rewrite !Z.testbit_neg_r by lia; auto|].
           rewrite Z.mod_pow2_bits_low by lia. reflexivity.
        -- rewrite !Z.mod_pow2_bits_high by lia. reflexivity.
      * clear - G Hl Nl Rs. subst s. dlia.
  - exfalso. revert X. pose proof H as (H1 & H2 & Hc & H3).
    unfold x_append_bits. rewrite no_spurious_ok by auto. cbn [bind]. rewrite assert_true by auto.
    destruct (Z.eqb_spec len 0) as [|Hn]; [discriminate|]. cbv zeta.
    pose proof (Z.mod_pos_bound (b_size b) 64 ltac:(lia)) as Rs.
    destruct (Z.eqb_spec (b_size b mod 64) 0) as [E|E]; [discriminate|].
    rewrite shl_ok by lia. cbn [bind]. rewrite H1 in E, Rs |- *.
    rewrite cur_or_ok; cbn [b_cur b_gen b_bits with_size]; [|auto|eapply words_ok_pos; eauto].
    cbn [bind]. destruct (Z.ltb_spec (64 - zlen l mod 64) len) as [G|G]; [|discriminate].
    rewrite shr_ok by lia. cbn [bind]. discriminate.
Qed.

Lemma x_zero_extend_ok lim gr b l n : binv b l -> 0 <= n -> fits (zlen l + n) ->
  exists b' t, x_zero_extend lim gr b n = Ok (b', t) /\
    if t then torn true b' l (repeat false (Z.to_nat n))
    else binv b' (l ++ repeat false (Z.to_nat n)).
Proof.
  intros H Hn Hf.
  destruct (x_zero_extend lim gr b n) as [[b' [|]]|] eqn:X.
  2:{ exists b', false. split; auto. apply x_zero_extend_fair in X.
      destruct (zero_extend_ok gr b l n H Hn Hf) as (b1 & E1 & I1). congruence. }
  - exists b', true. split; auto. revert X. pose proof H as (H1 & (_ & E & _) & Hc & H3).
    unfold x_zero_extend. cbv zeta. cbn [b_size with_size b_bits].
    destruct (Z.eqb_spec (u64 (words_for (b_size b + n) - zlen (b_bits b))) 0) as [|D]; [discriminate|].
    destruct (x_fails _ _ _ _); [|discriminate]. intros X. injection X as <-.
    exists b, 0%nat, (Z.to_nat n). cbn [firstn]. rewrite app_nil_r, repeat_length.
    split; [lia|]. split; auto. rewrite Z2Nat.id by lia. split; [rewrite H1; auto|].
    intros C. apply D. unfold words_for, ceil_div. rewrite H1, E, C.
    replace (zlen l + n + 64 - 1) with (zlen l + n + 63) by lia. rewrite Z.sub_diag. reflexivity.
  - exfalso. revert X. unfold x_zero_extend. cbv zeta. destruct (_ =? 0); [discriminate|].
    destruct (x_fails _ _ _ _); discriminate.
Qed.

Lemma x_one_extend_loop_ok lim gr fuel : forall b l n, binv b l -> 0 <= n -> n / 64 <= Z.of_nat fuel ->
  exists b' m t, x_one_extend_loop lim gr fuel b n = Ok (b', m, t) /\
    if t then torn false b' l (repeat true (Z.to_nat n))
    else m = n mod 64 /\ binv b' (l ++ repeat true (Z.to_nat (n - n mod 64))).
Proof.
  induction fuel as [|fuel IH]; intros b l n H Hn Hf; cbn [x_one_extend_loop].
  - replace (64 <=? n) with false by dlia. exists b, n, false. split; auto.
    rewrite Z.mod_small by dlia. split; auto.
    rewrite Z.sub_diag. cbn [Z.to_nat repeat]. rewrite app_nil_r. auto.
  - destruct (Z.leb_spec 64 n).
    + pose proof (bits_of_ones 64 ltac:(lia)) as O.
      change (Z.shiftr (2 ^ 64 - 1) (64 - Z.of_nat 64)) with (2 ^ 64 - 1) in O.
      destruct (x_append_bits_ok lim gr b l (2 ^ 64 - 1) 64 H ltac:(lia) ltac:(lia)) as (b1 & t & E1 & I1).
      change (Z.to_nat 64) with 64%nat in I1. rewrite O in I1.
      assert (R : repeat true (Z.to_nat n) = repeat true 64 ++ repeat true (Z.to_nat (n - 64))).
      { rewrite <- repeat_app. f_equal. lia. }
      rewrite E1. cbn [bind]. destruct t.
      { exists b1, n, true. split; auto. rewrite R. eapply torn_weaken; eauto. }
      destruct (IH b1 _ (n - 64) I1 ltac:(lia) ltac:(dlia)) as (b2 & m & t & E2 & I2).
      exists b2, m, t. split; auto. destruct t.
      * rewrite R. apply torn_shift; auto.
      * destruct I2 as (-> & I2). split; [dlia|].
        rewrite <- app_assoc in I2.
        replace (Z.to_nat (n - n mod 64)) with (64 + Z.to_nat (n - 64 - (n - 64) mod 64))%nat by dlia.
        rewrite repeat_app. exact I2.
    + exists b, n, false. split; auto. rewrite Z.mod_small by lia. split; auto.
      rewrite Z.sub_diag. cbn [Z.to_nat repeat]. rewrite app_nil_r. auto.
Qed.

Lemma x_one_extend_ok lim gr b l n : binv b l -> 0 <= n ->
  exists b' t, x_one_extend lim gr b n = Ok (b', t) /\
    if t then torn false b' l (repeat true (Z.to_nat n)) else binv b' (l ++ repeat true (Z.to_nat n)).
Proof.
  intros H Hn. unfold x_one_extend.
  destruct (x_one_extend_loop_ok lim gr (Z.to_nat (n / 64)) b l n H Hn ltac:(dlia))
    as (b1 & m & t & E1 & I1).
  rewrite E1. cbn [bind]. destruct t; [exists b1, true; auto|]. destruct I1 as (-> & I1).
  assert (Hm : 0 <= n mod 64 < 64) by (apply Z.mod_pos_bound; lia).
  destruct (Z.eqb_spec (n mod 64) 0) as [E|E].
  - exists b1, false. split; auto. rewrite E, Z.sub_0_r in I1. auto.
  - rewrite shr_ok by lia. cbn [bind].
    set (x := Z.shiftr _ _).
    assert (Rx : 0 <= x < 2 ^ (n mod 64)).
    { unfold x. apply shiftr_range; try lia. replace (n mod 64 + (64 - n mod 64)) with 64 by lia. lia. }
    destruct (x_append_bits_ok lim gr b1 _ x (n mod 64) I1 ltac:(lia) Rx) as (b2 & t & E2 & I2).
    pose proof (bits_of_ones (Z.to_nat (n mod 64)) ltac:(lia)) as O. rewrite Z2Nat.id in O by lia.
    fold x in O. rewrite O in I2.
    assert (R : repeat true (Z.to_nat n) =
                repeat true (Z.to_nat (n - n mod 64)) ++ repeat true (Z.to_nat (n mod 64))).
    { rewrite <- repeat_app. f_equal. lia. }
    exists b2, t. split; auto. rewrite R. destruct t.
    + apply torn_shift. destruct I2 as (b0 & p & q & (A1 & _) & A2). exists b0, p, q.
      split; [split; [auto|discriminate]|]. auto.
    + rewrite app_assoc. auto.
Qed.

Lemma x_append_ok lim gr b l c r : binv b l -> binv c r ->
  exists b' t, x_append lim gr b c = Ok (b', t) /\ if t then torn true b' l r else binv b' (l ++ r).
Proof.
  intros H G. pose proof H as (H1 & (_ & E & _) & Hc & H3). pose proof G as (G1 & _).
  destruct (append_ok gr b l c r H G) as (b1 & E1 & I1). unfold x_append.
  destruct (Z.eqb_spec (b_size c) 0) as [Z|Z].
  { exists b, false. split; auto. unfold append in E1. rewrite Z in E1. cbn in E1. congruence. }
  cbv zeta. cbn [b_size with_size b_bits].
  destruct (x_fails _ _ _ _) eqn:F.
  - eexists _, true. split; [reflexivity|]. exists b, 0%nat, (length r). cbn [firstn].
    rewrite app_nil_r. split; [lia|]. split; auto. fold (zlen r). split; [congruence|].
    unfold x_fails in F. cbn [b_cap with_size] in F. apply andb_true_iff in F. destruct F as (F & _).
    apply Z.ltb_lt in F. unfold words_for, ceil_div in F. rewrite H1, G1 in F.
    replace (zlen l + zlen r + 64 - 1) with (zlen l + zlen r + 63) in F by lia. lia.
  - rewrite E1. cbn [bind]. exists b1, false. auto.
Qed.

(** ** one call *)
Lemma bxstep_ok lim gr st s o : sinv st s -> legal s o ->
  exists st' t, bxstep lim gr st o = Ok (st', t) /\
    if t then if match o with
                 | AppendBits _ _ _ | ZeroExtend _ _ | OneExtend _ _ | Append _ _ => true
                 | _ => false
                 end
              then torn (match o with OneExtend _ _ => false | _ => true end)
                     (st' (target o)) (s (target o)) (added s o) /\
                   (forall j, j <> target o -> st' j = st j)
              else forall j, st' j = st j
    else sinv st' (spec_step s o).
Proof.
  intros H L.
  assert (K : forall st', bxstep lim gr st o = Ok (st', false) -> sinv st' (spec_step s o)).
  { intros st' E. apply bxstep_fair in E. destruct (step_ok gr st s o H L) as (st1 & E1 & I1).
    rewrite E1 in E. injection E as <-. exact I1. }
  assert (J : forall st', keeps o -> bxstep lim gr st o = Ok (st', true) -> forall j, st' j = st j)
    by (intros st'; apply bxstep_keeps).
  assert (N : forall (b : builder) i j, j <> i -> put st i b j = st j).
  { intros b i j D. unfold put. destruct (Nat.eqb_spec j i); congruence. }
  assert (Y : forall (b : builder) i, put st i b i = b).
  { intros b i. unfold put. rewrite Nat.eqb_refl. auto. }
  assert (Q : keeps o -> (exists st' t, bxstep lim gr st o = Ok (st', t)) ->
    exists st' t, bxstep lim gr st o = Ok (st', t) /\
      if t then forall j, st' j = st j else sinv st' (spec_step s o)).
  { intros KO (st' & t & E). exists st', t. split; auto. destruct t; auto. }
  destruct (step_ok gr st s o H L) as (st1 & E1 & _).
  destruct o; cbn [target added]; try (apply Q; [exact I|]; cbn [bxstep]).
  - unfold x_new. destruct (lim <? _); cbn [bind]; eauto.
    destruct L as [L _]. destruct (new_builder_ok size init L) as (b & -> & _). cbn [bind]. eauto.
  - destruct (x_reserve _ _ _ _). eauto.
  - assert (X : exists b1 t, x_push_back lim gr (st i) b = Ok (b1, t)).
    { cbn [step] in E1. destruct (push_back gr (st i) b) as [b1|] eqn:F; [|discriminate].
      revert F. unfold x_push_back, push_back, x_push. cbv zeta.
      destruct (b_size (st i) mod 64 =? 0).
      - destruct (x_fails _ _ _ _); eauto.
        destruct (shl _ _); cbn [bind]; [|discriminate].
        destruct (cur_or _ _); cbn [bind]; [|discriminate]. eauto.
      - destruct (shl _ _); cbn [bind]; [|discriminate].
        destruct (cur_or _ _); cbn [bind]; [|discriminate]. eauto. }
    destruct X as (b1 & t & ->). cbn [bind]. eauto.
  - rewrite E1. cbn [bind]. eauto.
  - rewrite E1. cbn [bind]. eauto.
  - cbn [legal] in L. destruct L as (L1 & L2 & _).
    destruct (x_append_bits_ok lim gr _ _ bits len (H i) L1 L2) as (b1 & t & E & B).
    exists (put st i b1), t. cbn [bxstep] in K |- *. rewrite E in K |- *. cbn [bind] in K |- *.
    split; auto. destruct t; [split; auto; rewrite Y; auto|]. apply K. auto.
  - cbn [legal] in L. destruct L as (L1 & L2).
    destruct (x_zero_extend_ok lim gr _ _ n (H i) L1 L2) as (b1 & t & E & B).
    exists (put st i b1), t. cbn [bxstep] in K |- *. rewrite E in K |- *. cbn [bind] in K |- *.
    split; auto. destruct t; [split; auto; rewrite Y; auto|]. apply K. auto.
  - cbn [legal] in L. destruct L as (L1 & _).
    destruct (x_one_extend_ok lim gr _ _ n (H i) L1) as (b1 & t & E & B).
    exists (put st i b1), t. cbn [bxstep] in K |- *. rewrite E in K |- *. cbn [bind] in K |- *.
    split; auto. destruct t; [split; auto; rewrite Y; auto|]. apply K. auto.
  - destruct (x_append_ok lim gr _ _ _ _ (H i) (H j)) as (b1 & t & E & B).
    exists (put st i b1), t. cbn [bxstep] in K |- *. rewrite E in K |- *. cbn [bind] in K |- *.
    split; auto. destruct t; [split; auto; rewrite Y; auto|]. apply K. auto.
  - rewrite E1. cbn [bind]. eauto.
  - rewrite E1. cbn [bind]. eauto.
Qed.

Lemma sinv_same st st' s : (forall j, st' j = st j) -> sinv st s -> sinv st' s.
Proof. intros E H j. rewrite E. auto. Qed.

Lemma bxstep_sinv lim gr st s o st' t : sinv st s -> legal s o ->
  bxstep lim gr st o = Ok (st', t) -> (t = true -> keeps o) ->
  sinv st' (if t then s else spec_step s o).
Proof.
  intros H L E K. destruct (bxstep_ok lim gr st s o H L) as (st1 & t1 & E1 & I1).
  rewrite E1 in E. injection E as <- <-. destruct t1; auto.
  eapply sinv_same; [|exact H]. apply (bxstep_keeps lim gr st o); auto.
Qed.

Lemma bxrun_sinv gr los : forall st s st' ts, sinv st s -> bxrun gr st los = Ok (st', ts) ->
  bxlegal s (combine (map snd los) ts) -> sinv st' (bxmeaning s (combine (map snd los) ts)).
Proof.
  induction los as [|(lim, o) los IH]; intros st s st' ts H E L; cbn [bxrun] in E.
  - injection E as <- <-. exact H.
  - destruct (bxstep lim gr st o) as [[st1 t]|] eqn:E1; cbn [bind] in E; [|discriminate].
    destruct (bxrun gr st1 los) as [[st2 ts']|] eqn:E2; cbn [bind] in E; [|discriminate].
    injection E as <- <-. cbn [map snd combine bxlegal bxmeaning] in *.
    destruct L as (L1 & L2 & L3). eapply IH; eauto. eapply bxstep_sinv; eauto.
Qed.

Theorem throw_history gr los st ts : bxrun gr builders0 los = Ok (st, ts) ->
  bxlegal seqs0 (combine (map snd los) ts) ->
  let s := bxmeaning seqs0 (combine (map snd los) ts) in
  (forall i, bv_of_builder (st i) = Ok (canonical (s i))) /\
  (forall lim o, legal s o -> exists st' t, bxstep lim gr st o = Ok (st', t)).
Proof.
  intros E L s. pose proof (bxrun_sinv gr los _ _ _ _ sinv0 E L) as H. split.
  - intros i. apply binv_bv. apply H.
  - intros lim o Lo. destruct (bxstep_ok lim gr st s o H Lo) as (st' & t & E' & _). eauto.
Qed.

Theorem throw_torn gr los st ts lim o st' : bxrun gr builders0 los = Ok (st, ts) ->
  bxlegal seqs0 (combine (map snd los) ts) ->
  let s := bxmeaning seqs0 (combine (map snd los) ts) in
  legal s o -> ~ keeps o -> bxstep lim gr st o = Ok (st', true) ->
  bv_of_builder (st' (target o)) = Ub AssertFailed /\ (forall j, j <> target o -> st' j = st j).
Proof.
  intros E L s Lo K X. pose proof (bxrun_sinv gr los _ _ _ _ sinv0 E L) as H. fold s in H.
  destruct (bxstep_ok lim gr st s o H Lo) as (st1 & t & E1 & I1).
  rewrite X in E1. injection E1 as <- <-.
  destruct o; cbn [keeps] in K; try (exfalso; apply K; exact I); destruct I1 as (T & N);
    (split; [eapply torn_bv; exact T|auto]).
Qed.

Theorem throw_repair gr los st ts lim o st' : bxrun gr builders0 los = Ok (st, ts) ->
  bxlegal seqs0 (combine (map snd los) ts) ->
  let s := bxmeaning seqs0 (combine (map snd los) ts) in
  legal s o -> ~ keeps o -> bxstep lim gr st o = Ok (st', true) ->
  exists st'' m k, step gr st' (ZeroExtend (target o) 0) = Ok st'' /\
    (m + k <= length (added s o))%nat /\
    (match o with OneExtend _ _ => True | _ => (m + k = length (added s o))%nat end) /\
    bv_of_builder (st'' (target o)) =
      Ok (canonical (s (target o) ++ firstn m (added s o) ++ repeat false k)).
Proof.
  intros E L s Lo K X. pose proof (bxrun_sinv gr los _ _ _ _ sinv0 E L) as H. fold s in H.
  destruct (bxstep_ok lim gr st s o H Lo) as (st1 & t & E1 & I1).
  rewrite X in E1. injection E1 as <- <-.
  assert (T : torn (match o with OneExtend _ _ => false | _ => true end)
                   (st' (target o)) (s (target o)) (added s o) /\
              fits (zlen (s (target o)) + zlen (added s o))).
  { destruct o; cbn [keeps] in K; try (exfalso; apply K; exact I); destruct I1 as (T & _);
      (split; [exact T|]); cbn [target added legal] in *;
      rewrite ?zlen_bits_of, ?zlen_repeat, ?Z2Nat.id by tauto; tauto. }
  destruct T as (T & F). destruct (torn_repair _ gr _ _ _ T F) as (b' & m & k & Z & (Q1 & Q2) & B).
  exists (put st' (target o) b'), m, k. split; [cbn [step]; rewrite Z; reflexivity|].
  split; auto. split; [destruct o; auto|].
  unfold put. rewrite Nat.eqb_refl. apply binv_bv. exact B.
Qed.

(** ** when memory suffices, or cannot *)
Lemma v_need_lim lim gr b n : x_fails lim gr b n = false ->
  b_cap (v_need gr b n) <= Z.max lim (b_cap b).
Proof.
  unfold x_fails, v_need. destruct (Z.ltb_spec (b_cap b) n), (Z.leb_spec n (b_cap b)); try lia; cbn.
  destruct (Z.ltb_spec lim (Z.max n (gr (b_cap b) n))); [discriminate|lia].
Qed.

Lemma x_push_lim lim gr b w b' : x_push lim gr b w = (b', false) ->
  b_cap b' <= Z.max lim (b_cap b).
Proof.
  unfold x_push. destruct (x_fails _ _ _ _) eqn:F; [discriminate|]. intros E. injection E as <-.
  exact (v_need_lim _ _ _ _ F).
Qed.

Lemma cur_or_cap b x b' : cur_or b x = Ok b' -> b_cap b' = b_cap b.
Proof.
  unfold cur_or. destruct (b_cur b) as [[g i]|]; [|discriminate].
  destruct (g =? b_gen b); [|discriminate].
  destruct (rd _ _); cbn [bind]; [|discriminate].
  destruct (wr _ _ _); cbn [bind]; [|discriminate]. intros E. injection E as <-. reflexivity.
Qed.

Lemma x_append_bits_lim lim gr b bits len b' : x_append_bits lim gr b bits len = Ok (b', false) ->
  b_cap b' <= Z.max lim (b_cap b).
Proof.
  unfold x_append_bits.
  destruct (no_spurious bits len) as [[|]|]; cbn [bind assert_]; try discriminate.
  destruct (len =? 0); [intros E; injection E as <-; lia|]. cbv zeta.
  destruct (b_size b mod 64 =? 0).
  - intros E. injection E as E. apply x_push_lim in E. exact E.
  - destruct (shl _ _) as [y|]; cbn [bind]; [|discriminate].
    destruct (cur_or _ _) as [z|] eqn:C; cbn [bind]; [|discriminate].
    apply cur_or_cap in C. cbn [b_cap with_size] in C.
    destruct (_ <? len).
    + destruct (shr _ _) as [w|]; cbn [bind]; [|discriminate].
      intros E. injection E as E. apply x_push_lim in E. lia.
    + intros E. injection E as <-. cbn. lia.
Qed.

Lemma x_one_extend_loop_lim lim gr fuel : forall b n b' m,
  x_one_extend_loop lim gr fuel b n = Ok (b', m, false) -> b_cap b' <= Z.max lim (b_cap b).
Proof.
  induction fuel as [|fuel IH]; intros b n b' m; cbn [x_one_extend_loop].
  - destruct (64 <=? n); [discriminate|]. intros E. injection E as <- <-. lia.
  - destruct (64 <=? n); [|intros E; injection E as <- <-; lia].
    destruct (x_append_bits _ _ _ _ _) as [[b1 [|]]|] eqn:E; cbn [bind]; try discriminate.
    intros E2. apply IH in E2. apply x_append_bits_lim in E. lia.
Qed.

Lemma x_one_extend_lim lim gr b n b' : x_one_extend lim gr b n = Ok (b', false) ->
  b_cap b' <= Z.max lim (b_cap b).
Proof.
  unfold x_one_extend.
  destruct (x_one_extend_loop _ _ _ _ _) as [[[b1 m] [|]]|] eqn:E; cbn [bind]; try discriminate.
  apply x_one_extend_loop_lim in E.
  destruct (m =? 0); [intros X; injection X as <-; lia|].
  destruct (shr _ _) as [w|]; cbn [bind]; [|discriminate].
  intros X. apply x_append_bits_lim in X. lia.
Qed.

Lemma x_zero_extend_lim lim gr b n b' : x_zero_extend lim gr b n = Ok (b', false) ->
  b_cap b' <= Z.max lim (b_cap b).
Proof.
  unfold x_zero_extend. cbv zeta. destruct (_ =? 0); [intros X; injection X as <-; cbn; lia|].
  destruct (x_fails _ _ _ _) eqn:F; [discriminate|]. intros X; injection X as <-.
  exact (v_need_lim _ _ _ _ F).
Qed.

Lemma append_cap gr b c b' : append gr b c = Ok b' -> b_size c <> 0 ->
  b_cap b' = b_cap b \/ b_cap b' = b_cap (v_need gr (with_size b (b_size b + b_size c))
                                            (words_for (b_size b + b_size c))).
Proof.
  unfold append. intros E Z. destruct (Z.eqb_spec (b_size c) 0); [lia|]. cbv zeta in E.
  cbn [b_size with_size b_bits] in E.
  match type of E with context [if ?n <? ?p then ?x else ?y] =>
    set (bb := if n <? p then x else y) in E end.
  assert (B : b_cap bb = b_cap b \/ b_cap bb = b_cap (v_need gr (with_size b (b_size b + b_size c))
                                            (words_for (b_size b + b_size c)))).
  { unfold bb. destruct (_ <? _); [left; reflexivity|right; reflexivity]. }
  clearbody bb. assert (C : b_cap b' = b_cap bb); [|rewrite C; exact B].
  destruct (_ =? 0).
  - destruct (_ <=? _); [|discriminate]. injection E as <-. reflexivity.
  - destruct (rd _ _); cbn [bind] in E; [|discriminate].
    destruct (append_loop _ _ _ _) as [[ws cur]|]; cbn [bind] in E; [|discriminate].
    destruct (shl _ _); cbn [bind] in E; [|discriminate].
    destruct (mod_word _ _ _); cbn [bind] in E; [|discriminate].
    destruct (_ <? _).
    + destruct (shr _ _); cbn [bind] in E; [|discriminate].
      destruct (wr _ _ _); cbn [bind] in E; [|discriminate]. injection E as <-. reflexivity.
    + injection E as <-. reflexivity.
Qed.

Lemma x_append_lim lim gr b c b' : x_append lim gr b c = Ok (b', false) ->
  b_cap b' <= Z.max lim (b_cap b).
Proof.
  unfold x_append. destruct (Z.eqb_spec (b_size c) 0); [intros X; injection X as <-; lia|].
  cbv zeta. cbn [b_size with_size]. destruct (x_fails _ _ _ _) eqn:F; [discriminate|].
  apply v_need_lim in F. cbn [b_cap with_size] in F.
  destruct (append gr b c) as [b1|] eqn:E; cbn [bind]; [|discriminate]. intros X; injection X as <-.
  destruct (append_cap gr b c b1 E n) as [->| ->]; lia.
Qed.

Theorem throw_must gr los st ts lim o : bxrun gr builders0 los = Ok (st, ts) ->
  bxlegal seqs0 (combine (map snd los) ts) ->
  let s := bxmeaning seqs0 (combine (map snd los) ts) in
  legal s o -> ~ keeps o ->
  64 * lim < zlen (s (target o)) + zlen (added s o) ->
  64 * b_cap (st (target o)) < zlen (s (target o)) + zlen (added s o) ->
  exists st', bxstep lim gr st o = Ok (st', true).
Proof.
  intros E L s Lo K G1 G2. pose proof (bxrun_sinv gr los _ _ _ _ sinv0 E L) as H. fold s in H.
  destruct (bxstep_ok lim gr st s o H Lo) as (st1 & t & E1 & I1). exists st1. rewrite E1.
  do 2 f_equal. destruct t; auto. exfalso.
  assert (C : b_cap (st1 (target o)) <= Z.max lim (b_cap (st (target o))) /\
              spec_step s o (target o) = s (target o) ++ added s o).
  { destruct o; cbn [keeps] in K; try (exfalso; apply K; exact I); cbn [bxstep target added spec_step] in *;
      match type of E1 with context [bind ?m _] => destruct m as [[b1 t1]|] eqn:X end;
      cbn [bind] in E1; try discriminate; injection E1 as <- ->;
      unfold put; rewrite Nat.eqb_refl; (split; [|reflexivity]).
    - eapply x_append_bits_lim; eauto.
    - eapply x_zero_extend_lim; eauto.
    - eapply x_one_extend_lim; eauto.
    - eapply x_append_lim; eauto. }
  destruct C as (C & Q). destruct (I1 (target o)) as (_ & (_ & W & _) & Hc & _).
  rewrite Q, zlen_app in W. pose proof (zlen_nonneg (s (target o))). pose proof (zlen_nonneg (added s o)).
  clear - W Hc C G1 G2. dlia.
Qed.
