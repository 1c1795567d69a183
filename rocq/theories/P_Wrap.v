(** Proofs about builder sizes that wrap. *)
From Verif Require Import Base Spec Lib P_BvLib P_BitVector M_Broadword M_BitVector S_BitVector M_Wrap S_Wrap P_Broadword2 P_Builder.
From Verif Require P_RsBuild.

Lemma w_ceil n : w_words_for n = u64 (n + 63) / 64.
Proof.
  unfold w_words_for, w_ceil_div. f_equal. unfold u64. rewrite Zminus_mod_idemp_l. f_equal. lia.
Qed.
Lemma w_words n : 0 <= n -> fits n -> w_words_for n = words_for n.
Proof. intros H F. unfold fits in F. rewrite w_ceil, u64_small by lia. unfold words_for, ceil_div. f_equal. lia. Qed.

Lemma w_new_eq size init : 0 <= size -> fits size -> w_new size init = new_builder size init.
Proof.
  intros H F. unfold w_new, new_builder. rewrite w_words by auto. cbv zeta. destruct (Z.eqb_spec size 0); auto.
  replace (words_for size =? 0) with false by (unfold words_for, ceil_div; dlia). reflexivity.
Qed.
Lemma w_reserve_eq gr b n : 0 <= n -> fits n -> w_reserve gr b n = reserve gr b n.
Proof. intros. unfold w_reserve, reserve. rewrite w_words by auto. reflexivity. Qed.
Lemma cur_or_size b x b' : cur_or b x = Ok b' -> b_size b' = b_size b.
Proof.
  unfold cur_or. destruct (b_cur b) as [[g i]|]; [|discriminate]. destruct (g =? b_gen b); [|discriminate].
  destruct (rd (b_bits b) i) as [w|]; [|discriminate]. cbn [bind]. destruct (wr (b_bits b) i (Z.lor w x)) as [ws|]; [|discriminate].
  cbn [bind]. intros [= <-]. reflexivity.
Qed.
Lemma w_push_back_eq gr b x : 0 <= b_size b -> b_size b + 1 < 2 ^ 64 -> w_push_back gr b x = push_back gr b x.
Proof.
  intros H F. unfold w_push_back, push_back. cbv zeta.
  set (c := if b_size b mod 64 =? 0 then _ else b). assert (S : b_size c = b_size b).
  { unfold c. destruct (b_size b mod 64 =? 0); auto. cbn [set_cur_back b_size]. apply v_push_size. }
  destruct (shl (Z.b2z x) (b_size b mod 64)) as [y|]; cbn [bind]; auto.
  destruct (cur_or c y) as [d|] eqn:E; cbn [bind]; auto. apply cur_or_size in E. rewrite u64_small by lia. reflexivity.
Qed.
Lemma w_append_bits_eq gr b bits len : 0 <= b_size b -> 0 <= len -> b_size b + len < 2 ^ 64 ->
  w_append_bits gr b bits len = append_bits gr b bits len.
Proof. intros H L F. unfold w_append_bits, append_bits. cbv zeta. rewrite u64_small by lia. reflexivity. Qed.
Lemma w_zero_extend_eq gr b l n : binv b l -> 0 <= n -> fits (zlen l + n) ->
  w_zero_extend gr b n = do b <- zero_extend gr b n; Ok (b, false).
Proof.
  intros (H1 & (U & E & B) & _) Hn F. unfold fits in F. pose proof (zlen_nonneg l). unfold w_zero_extend, zero_extend. cbv zeta.
  rewrite (u64_small (b_size b + n)) by lia. cbn [b_size with_size b_bits].
  rewrite w_words by (unfold fits; lia). set (N := words_for (b_size b + n)).
  assert (EN : N = (zlen l + n + 63) / 64) by (unfold N, words_for, ceil_div; rewrite H1; f_equal; lia).
  assert (zlen (b_bits b) <= N < 2 ^ 60) by dlia. pose proof (zlen_nonneg (b_bits b)).
  rewrite P_RsBuild.sub64_ok, u64_small by lia. destruct (N - zlen (b_bits b) =? 0); auto.
  unfold w_max_words. assert (N < 2 ^ 60 - 1) by dlia. replace (2 ^ 60 - 1 - zlen (b_bits b) <? N - zlen (b_bits b)) with false by lia. reflexivity.
Qed.
Lemma w_loop_eq gr fuel : forall b l n, binv b l -> 0 <= n -> fits (zlen l + n) ->
  w_one_extend_loop gr fuel b n = one_extend_loop gr fuel b n.
Proof.
  induction fuel as [|fuel IH]; intros b l n H Hn F; cbn [w_one_extend_loop one_extend_loop]; auto.
  unfold fits in F. pose proof (zlen_nonneg l). destruct (Z.leb_spec 64 n); auto.
  assert (S : b_size b = zlen l) by apply H. rewrite w_append_bits_eq by lia.
  destruct (append_bits_ok gr b l (2 ^ 64 - 1) 64 H ltac:(lia) ltac:(lia)) as (b1 & E1 & I1). rewrite E1. cbn [bind].
  eapply IH; eauto; [lia|]. unfold fits. rewrite zlen_app, zlen_bits_of. lia.
Qed.
Lemma w_one_extend_eq gr b l n : binv b l -> 0 <= n -> fits (zlen l + n) -> w_one_extend gr b n = one_extend gr b n.
Proof.
  intros H Hn F. unfold w_one_extend, one_extend. rewrite (w_loop_eq gr _ b l) by auto.
  destruct (one_extend_loop_ok gr (Z.to_nat (n / 64)) b l n H Hn ltac:(dlia)) as (b1 & E1 & I1).
  rewrite E1. cbn [bind]. destruct (n mod 64 =? 0); auto. destruct (shr (2 ^ 64 - 1) (64 - n mod 64)); cbn [bind]; auto.
  assert (S : b_size b1 = zlen (l ++ repeat true (Z.to_nat (n - n mod 64)))) by apply I1. unfold fits in F. pose proof (zlen_nonneg l).
  rewrite zlen_app, zlen_repeat in S. apply w_append_bits_eq; dlia.
Qed.
Lemma w_append_eq gr b c : 0 <= b_size b -> 0 <= b_size c -> fits (b_size b + b_size c) -> w_append gr b c = append gr b c.
Proof.
  intros Hb Hc F. unfold w_append, append. destruct (b_size c =? 0); auto. cbv zeta. unfold fits in F.
  rewrite u64_small by lia. cbn [b_size with_size]. rewrite w_words by (unfold fits; lia). reflexivity.
Qed.

(** ** histories *)
Definition finv (s : nat -> list bool) : Prop := forall i, fits (zlen (s i)).

Lemma finv_step s o : finv s -> legal s o -> finv (spec_step s o).
Proof.
  intros H L. assert (P : forall i l, fits (zlen l) -> finv (put s i l)).
  { intros i l F j. unfold put. destruct (Nat.eqb j i); auto. }
  destruct o; cbn [legal spec_step] in *; auto; unfold fits in *.
  - apply P. rewrite zlen_repeat. unfold fits. lia.
  - apply P. rewrite zlen_app, zlen_cons. change (zlen (@nil bool)) with 0. unfold fits. lia.
  - apply P. specialize (H i). unfold fits in *. rewrite !zlen_app, zlen_firstn, zlen_cons. change (zlen (@nil bool)) with 0.
    unfold zlen in *. rewrite skipn_length. lia.
  - apply P. specialize (H i). unfold fits in *. rewrite !zlen_app, zlen_firstn, zlen_bits_of. unfold zlen in *. rewrite skipn_length. lia.
  - apply P. rewrite zlen_app, zlen_bits_of. unfold fits. lia.
  - apply P. rewrite zlen_app, zlen_repeat. unfold fits. lia.
  - apply P. rewrite zlen_app, zlen_repeat. unfold fits. lia.
  - apply P. rewrite zlen_app. unfold fits. lia.
  - apply P. specialize (H i). unfold fits in *. unfold zlen in *. rewrite rev_length. lia.
  - intros k. unfold put. destruct (Nat.eqb k j); [apply H|]. destruct (Nat.eqb k i); apply H.
Qed.

Lemma wstep_ok gr st s o : sinv st s -> legal s o -> sized o ->
  exists st', S_BitVector.step gr st o = Ok st' /\ wstep gr st o = Ok (st', false) /\ sinv st' (spec_step s o).
Proof.
  intros I L Z. destruct (step_ok gr st s o I L) as (st' & E & I'). exists st'. split; auto. split; auto.
  assert (S : forall i, b_size (st i) = zlen (s i)) by (intros i; apply I). assert (N : forall i, 0 <= zlen (s i)) by (intros; apply zlen_nonneg).
  destruct o; cbn [wstep legal sized] in *; try (rewrite E; reflexivity); unfold S_BitVector.step in E.
  - destruct L. rewrite w_new_eq by auto. destruct (new_builder size init); cbn [bind] in *; [injection E as <-; reflexivity|discriminate].
  - rewrite w_reserve_eq by apply Z. injection E as <-. reflexivity.
  - unfold fits in L. rewrite w_push_back_eq by (rewrite S; specialize (N i); lia).
    destruct (push_back gr (st i) b); cbn [bind] in *; [injection E as <-; reflexivity|discriminate].
  - destruct L as (L1 & L2 & L3). unfold fits in L3. rewrite w_append_bits_eq by (rewrite ?S; specialize (N i); lia).
    destruct (append_bits gr (st i) bits len); cbn [bind] in *; [injection E as <-; reflexivity|discriminate].
  - destruct L. rewrite (w_zero_extend_eq gr _ (s i)) by auto.
    destruct (zero_extend gr (st i) n); cbn [bind] in *; [injection E as <-; reflexivity|discriminate].
  - destruct L. rewrite (w_one_extend_eq gr _ (s i)) by auto.
    destruct (one_extend gr (st i) n); cbn [bind] in *; [injection E as <-; reflexivity|discriminate].
  - destruct L. rewrite w_append_eq by (rewrite ?S; auto).
    destruct (append gr (st i) (st j)); cbn [bind] in *; [injection E as <-; reflexivity|discriminate].
Qed.

Lemma wrun_ok gr os : forall st s, sinv st s -> legal_run s os -> Forall sized os -> finv s ->
  exists st', run gr st os = Ok st' /\ wrun gr st os = Ok (st', map (fun _ => false) os) /\ sinv st' (spec_run s os) /\ finv (spec_run s os).
Proof.
  induction os as [|o os IH]; intros st s I L Z F; cbn [run wrun spec_run legal_run map] in *; [eauto|].
  destruct L as [L1 L2]. inversion Z; subst. destruct (wstep_ok gr st s o I L1) as (st1 & -> & -> & I1); auto. cbn [bind].
  destruct (IH st1 (spec_step s o) I1 L2) as (st2 & -> & -> & I2 & F2); auto; [apply finv_step; auto|]. cbn [bind]. eauto.
Qed.

Lemma finv0 : finv seqs0.
Proof. intros i. reflexivity. Qed.

Lemma w_bv b l : binv b l -> fits (zlen l) -> w_bv_of_builder b = Ok (canonical l).
Proof.
  intros I F. rewrite <- (binv_bv b l I). assert (S : b_size b = zlen l) by apply I. unfold w_bv_of_builder, bv_of_builder.
  rewrite w_words; [reflexivity|rewrite S; apply zlen_nonneg|rewrite S; auto].
Qed.

Lemma w_exact gr os : legal_run seqs0 os -> Forall sized os ->
  exists st, run gr builders0 os = Ok st /\ wrun gr builders0 os = Ok (st, map (fun _ => false) os) /\
    forall i, w_bv_of_builder (st i) = Ok (canonical (spec_run seqs0 os i)).
Proof.
  intros L Z. destruct (wrun_ok gr os builders0 seqs0 sinv0 L Z finv0) as (st & E & W & I & F). exists st. split; auto. split; auto.
  intros i. apply w_bv; auto.
Qed.

(** ** overflow *)
Lemma w_zero n : 2 ^ 64 - 64 < n < 2 ^ 64 -> w_words_for n = 0.
Proof.
  intros H. rewrite w_ceil. replace (u64 (n + 63)) with (n + 63 - 2 ^ 64). 2:{ unfold u64. apply (Z.mod_unique_pos _ _ 1); lia. }
  apply Z.div_small. lia.
Qed.
Lemma w_new_over n init : 2 ^ 64 - 64 < n < 2 ^ 64 -> w_new n init = Ub OutOfBounds.
Proof. intros H. unfold w_new. rewrite w_zero by auto. cbv zeta. replace (n =? 0) with false by lia. reflexivity. Qed.
Lemma w_reserve_over gr b n : 0 <= b_cap b -> 2 ^ 64 - 64 < n < 2 ^ 64 -> w_reserve gr b n = b.
Proof. intros Hc H. unfold w_reserve, v_need. rewrite w_zero by auto. replace (0 <=? b_cap b) with true by lia. reflexivity. Qed.

Lemma u64_over a : 2 ^ 64 <= a < 2 * 2 ^ 64 -> u64 a = a - 2 ^ 64.
Proof. intros H. unfold u64. symmetry. apply (Z.mod_unique_pos _ _ 1); lia. Qed.

Lemma u64_neg a : - 2 ^ 64 <= a < 0 -> u64 a = a + 2 ^ 64.
Proof. intros H. unfold u64. symmetry. apply (Z.mod_unique_pos _ _ (-1)); lia. Qed.

(** zero_extend(n) of a builder of [l] when the sum of the sizes does not fit *)
Lemma w_zero_over1 gr b l n : binv b l -> fits (zlen l) -> n < 2 ^ 64 <= zlen l + n ->
  w_zero_extend gr b n = Ok (with_size b (zlen l + n - 2 ^ 64), negb ((zlen l + n - 2 ^ 64 + 63) / 64 =? (zlen l + 63) / 64)).
Proof.
  intros (S & (U & E & B) & _) F Hn. unfold fits in F. pose proof (zlen_nonneg l). unfold w_zero_extend. rewrite S, u64_over by lia. cbv zeta.
  cbn [b_size with_size b_bits]. rewrite w_words by (unfold fits; lia). rewrite E. unfold words_for, ceil_div.
  set (m := zlen l + n - 2 ^ 64) in *. assert (0 <= m < zlen l) by lia. replace (m + 64 - 1) with (m + 63) by lia.
  assert (V : (m + 63) / 64 <= (zlen l + 63) / 64 < 2 ^ 58) by dlia. assert (0 <= (m + 63) / 64) by dlia. unfold sub64, w_max_words.
  destruct (Z.eqb_spec ((m + 63) / 64) ((zlen l + 63) / 64)) as [Q|Q].
  - rewrite Q, Z.leb_refl, Z.sub_diag. reflexivity.
  - replace ((zlen l + 63) / 64 <=? (m + 63) / 64) with false by lia. cbn [negb].
    rewrite (u64_neg ((m + 63) / 64 - (zlen l + 63) / 64)) by lia.
    match goal with |- (if ?c =? 0 then _ else _) = _ => replace (c =? 0) with false by lia end.
    match goal with |- (if ?c then _ else _) = _ => replace c with true by lia end. reflexivity.
Qed.

Lemma wrun_app gr os os' : forall s s1 t1, wrun gr s os = Ok (s1, t1) ->
  wrun gr s (os ++ os') = do (s2, t2) <- wrun gr s1 os'; Ok (s2, t1 ++ t2).
Proof.
  induction os as [|o os IH]; intros s s1 t1 H; cbn [wrun app] in *.
  - injection H as <- <-. destruct (wrun gr s os') as [[s2 t2]|]; reflexivity.
  - destruct (wstep gr s o) as [[s' t]|]; cbn [bind] in *; [|discriminate].
    destruct (wrun gr s' os) as [[s2 t2]|] eqn:E; cbn [bind] in *; [|discriminate]. injection H as <- <-.
    rewrite (IH _ _ _ E). destruct (wrun gr s2 os') as [[s3 t3]|]; reflexivity.
Qed.

Lemma w_zero_over gr os i n : legal_run seqs0 os -> Forall sized os -> n < 2 ^ 64 <= zlen (spec_run seqs0 os i) + n ->
  let m := zlen (spec_run seqs0 os i) + n - 2 ^ 64 in
  exists st t, wrun gr builders0 (os ++ [ZeroExtend i n]) = Ok (st, map (fun _ => false) os ++ [t]) /\
    b_size (st i) = m /\ b_bits (st i) = pack (spec_run seqs0 os i) /\
    (t = false <-> (m + 63) / 64 = (zlen (spec_run seqs0 os i) + 63) / 64).
Proof.
  intros L Z Hn m. destruct (wrun_ok gr os builders0 seqs0 sinv0 L Z finv0) as (st & _ & W & I & F). specialize (I i). specialize (F i).
  rewrite (wrun_app _ _ _ _ _ _ W). cbn [wrun wstep]. rewrite (w_zero_over1 gr _ _ n I F Hn). cbn [bind]. fold m.
  eexists _, _. split; [reflexivity|]. unfold put. rewrite Nat.eqb_refl. cbn [b_size b_bits with_size].
  split; auto. split; [apply words_ok_eq, I|]. destruct (Z.eqb_spec ((m + 63) / 64) ((zlen (spec_run seqs0 os i) + 63) / 64)); cbn [negb]; intuition congruence.
Qed.

Lemma upd_W ws k : 0 <= k < zlen ws -> upd ws (Z.to_nat k) (W ws k) = ws.
Proof.
  intros H. apply nth_ext with (d := 0) (d' := 0); [apply upd_length|]. intros n Hn. rewrite upd_length in Hn.
  assert (X : W (upd ws (Z.to_nat k) (W ws k)) (Z.of_nat n) = W ws (Z.of_nat n)).
  { rewrite W_upd by auto. destruct (Z.eqb_spec (Z.of_nat n) k) as [<-|]; reflexivity. }
  unfold W in X. replace (Z.of_nat n <? 0) with false in X by lia. rewrite Nat2Z.id in X. exact X.
Qed.

Lemma w_zero_push gr os i n : legal_run seqs0 os -> Forall sized os -> n < 2 ^ 64 <= zlen (spec_run seqs0 os i) + n ->
  let m := zlen (spec_run seqs0 os i) + n - 2 ^ 64 in
  zlen (spec_run seqs0 os i) mod 64 <> 0 -> m / 64 = zlen (spec_run seqs0 os i) / 64 -> m mod 64 <> 0 ->
  exists st bv, wrun gr builders0 (os ++ [ZeroExtend i n; PushBack i false]) = Ok (st, map (fun _ => false) os ++ [false; false]) /\
    w_bv_of_builder (st i) = Ok bv /\ bv_size bv = m + 1 /\ bv_get bv m = Ok (nth (Z.to_nat m) (spec_run seqs0 os i) false).
Proof.
  intros L Z Hn m Hm Q0 M0. destruct (wrun_ok gr os builders0 seqs0 sinv0 L Z finv0) as (st & _ & W & I & F). specialize (I i). specialize (F i).
  rewrite (wrun_app _ _ _ _ _ _ W). cbn [wrun wstep]. rewrite (w_zero_over1 gr _ _ n I F Hn). cbn [bind]. fold m.
  assert (Q : (m + 63) / 64 = (zlen (spec_run seqs0 os i) + 63) / 64) by dlia. rewrite Q, Z.eqb_refl. cbn [negb bind].
  unfold put at 1. rewrite Nat.eqb_refl. set (l := spec_run seqs0 os i) in *. pose proof I as (S & K & Hc & C). pose proof K as (U & E & B).
  unfold fits in F. pose proof (zlen_nonneg l). assert (0 <= m < zlen l) by lia.
  unfold w_push_back. cbn [b_size with_size].
  destruct (Z.eqb_spec (m mod 64) 0); [contradiction|]. cbn [Z.b2z]. rewrite shl_ok by dlia. cbn [bind]. rewrite Z.shiftl_0_l. change (u64 0) with 0.
  pose proof (words_ok_pos _ _ K Hm) as P0. rewrite cur_or_ok by (cbn [b_cur b_gen b_bits with_size]; auto). cbn [bind b_bits with_size with_bits b_size].
  rewrite Z.lor_0_r, upd_W, u64_small by lia. eexists _, _. split; [reflexivity|]. unfold put. rewrite Nat.eqb_refl.
  unfold w_bv_of_builder. cbn [b_size b_bits with_size with_bits]. rewrite w_words by (unfold fits; lia).
  rewrite assert_true by (apply Z.eqb_eq; rewrite E; unfold words_for, ceil_div; dlia). split; [reflexivity|]. split; [reflexivity|].
  rewrite (words_ok_eq _ _ K). pose proof (bv_get_ok l m ltac:(lia)) as G. unfold bv_get, canonical in *. cbn [bv_size bv_words] in *.
  replace (m <? zlen l) with true in G by lia. replace (m <? m + 1) with true by lia. rewrite G. unfold zbit. replace (m <? 0) with false by lia. reflexivity.
Qed.
