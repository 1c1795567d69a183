(** Arguments that broadword.hpp and the builder reject, and some they do not. *)
From Verif Require Import Base Spec Lib M_Broadword M_BitVector S_BitVector.
From Verif Require Import P_Broadword P_Broadword2 P_BvLib P_BvRank P_BitVector P_Builder P_BvEnum P_Safety P_Reserve P_Reuse2.

Lemma one_true l p q : nth_error l p = Some true -> nth_error l q = Some true -> count true l = 1%nat -> p = q.
Proof.
  intros P Q C. assert (R : forall r, nth_error l r = Some true -> is_select true l 0 r).
  { intros r H. split; auto. pose proof (rank_S true l r true H) as RS. cbn [eqb] in RS. pose proof (rank_le_count true l (S r)). lia. }
  eapply is_select_unique; eauto.
Qed.
Lemma nth_word_bits x i : (i < 64)%nat -> nth_error (word_bits x) i = Some (Z.testbit x (Z.of_nat i)).
Proof.
  intros Hi. rewrite (nth_error_nth' _ false) by (rewrite word_bits_length; exact Hi). f_equal. apply nth_bits_of. exact Hi.
Qed.
Lemma one_power x l : is_u64 x -> length l = 64%nat -> (forall i, (i < 64)%nat -> nth_error l i = Some (Z.testbit x (Z.of_nat i))) ->
  count true l = 1%nat -> exists p, 0 <= p < 64 /\ x = 2 ^ p.
Proof.
  intros U L N P.
  destruct (In_nth_error l true) as (p & E).
  { apply (count_occ_In bool_dec). unfold count in P. lia. }
  assert (Hp : (p < 64)%nat) by (rewrite <- L; apply nth_error_Some; congruence). exists (Z.of_nat p). split; [lia|].
  apply Z.bits_inj'. intros i Hi. rewrite Z.pow2_bits_eqb by lia. destruct (Z.lt_ge_cases i 64) as [I|I].
  - destruct (Z.testbit x i) eqn:T.
    + pose proof (N (Z.to_nat i) ltac:(lia)) as Ni. rewrite Z2Nat.id, T in Ni by lia. rewrite (one_true _ _ _ E Ni P). rewrite Z2Nat.id by lia. symmetry. apply Z.eqb_refl.
    + destruct (Z.eqb_spec (Z.of_nat p) i) as [<-|]; auto. rewrite N, T in E by lia. discriminate.
  - rewrite testbit_high64 by auto. symmetry. apply Z.eqb_neq. lia.
Qed.
Lemma popcount_one x : is_u64 x -> popcount x = 1 -> exists p, 0 <= p < 64 /\ x = 2 ^ p.
Proof.
  intros U P. rewrite popcount_correct in P by auto. apply (one_power x (word_bits x)); [exact U|apply word_bits_length|apply nth_word_bits|].
  revert P. generalize (count true (word_bits x)). clear. intros. lia.
Qed.

Lemma reject_broadword :
  (forall x, is_u64 x -> (forall p, 0 <= p < 64 -> x <> 2 ^ p) -> bit_position x = Ub AssertFailed) /\
  (forall popcnt x k, is_u64 x -> Z.of_nat (count true (word_bits x)) <= k -> select_in_word_gen popcnt x k = Ub AssertFailed) /\
  msb 0 = Ub AssertFailed /\ lsb 0 = Ub AssertFailed.
Proof.
  split; [|split; [|split; reflexivity]].
  - intros x U N. unfold bit_position. apply assert_false. destruct (Z.eqb_spec (popcount x) 1) as [P|]; auto.
    destruct (popcount_one x U P) as (p & Hp & E). exfalso. exact (N p Hp E).
  - intros popcnt x k U H. unfold select_in_word_gen. apply assert_false. rewrite popcount_correct by auto. lia.
Qed.

(** ** the builder *)
Lemma spurious bits len : 0 <= len < 64 -> 2 ^ len <= bits -> no_spurious bits len = Ok false.
Proof.
  intros Hl Hb. unfold no_spurious. replace (len =? 64) with false by lia. rewrite shr_ok by lia. cbn [bind]. f_equal.
  rewrite Z.shiftr_div_pow2 by lia. apply Z.eqb_neq. assert (0 < 2 ^ len) by (apply Z.pow_pos_nonneg; lia).
  assert (1 <= bits / 2 ^ len) by (apply Z.div_le_lower_bound; lia). lia.
Qed.
Lemma reject_builder gr os i : legal_run seqs0 os ->
  (forall pos bits len, zlen (spec_run seqs0 os i) < pos + len < 2 ^ 64 -> run gr builders0 (os ++ [SetBits i pos bits len]) = Ub AssertFailed) /\
  (forall bits len, 0 <= len < 64 -> 2 ^ len <= bits -> run gr builders0 (os ++ [AppendBits i bits len]) = Ub AssertFailed /\
     forall pos, 0 <= pos -> pos + len <= zlen (spec_run seqs0 os i) -> zlen (spec_run seqs0 os i) < 2 ^ 64 -> run gr builders0 (os ++ [SetBits i pos bits len]) = Ub AssertFailed).
Proof.
  intros HL. destruct (run_ok gr os builders0 seqs0 sinv0 HL) as (st & E & H). pose proof (H i) as B. set (l := spec_run seqs0 os i) in *.
  destruct B as (Sz & _). split.
  - intros pos bits len Hp. rewrite run_app, E. cbn [bind run step]. unfold set_bits. rewrite assert_false; [reflexivity|].
    pose proof (zlen_nonneg l). rewrite u64_small by lia. lia.
  - intros bits len Hl Hb. split; [|intros pos Hp Hq Hr]; rewrite run_app, E; cbn [bind run step]; unfold append_bits, set_bits.
    + rewrite spurious by auto. reflexivity.
    + rewrite assert_true by (rewrite u64_small; lia). rewrite spurious by auto. reflexivity.
Qed.
Lemma append_long gr os i bits len : legal_run seqs0 os -> 64 < len -> run gr builders0 (os ++ [AppendBits i bits len]) = Ub BadShift.
Proof.
  intros HL Hl. destruct (run_ok gr os builders0 seqs0 sinv0 HL) as (st & E & H). rewrite run_app, E. cbn [bind run step]. unfold append_bits, no_spurious. replace (len =? 64) with false by lia.
  unfold shr. replace ((0 <=? len) && (len <? 64)) with false by lia. reflexivity.
Qed.

Lemma set_bits_wraps gr os i pos bits len : legal_run seqs0 os -> zlen (spec_run seqs0 os i) < 2 ^ 63 ->
  0 < len <= 64 -> 0 <= bits < 2 ^ len -> pos < 2 ^ 64 <= pos + len -> pos + len - 2 ^ 64 <= zlen (spec_run seqs0 os i) ->
  run gr builders0 (os ++ [SetBits i pos bits len]) = Ub OutOfBounds.
Proof.
  intros HL L Hl Hb Hp Hs. destruct (run_ok gr os builders0 seqs0 sinv0 HL) as (st & E & H). pose proof (H i) as (Sz & (_ & Ew & _) & _).
  rewrite run_app, E. cbn [bind run step]. unfold set_bits. rewrite assert_true.
  2:{ unfold u64. replace (pos + len) with (pos + len - 2 ^ 64 + 1 * 2 ^ 64) by lia. rewrite Z.mod_add by lia. rewrite Z.mod_small by lia. lia. }
  replace (no_spurious bits len) with (Ok true).
  2:{ unfold no_spurious. destruct (Z.eqb_spec len 64); auto. rewrite shr_ok by lia. cbn [bind]. rewrite Z.shiftr_div_pow2, Z.div_small by lia. reflexivity. }
  cbn [bind]. rewrite assert_true by reflexivity. replace (len =? 0) with false by lia.
  pose proof (Z.mod_pos_bound pos 64 ltac:(lia)) as PM.
  assert (X : exists mask, (if len =? 64 then Ok (2 ^ 64 - 1) else do m <- shl 1 len; Ok (u64 (m - 1))) = Ok mask).
  { destruct (Z.eqb_spec len 64); eauto. rewrite shl_ok by lia. cbn [bind]. eauto. }
  destruct X as (mask & ->). cbn [bind]. rewrite shl_ok by lia. cbn [bind]. unfold mod_word, rd.
  replace ((0 <=? pos / 64) && (pos / 64 <? zlen (b_bits (st i)))) with false; [reflexivity|]. symmetry. apply andb_false_intro2. clear - Ew L Hp Hl. dlia.
Qed.
Lemma upd_nth (ws : list Z) n : (n < length ws)%nat -> upd ws n (nth n ws 0) = ws.
Proof. revert n; induction ws as [|w ws IH]; intros [|n] H; cbn in *; try lia; auto. f_equal. apply IH. lia. Qed.
Lemma upd_same ws k : 0 <= k < zlen ws -> upd ws (Z.to_nat k) (W ws k) = ws.
Proof. intros Hk. unfold zlen in Hk. unfold W. replace (k <? 0) with false by lia. apply upd_nth. lia. Qed.
Lemma push_false gr b k : b_size b mod 64 <> 0 -> b_cur b = Some (b_gen b, k) -> 0 <= k < zlen (b_bits b) -> push_back gr b false = Ok (with_size b (b_size b + 1)).
Proof.
  intros Hm Hc Hk. unfold push_back. replace (b_size b mod 64 =? 0) with false by lia.
  pose proof (Z.mod_pos_bound (b_size b) 64 ltac:(lia)). rewrite shl_ok by lia. cbn [bind Z.b2z]. rewrite Z.shiftl_0_l. change (u64 0) with 0.
  unfold cur_or. rewrite Hc, Z.eqb_refl, W_rd by auto. cbn [bind]. rewrite wr_ok by auto. cbn [bind]. rewrite Z.lor_0_r, upd_same by auto. destruct b; reflexivity.
Qed.
Lemma pushes_false gr i n : forall st k b, st i = b -> b_cur b = Some (b_gen b, k) -> 0 <= k < zlen (b_bits b) ->
  64 * k < b_size b -> b_size b + Z.of_nat n <= 64 * (k + 1) ->
  exists st', run gr st (repeat (PushBack i false) n) = Ok st' /\ st' i = with_size b (b_size b + Z.of_nat n).
Proof.
  induction n as [|n IH]; intros st k b Eb Hc Hk H1 H2; cbn [repeat run].
  - exists st. split; auto. rewrite Eb, Z.add_0_r. destruct b; reflexivity.
  - cbn [step]. rewrite Eb, (push_false gr b k) by (auto; dlia). cbn [bind].
    destruct (IH (put st i (with_size b (b_size b + 1))) k (with_size b (b_size b + 1))) as (st' & R & E'); auto; cbn [with_size b_size]; try lia.
    + unfold put. rewrite Nat.eqb_refl. reflexivity.
    + exists st'. split; auto. rewrite E'. unfold with_size. cbn. f_equal. lia.
Qed.

Lemma set_past gr os i pos : legal_run seqs0 os -> zlen (spec_run seqs0 os i) <= pos ->
  if pos <? 64 * ((zlen (spec_run seqs0 os i) + 63) / 64) then
    exists st, run gr builders0 (os ++ SetBit i pos true :: repeat (PushBack i false) (S (Z.to_nat (pos - zlen (spec_run seqs0 os i))))) = Ok st /\
      bv_of_builder (st i) = Ok (canonical (spec_run seqs0 os i ++ repeat false (Z.to_nat (pos - zlen (spec_run seqs0 os i))) ++ [true]))
  else forall x, run gr builders0 (os ++ [SetBit i pos x]) = Ub OutOfBounds.
Proof.
  intros HL Hp. destruct (run_ok gr os builders0 seqs0 sinv0 HL) as (st & E & H). pose proof (H i) as B. set (l := spec_run seqs0 os i) in *.
  pose proof B as (Sz & (U & Ew & Bw) & Cp & Cr). pose proof (zlen_nonneg l) as L0. rewrite <- Ew. destruct (Z.ltb_spec pos (64 * zlen (b_bits (st i)))) as [L|L].
  - set (b := st i) in *. set (j := Z.to_nat (pos - zlen l)). set (l2 := l ++ repeat false (S j)).
    assert (Z2 : zlen l2 = pos + 1) by (unfold l2; rewrite zlen_app, zlen_repeat; unfold j; lia).
    assert (M : zlen l mod 64 <> 0) by dlia.
    assert (B2 : binv (with_size b (pos + 1)) l2).
    { split; [cbn; lia|]. split; [|split; [exact Cp|intros _; exact (Cr M)]]. split; [exact U|]. split; [rewrite Z2; cbn [with_size b_bits]; dlia|].
      intros k n Hk Hn. cbn [with_size b_bits]. rewrite Bw by auto. unfold l2. rewrite zbit_app, zbit_repeat, andb_false_r.
      destruct (Z.ltb_spec (64 * k + n) (zlen l)); auto. apply zbit_out. lia. }
    destruct (bset_ok (with_size b (pos + 1)) l2 pos true B2 ltac:(lia)) as (b2 & E2 & I2).
    assert (F : firstn (Z.to_nat pos) l2 ++ [true] ++ skipn (Z.to_nat pos + 1) l2 = l ++ repeat false j ++ [true]).
    { assert (Lp : Z.to_nat pos = (length l + j)%nat) by (unfold j; unfold zlen in *; lia).
      rewrite (skipn_all2 l2) by (unfold zlen in Z2; lia). rewrite Lp. unfold l2. rewrite firstn_app_2.
      replace (repeat false (S j)) with (repeat false j ++ [false]) by (symmetry; apply repeat_cons).
      rewrite firstn_app, repeat_length, Nat.sub_diag, firstn_O, app_nil_r. rewrite firstn_all2 by (rewrite repeat_length; lia). rewrite <- app_assoc. reflexivity. }
    rewrite F in I2.
    assert (E1 : bset b pos true = Ok (with_size b2 (zlen l))).
    { unfold bset in E2 |- *. cbn [with_size b_bits] in E2. apply bind_inv in E2. destruct E2 as (m & -> & E2). cbn [bind]. apply bind_inv in E2. destruct E2 as (ws & -> & E2). cbn [bind].
      apply bind_inv in E2. destruct E2 as (x & -> & E2). cbn [bind]. apply bind_inv in E2. destruct E2 as (ws2 & -> & E2). cbn [bind].
      injection E2 as <-. unfold with_bits, with_size. cbn. rewrite Sz. reflexivity. }
    pose proof I2 as (S2 & (_ & Ew2 & _) & _ & Cr2). rewrite !zlen_app, zlen_repeat in S2, Ew2, Cr2. change (zlen [true]) with 1 in S2, Ew2, Cr2.
    assert (Zj : Z.of_nat j = pos - zlen l) by (unfold j; lia).
    assert (K : zlen (b_bits b2) = zlen (b_bits b)) by dlia.
    assert (C2 : b_cur b2 = Some (b_gen b2, zlen (b_bits b2) - 1)).
    { unfold bset in E2. apply bind_inv in E2. destruct E2 as (m & _ & E2). apply bind_inv in E2. destruct E2 as (ws & _ & E2).
      apply bind_inv in E2. destruct E2 as (x & _ & E2). apply bind_inv in E2. destruct E2 as (ws2 & _ & E2).
      rewrite K. injection E2 as <-. cbn. exact (Cr M). }
    destruct (pushes_false gr i (S j) (put st i (with_size b2 (zlen l))) (zlen (b_bits b2) - 1) (with_size b2 (zlen l))) as (st' & R & E'); auto; cbn [with_size b_size b_bits]; try dlia.
    { unfold put. rewrite Nat.eqb_refl. reflexivity. }
    exists st'. split.
    + rewrite run_app, E. cbn [bind]. cbn [run]. cbn [step]. fold b. rewrite E1. cbn [bind]. exact R.
    + rewrite E'. replace (with_size (with_size b2 (zlen l)) (b_size (with_size b2 (zlen l)) + Z.of_nat (S j))) with b2; [apply binv_bv; exact I2|].
      destruct b2; unfold with_size; cbn in *. f_equal. lia.
  - intros x. rewrite run_app, E. cbn [bind run step]. unfold bset. pose proof (Z.mod_pos_bound pos 64 ltac:(lia)). rewrite shl_ok by lia. cbn [bind].
    unfold mod_word, rd. replace ((0 <=? pos / 64) && (pos / 64 <? zlen (b_bits (st i)))) with false; [reflexivity|]. symmetry. apply andb_false_intro2. dlia.
Qed.
