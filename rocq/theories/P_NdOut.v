(** Proofs for C96 *)
From Verif Require Import Base Spec Lib M_Broadword P_Broadword P_Broadword2 P_BvLib P_Builder P_BitVector M_BitVector S_BitVector P_Safety P_EliasFano P_BvSteps
  S_Nd M_Nd P_Nd S_NdOut.

(** ** searches for a bit that does not exist *)
Definition oob {A} (r : res A) : res A := match r with Ub AssertFailed => Ub OutOfBounds | _ => r end.
Lemma is_lsb_ex x : is_u64 x -> x <> 0 -> exists c, is_lsb x c.
Proof. intros [H1 H2] N. apply is_lsb_exists. lia. Qed.
Lemma nd_msb_opt_eq x : is_u64 x -> nd_msb_opt x = msb_opt x.
Proof.
  intros H. destruct (Z.eq_dec x 0) as [->|N]; [reflexivity|]. rewrite (msb_opt_correct x H N). destruct (nd_msb_opt_le x) as [L]. apply L, msb_opt_correct; auto.
Qed.
Lemma nd_lsb_opt_eq x : is_u64 x -> nd_lsb_opt x = lsb_opt x.
Proof.
  intros H. destruct (Z.eq_dec x 0) as [->|N]; [reflexivity|]. destruct (is_lsb_ex x H N) as (c & C). rewrite (lsb_opt_correct x c H C).
  destruct (nd_lsb_opt_le x) as [L]. apply L, lsb_opt_correct; auto.
Qed.
Lemma nd_pred1 : forall fuel ws block word, Forall is_u64 ws -> is_u64 word -> 0 <= block -> nd_predecessor1_loop fuel ws block word = oob (predecessor1_loop fuel ws block word).
Proof.
  induction fuel as [|fuel IH]; intros ws block word F Hw B; cbn [nd_predecessor1_loop predecessor1_loop]; rewrite nd_msb_opt_eq by auto;
    destruct (Z.eq_dec word 0) as [->|N]; [reflexivity|rewrite msb_opt_correct by auto; reflexivity| |rewrite msb_opt_correct by auto; reflexivity].
  cbn [msb_opt Z.eqb bind]. unfold assert_. destruct (Z.eqb_spec block 0) as [->|Nb]; cbn [negb].
  - cbn [oob]. rewrite rd_oob by lia. reflexivity.
  - destruct (rd ws (block - 1)) as [w|e] eqn:R; cbn [bind].
    + apply IH; auto; [|lia]. eapply rd_u64; eauto.
    + unfold rd in R. destruct (_ && _); [destruct (nth_error _ _); [discriminate|]|]; injection R as <-; reflexivity.
Qed.
Lemma nd_pred0 : forall fuel ws block word, Forall is_u64 ws -> is_u64 word -> 0 <= block -> nd_predecessor0_loop fuel ws block word = oob (predecessor0_loop fuel ws block word).
Proof.
  induction fuel as [|fuel IH]; intros ws block word F Hw B; cbn [nd_predecessor0_loop predecessor0_loop]; rewrite nd_msb_opt_eq by auto;
    destruct (Z.eq_dec word 0) as [->|N]; [reflexivity|rewrite msb_opt_correct by auto; reflexivity| |rewrite msb_opt_correct by auto; reflexivity].
  cbn [msb_opt Z.eqb bind]. unfold assert_. destruct (Z.eqb_spec block 0) as [->|Nb]; cbn [negb].
  - cbn [oob]. rewrite rd_oob by lia. reflexivity.
  - destruct (rd ws (block - 1)) as [w|e] eqn:R; cbn [bind].
    + apply IH; auto; [|lia]. apply not64_is.
    + unfold rd in R. destruct (_ && _); [destruct (nth_error _ _); [discriminate|]|]; injection R as <-; reflexivity.
Qed.
Lemma nd_succ1 : forall fuel ws block word, Forall is_u64 ws -> is_u64 word -> 0 <= block -> nd_successor1_loop fuel ws block word = oob (successor1_loop fuel ws block word).
Proof.
  induction fuel as [|fuel IH]; intros ws block word F Hw B; cbn [nd_successor1_loop successor1_loop]; rewrite nd_lsb_opt_eq by auto;
    (destruct (Z.eq_dec word 0) as [->|N]; [|destruct (is_lsb_ex word Hw N) as (c & C); rewrite (lsb_opt_correct word c) by auto; reflexivity]); [reflexivity|].
  cbn [lsb_opt Z.eqb bind]. unfold assert_. destruct (Z.ltb_spec (block + 1) (zlen ws)) as [L|L].
  - destruct (rd ws (block + 1)) as [w|e] eqn:R; cbn [bind].
    + apply IH; auto; [|lia]. eapply rd_u64; eauto.
    + unfold rd in R. destruct (_ && _); [destruct (nth_error _ _); [discriminate|]|]; injection R as <-; reflexivity.
  - cbn [oob]. rewrite rd_oob by lia. reflexivity.
Qed.
Lemma nd_succ0 : forall fuel ws block word, Forall is_u64 ws -> is_u64 word -> 0 <= block -> nd_successor0_loop fuel ws block word = oob (successor0_loop fuel ws block word).
Proof.
  induction fuel as [|fuel IH]; intros ws block word F Hw B; cbn [nd_successor0_loop successor0_loop]; rewrite nd_lsb_opt_eq by auto;
    (destruct (Z.eq_dec word 0) as [->|N]; [|destruct (is_lsb_ex word Hw N) as (c & C); rewrite (lsb_opt_correct word c) by auto; reflexivity]); [reflexivity|].
  cbn [lsb_opt Z.eqb bind]. unfold assert_. destruct (Z.ltb_spec (block + 1) (zlen ws)) as [L|L].
  - destruct (rd ws (block + 1)) as [w|e] eqn:R; cbn [bind].
    + apply IH; auto; [|lia]. apply not64_is.
    + unfold rd in R. destruct (_ && _); [destruct (nth_error _ _); [discriminate|]|]; injection R as <-; reflexivity.
  - cbn [oob]. rewrite rd_oob by lia. reflexivity.
Qed.
Lemma nd_searches l pos : 0 <= pos < zlen l ->
  nd_predecessor1 (bv_range l) pos = oob (predecessor1 (bv_range l) pos) /\ nd_predecessor0 (bv_range l) pos = oob (predecessor0 (bv_range l) pos) /\
  nd_successor1 (bv_range l) pos = oob (successor1 (bv_range l) pos) /\ nd_successor0 (bv_range l) pos = oob (successor0 (bv_range l) pos).
Proof.
  intros H. rewrite bv_range_ok. pose proof (proj1 (words_ok_pack l)) as F. assert (P : 0 <= pos / 64) by (apply Z.div_pos; lia).
  pose proof (Z.mod_pos_bound pos 64 ltac:(lia)) as M.
  unfold nd_predecessor1, predecessor1, nd_predecessor0, predecessor0, nd_successor1, successor1, nd_successor0, successor0. cbn [canonical bv_size bv_words].
  rewrite !assert_true by lia. cbv zeta. destruct (rd (pack l) (pos / 64)) as [w|e] eqn:R; cbn [bind].
  2:{ unfold rd in R. destruct (_ && _); [destruct (nth_error _ _); [discriminate|]|]; injection R as <-; repeat split. }
  pose proof (rd_u64 _ _ _ F R) as Uw. pose proof (not64_is w) as Un.
  rewrite !shl_ok, !shr_ok by lia. cbn [bind]. rewrite !shl_ok, !shr_ok by lia. cbn [bind].
  split; [|split; [|split]].
  - apply nd_pred1; auto. apply shiftr_is; [lia|apply u64_is].
  - apply nd_pred0; auto. apply shiftr_is; [lia|apply u64_is].
  - apply nd_succ1; auto. apply u64_is.
  - apply nd_succ0; auto. apply u64_is.
Qed.
Lemma nd_no_answer l pos : 0 <= pos < zlen l ->
  ((forall p, 0 <= p <= pos -> nth_error l (Z.to_nat p) <> Some true) -> nd_predecessor1 (bv_range l) pos = Ub OutOfBounds) /\
  ((forall p, 0 <= p <= pos -> nth_error l (Z.to_nat p) <> Some false) -> nd_predecessor0 (bv_range l) pos = Ub OutOfBounds) /\
  ((forall p, pos <= p < zlen l -> nth_error l (Z.to_nat p) <> Some true) -> nd_successor1 (bv_range l) pos = Ub OutOfBounds) /\
  ((forall p, pos <= p < zlen l -> nth_error l (Z.to_nat p) <> Some false) ->
     nd_successor0 (bv_range l) pos = if zlen l mod 64 =? 0 then Ub OutOfBounds else Ok (zlen l)).
Proof.
  intros H. destruct (nd_searches l pos H) as (-> & -> & -> & ->). destruct (no_answer l pos H) as (A & B & C).
  split; [intros N; rewrite A by auto; reflexivity|]. split; [intros N; rewrite B by auto; reflexivity|]. split; [intros N; rewrite C by auto; reflexivity|].
  intros N. rewrite successor0_past by auto. destruct (_ =? 0); reflexivity.
Qed.
Lemma nd_get_past l pos : zlen l <= pos -> nd_bv_get (bv_range l) pos = if pos <? 64 * ((zlen l + 63) / 64) then Ok false else Ub OutOfBounds.
Proof.
  intros H. rewrite bv_range_ok. pose proof (zlen_nonneg l) as Z0. pose proof (words_ok_pack l) as (U & E & B). unfold nd_bv_get. cbn [canonical bv_words bv_size]. cbv zeta.
  pose proof (Z.div_mod pos 64 ltac:(lia)) as D. pose proof (Z.mod_pos_bound pos 64 ltac:(lia)) as M.
  destruct (Z.ltb_spec pos (64 * ((zlen l + 63) / 64))) as [L|L].
  - rewrite W_rd by (rewrite E; lia). cbn [bind]. rewrite shr_ok by lia. cbn [bind]. f_equal.
    change 1 with (Z.ones 1). rewrite Z.land_ones by lia. rewrite <- Z.bit0_mod, Z.shiftr_spec by lia. rewrite Z.add_0_l.
    rewrite B by (rewrite ?E; lia). rewrite zbit_out by lia. reflexivity.
  - rewrite rd_oob by (rewrite E; lia). reflexivity.
Qed.

(** ** values with more bits than their length *)
Lemma shl_mod v s : 0 <= s < 64 -> u64 (Z.shiftl (v mod 2 ^ (64 - s)) s) = u64 (Z.shiftl v s).
Proof.
  intros H. unfold u64. rewrite !Z.shiftl_mul_pow2 by lia.
  replace (2 ^ 64) with (2 ^ (64 - s) * 2 ^ s) by (rewrite <- Z.pow_add_r by lia; f_equal; lia).
  rewrite !Z.mul_mod_distr_r by (apply Z.pow_nonzero; lia). f_equal. apply Z.mod_mod. apply Z.pow_nonzero; lia.
Qed.
Lemma nd_append_as gr b v len : is_u64 v -> 0 < len <= 64 ->
  nd_append_bits gr b v len =
  (do b2 <- append_bits gr b (v mod 2 ^ reach (b_size b) len) (reach (b_size b) len); Ok (with_size b2 (b_size b + len))).
Proof.
  intros [V1 V2] L. pose proof (Z.mod_pos_bound (b_size b) 64 ltac:(lia)) as M. set (s := b_size b mod 64) in *.
  assert (R : reach (b_size b) len = if s + len <=? 64 then 64 - s else 64) by reflexivity.
  set (r := reach (b_size b) len) in *. assert (Rr : 0 < r <= 64) by (rewrite R; destruct (s + len <=? 64); lia).
  assert (Vr : 0 <= v mod 2 ^ r < 2 ^ r) by (apply Z.mod_pos_bound; apply Z.pow_pos_nonneg; lia).
  unfold append_bits, nd_append_bits. rewrite no_spurious_ok by (auto; lia). cbn [bind]. rewrite assert_true by auto.
  replace (len =? 0) with false by lia. replace (r =? 0) with false by lia. fold s. cbv zeta.
  destruct (Z.eqb_spec s 0) as [E|E].
  - assert (Er : r = 64) by (rewrite R, E; destruct (0 + len <=? 64); lia).
    rewrite Er, Z.mod_small by lia. cbn [bind]. f_equal. unfold with_size, set_cur_back, v_push, v_need, with_bits. cbn [b_bits b_size b_cap b_gen b_cur].
    destruct (_ <=? b_cap b); reflexivity.
  - rewrite !shl_ok by lia. cbn [bind]. assert (X : u64 (Z.shiftl (v mod 2 ^ r) s) = u64 (Z.shiftl v s)).
    { rewrite R. destruct (Z.leb_spec (s + len) 64); [apply shl_mod; lia|]. rewrite Z.mod_small by lia. reflexivity. }
    rewrite X. clear X. unfold cur_or. cbn [b_cur b_gen b_bits with_size]. destruct (b_cur b) as [[g i]|]; [|reflexivity].
    destruct (g =? b_gen b); [|reflexivity]. destruct (rd (b_bits b) i) as [w|]; cbn [bind]; [|reflexivity].
    destruct (wr (b_bits b) i _) as [ws|]; cbn [bind]; [|reflexivity].
    destruct (Z.ltb_spec (64 - s) len) as [G|G].
    + assert (Er : r = 64) by (rewrite R; destruct (Z.leb_spec (s + len) 64); lia). rewrite Er. replace (64 - s <? 64) with true by lia.
      rewrite !shr_ok by lia. cbn [bind]. rewrite Z.mod_small by lia. f_equal.
      unfold with_size, set_cur_back, v_push, v_need, with_bits. cbn [b_bits b_size b_cap b_gen b_cur]. destruct (_ <=? b_cap b); reflexivity.
    + assert (Er : r = 64 - s) by (rewrite R; destruct (Z.leb_spec (s + len) 64); lia). rewrite Er. replace (64 - s <? 64 - s) with false by lia. reflexivity.
Qed.
Lemma nd_append_spurious gr b l v len : binv b l -> is_u64 v -> 0 < len <= 64 ->
  exists b', nd_append_bits gr b v len = Ok b' /\ b_size b' = zlen l + len /\ b_bits b' = pack (l ++ bits_of (Z.to_nat (reach (zlen l) len)) v) /\
    b_cur b' = Some (b_gen b', zlen (b_bits b') - 1).
Proof.
  intros I V L. pose proof (proj1 I) as Sz. rewrite nd_append_as by auto. rewrite Sz. set (r := reach (zlen l) len).
  pose proof (Z.mod_pos_bound (zlen l) 64 ltac:(lia)) as M.
  assert (Rr : 0 < r <= 64) by (unfold r, reach; destruct (zlen l mod 64 + len <=? 64); lia).
  destruct (append_bits_ok gr b l (v mod 2 ^ r) r I ltac:(lia) ltac:(apply Z.mod_pos_bound; apply Z.pow_pos_nonneg; lia)) as (b2 & E & I2).
  pose proof E as E0. rewrite E. cbn [bind]. eexists. split; [reflexivity|]. cbn [b_size b_bits with_size b_cur b_gen]. split; [reflexivity|]. split.
  - rewrite (words_ok_eq _ _ (proj1 (proj2 I2))). rewrite bits_of_modz by lia. reflexivity.
  - unfold append_bits in E. rewrite no_spurious_ok in E by (try lia; apply Z.mod_pos_bound; apply Z.pow_pos_nonneg; lia). cbn [bind] in E. rewrite assert_true in E by auto.
    replace (r =? 0) with false in E by lia. destruct (_ mod 64 =? 0); [injection E as <-; reflexivity|]. apply bind_inv in E. destruct E as (x & _ & E).
    apply bind_inv in E. destruct E as (b3 & _ & E). destruct (_ <? _); [apply bind_inv in E; destruct E as (y & _ & E)|]; injection E as <-; reflexivity.
Qed.

Lemma nd_push_spurious gr b l v len x : binv b l -> is_u64 v -> 0 < len < reach (zlen l) len ->
  let L := l ++ bits_of (Z.to_nat (reach (zlen l) len)) v in
  exists b' b'', nd_append_bits gr b v len = Ok b' /\ push_back gr b' x = Ok b'' /\ b_size b'' = zlen l + len + 1 /\
    b_bits b'' = pack (firstn (Z.to_nat (zlen l + len)) L ++ [Z.testbit v len || x] ++ skipn (Z.to_nat (zlen l + len) + 1) L).
Proof.
  intros I V Hl L. pose proof (zlen_nonneg l) as Z0. pose proof (Z.mod_pos_bound (zlen l) 64 ltac:(lia)) as M. pose proof (Z.div_mod (zlen l) 64 ltac:(lia)) as D.
  set (r := reach (zlen l) len) in *. assert (Rr : r <= 64 /\ (r = 64 - zlen l mod 64 \/ r = 64 /\ 64 < zlen l mod 64 + len)) by (unfold r, reach; destruct (Z.leb_spec (zlen l mod 64 + len) 64); lia).
  destruct (nd_append_spurious gr b l v len I V ltac:(lia)) as (b' & E & Sz & Bits & Cur). fold r in Bits. fold L in Bits.
  assert (LL : zlen L = zlen l + r) by (unfold L; rewrite zlen_app, zlen_bits_of; lia).
  set (n := zlen l + len) in *. pose proof (words_ok_pack L) as (U & El & B). rewrite <- Bits in U, El, B.
  set (ws := b_bits b') in *. pose proof (Z.div_mod n 64 ltac:(lia)) as Dn. pose proof (Z.mod_pos_bound n 64 ltac:(lia)) as Mn.
  assert (K : n / 64 = zlen ws - 1 /\ n mod 64 <> 0).
  { clear - D M Hl Rr LL El Dn Mn Z0. subst n. rewrite LL in El. set (q := zlen l / 64) in *. set (s := zlen l mod 64) in *.
    destruct Rr as (_ & [-> | (-> & G)]).
    - assert (X : (zlen l + len) / 64 = q) by (symmetry; apply (Z.div_unique _ _ _ (s + len)); lia).
      assert (Y : (zlen l + (64 - s) + 63) / 64 = q + 1) by (symmetry; apply (Z.div_unique _ _ _ 63); lia). rewrite X in *. rewrite El, Y. lia.
    - assert (X : (zlen l + len) / 64 = q + 1) by (symmetry; apply (Z.div_unique _ _ _ (s + len - 64)); lia).
      assert (Y : (zlen l + 64 + 63) / 64 = q + 2) by (symmetry; apply (Z.div_unique _ _ _ (s - 1)); lia). rewrite X in *. rewrite El, Y. lia. }
  destruct K as (K1 & K2). assert (Hn : 0 <= n) by lia. assert (Qn : 0 <= n / 64) by (apply Z.div_pos; lia).
  exists b'. unfold push_back. rewrite Sz. fold n. replace (n mod 64 =? 0) with false by lia. rewrite shl_ok by lia. cbn [bind].
  rewrite cur_or_ok by (auto; fold ws; lia). cbn [bind]. eexists. split; [exact E|]. split; [reflexivity|]. cbn [b_size b_bits with_size with_bits]. split; [rewrite Sz; reflexivity|].
  fold ws. apply words_ok_eq. set (y := Z.testbit v len || x).
  pose proof (zlen_splice L n 1 [y] Hn eq_refl ltac:(lia)) as EL. change (Z.to_nat 1) with 1%nat in EL. apply words_ok_intro.
  - apply Forall_upd; auto. apply lor_is; [auto with u64s|apply u64_is].
  - rewrite zlen_upd, EL. exact El.
  - intros j i Hj Hi. rewrite zlen_upd in Hj. pose proof (zbit_splice L n 1 [y] (64 * j + i) Hn eq_refl ltac:(lia) ltac:(lia)) as G.
    change (Z.to_nat 1) with 1%nat in G. rewrite G. clear G. rewrite W_upd by lia. destruct (Z.eqb_spec j (zlen ws - 1)) as [->|Hne].
    + rewrite Z.lor_spec, B by lia. rewrite testbit_shl64 by lia. rewrite zbit_single. replace (i <? 64) with true by lia. cbn [andb].
      rewrite testbit_b2z. destruct (Z.eq_dec i (n mod 64)) as [->|Ne].
      * replace ((n <=? 64 * (zlen ws - 1) + n mod 64) && (64 * (zlen ws - 1) + n mod 64 <? n + 1)) with true by lia.
        replace (64 * (zlen ws - 1) + n mod 64 - n =? 0) with true by lia. replace (n mod 64 - n mod 64 =? 0) with true by lia. cbn [andb]. unfold y. f_equal.
        unfold L. rewrite zbit_app. replace (64 * (zlen ws - 1) + n mod 64) with n by lia. replace (n <? zlen l) with false by lia.
        rewrite zbit_bits_of. replace (n - zlen l) with len by lia. rewrite Z2Nat.id by lia. replace (len <? r) with true by lia. reflexivity.
      * replace ((n <=? 64 * (zlen ws - 1) + i) && (64 * (zlen ws - 1) + i <? n + 1)) with false by lia. replace (i - n mod 64 =? 0) with false by lia.
        cbn [andb]. apply orb_false_r.
    + replace ((n <=? 64 * j + i) && (64 * j + i <? n + 1)) with false by lia. apply B; lia.
Qed.

(** ** set_bits *)
Lemma nd_set_spurious b l pos v len : binv b l -> is_u64 v -> 0 <= pos -> 0 < len <= 64 -> pos + len <= zlen l ->
  exists b', nd_set_bits b pos v len = Ok b' /\ b_size b' = zlen l /\ zlen (b_bits b') = zlen (b_bits b) /\
  forall q, 0 <= q < 64 * zlen (b_bits b) -> Z.testbit (nth (Z.to_nat (q / 64)) (b_bits b') 0) (q mod 64) =
    if (pos <=? q) && (q <? pos + len) then Z.testbit v (q - pos)
    else nth (Z.to_nat q) l false || (pos <=? q) && (q <? pos + reach pos len) && Z.testbit v (q - pos).
Proof.
  intros I Ub_ Hp Hl Hpl. pose proof I as (H1 & (U & E & B) & _). unfold nd_set_bits.
  replace (len =? 0) with false by lia.
  set (k := pos / 64). set (s := pos mod 64).
  assert (Hs : 0 <= s < 64) by (apply Z.mod_pos_bound; lia).
  assert (Ep : pos = 64 * k + s) by (unfold k, s; dlia).
  assert (Hk : 0 <= k < zlen (b_bits b)) by (rewrite E; unfold k; dlia).
  assert (M : exists mask, (if len =? 64 then Ok (2 ^ 64 - 1)
                 else do m <- shl 1 len; Ok (u64 (m - 1))) = Ok mask /\ is_u64 mask /\
              forall i, 0 <= i -> Z.testbit mask i = (i <? len)).
  { destruct (Z.eqb_spec len 64) as [->|].
    - eexists; split; [reflexivity|]. split; [unfold is_u64; lia|]. apply testbit_max.
    - rewrite shl_ok by lia. eexists; split; [reflexivity|]. split; [apply u64_is|].
      intros; apply testbit_mask; lia. }
  destruct M as (mask & -> & Um & Bm). cbn [bind]. cbv zeta.
  rewrite shl_ok by lia. cbn [bind]. rewrite mod_word_ok by auto. cbn [bind].
  rewrite shl_ok by lia. cbn [bind]. rewrite mod_word_ok by (rewrite zlen_upd; auto). cbn [bind].
  set (ws1 := upd (upd _ _ _) _ _).
  assert (L1 : zlen ws1 = zlen (b_bits b)) by (unfold ws1; rewrite !zlen_upd; auto).
  assert (B1 : forall j i, 0 <= j < zlen ws1 -> 0 <= i < 64 -> Z.testbit (W ws1 j) i =
     if (j =? k) && (s <=? i) then (zbit l (64 * j + i) && negb (i <? s + len)) || Z.testbit v (i - s) else zbit l (64 * j + i)).
  { intros j i Hj Hi. unfold ws1.
    rewrite W_upd by (rewrite zlen_upd; auto). rewrite !W_upd, Z.eqb_refl by auto.
    destruct (Z.eqb_spec j k) as [->|]; [|apply B; lia].
    rewrite set_word_bit, B by lia. cbn [andb]. destruct (Z.leb_spec s i); cbn [andb].
    - rewrite Bm by lia. replace (i - s <? len) with (i <? s + len) by lia. reflexivity.
    - rewrite !(Z.testbit_neg_r _ (i - s)) by lia. cbn [negb]. rewrite andb_true_r, orb_false_r. auto. }
  clearbody ws1.
  assert (Fin : forall ws2, zlen ws2 = zlen (b_bits b) ->
    (forall j i, 0 <= j < zlen (b_bits b) -> 0 <= i < 64 -> Z.testbit (W ws2 j) i =
      if (pos <=? 64 * j + i) && (64 * j + i <? pos + len) then Z.testbit v (64 * j + i - pos)
      else zbit l (64 * j + i) || (pos <=? 64 * j + i) && (64 * j + i <? pos + reach pos len) && Z.testbit v (64 * j + i - pos)) ->
    exists b', Ok (with_bits b ws2) = Ok b' /\ b_size b' = zlen l /\ zlen (b_bits b') = zlen (b_bits b) /\
      forall q, 0 <= q < 64 * zlen (b_bits b) -> Z.testbit (nth (Z.to_nat (q / 64)) (b_bits b') 0) (q mod 64) =
        if (pos <=? q) && (q <? pos + len) then Z.testbit v (q - pos)
        else nth (Z.to_nat q) l false || (pos <=? q) && (q <? pos + reach pos len) && Z.testbit v (q - pos)).
  { intros ws2 L2 H2. eexists. split; [reflexivity|]. cbn [b_size b_bits with_bits]. split; [exact H1|]. split; [exact L2|]. intros q Hq.
    pose proof (Z.div_mod q 64 ltac:(lia)) as Dq. pose proof (Z.mod_pos_bound q 64 ltac:(lia)) as Mq. assert (Q0 : 0 <= q / 64) by (apply Z.div_pos; lia).
    specialize (H2 (q / 64) (q mod 64) ltac:(lia) ltac:(lia)). replace (64 * (q / 64) + q mod 64) with q in H2 by lia. unfold W in H2. replace (q / 64 <? 0) with false in H2 by lia.
    rewrite H2. unfold zbit. replace (q <? 0) with false by lia. reflexivity. }
  assert (Rc : reach pos len = if s + len <=? 64 then 64 - s else 64) by reflexivity.
  destruct (Z.ltb_spec (64 - s) len) as [G|G].
  - assert (Hk1 : 0 <= k + 1 < zlen (b_bits b)) by (rewrite E; clear - Ep Hpl G Hk; dlia). replace (s + len <=? 64) with false in Rc by lia.
    rewrite shr_ok by lia. cbn [bind]. rewrite mod_word_ok by lia. cbn [bind].
    rewrite shr_ok by lia. cbn [bind]. rewrite mod_word_ok by (rewrite zlen_upd; lia). cbn [bind].
    apply Fin; [rewrite !zlen_upd; auto|]. intros j i Hj Hi. rewrite Rc.
    rewrite W_upd by (rewrite zlen_upd; lia). rewrite !W_upd, Z.eqb_refl by lia.
    destruct (Z.eqb_spec j (k + 1)) as [->|Hn1].
    + rewrite Z.lor_spec, Z.land_spec, testbit_not64, !Z.shiftr_spec by lia.
      replace (i <? 64) with true by lia. cbn [andb]. rewrite B1 by lia.
      replace (k + 1 =? k) with false by lia. cbn [andb]. rewrite Bm by lia.
      replace (pos <=? 64 * (k + 1) + i) with true by lia. cbn [andb].
      replace (64 * (k + 1) + i - pos) with (i + (64 - s)) by lia.
      destruct (Z.ltb_spec (64 * (k + 1) + i) (pos + len)).
      * replace (i + (64 - s) <? len) with true by lia. rewrite andb_false_r. reflexivity.
      * replace (i + (64 - s) <? len) with false by lia. rewrite andb_true_r.
        destruct (Z.ltb_spec (64 * (k + 1) + i) (pos + 64)); cbn [andb]; [reflexivity|]. f_equal. destruct Ub_. apply (testbit_high v 64); lia.
    + rewrite B1 by lia. destruct (Z.eqb_spec j k) as [->|]; cbn [andb].
      * replace (pos <=? 64 * k + i) with (s <=? i) by lia. replace (64 * k + i - pos) with (i - s) by lia.
        destruct (Z.leb_spec s i); cbn [andb]; [|rewrite orb_false_r; auto]. replace (64 * k + i <? pos + len) with true by lia. replace (i <? s + len) with true by lia.
        cbn [negb]. rewrite andb_false_r. reflexivity.
      * replace ((pos <=? 64 * j + i) && (64 * j + i <? pos + len)) with false by lia. replace ((pos <=? 64 * j + i) && (64 * j + i <? pos + 64)) with false by lia.
        cbn [andb]. rewrite orb_false_r. auto.
  - replace (s + len <=? 64) with true in Rc by lia. apply Fin; [auto|]. intros j i Hj Hi. rewrite Rc. rewrite B1 by lia. destruct (Z.eqb_spec j k) as [->|]; cbn [andb].
    + replace (pos <=? 64 * k + i) with (s <=? i) by lia. replace (64 * k + i - pos) with (i - s) by lia.
      destruct (Z.leb_spec s i); cbn [andb]; [|rewrite orb_false_r; auto]. replace (64 * k + i <? pos + len) with (i <? s + len) by lia.
      replace (64 * k + i <? pos + (64 - s)) with true by lia. cbn [andb]. destruct (Z.ltb_spec i (s + len)); cbn [negb]; [rewrite andb_false_r|rewrite andb_true_r]; reflexivity.
    + replace ((pos <=? 64 * j + i) && (64 * j + i <? pos + len)) with false by lia. replace ((pos <=? 64 * j + i) && (64 * j + i <? pos + (64 - s))) with false by lia.
      cbn [andb]. rewrite orb_false_r. auto.
Qed.

(** ** after any history *)
Lemma nd_append_reads gr b l v len : binv b l -> is_u64 v -> 0 < len <= 64 ->
  exists b' bv, nd_append_bits gr b v len = Ok b' /\ bv_of_builder b' = Ok bv /\ bv_size bv = zlen l + len /\
  forall p, 0 <= p < zlen l + len -> bv_get bv p = Ok (nth (Z.to_nat p) (l ++ bits_of (Z.to_nat len) v) false).
Proof.
  intros I V L. destruct (nd_append_spurious gr b l v len I V L) as (b' & E & Sz & Bits & _). exists b'. eexists. split; [exact E|].
  pose proof (zlen_nonneg l) as Z0. pose proof (Z.mod_pos_bound (zlen l) 64 ltac:(lia)) as M. pose proof (Z.div_mod (zlen l) 64 ltac:(lia)) as D.
  set (r := reach (zlen l) len) in *.
  assert (Rr : r <= 64 /\ len <= r /\ (r = 64 - zlen l mod 64 \/ r = 64 /\ 64 < zlen l mod 64 + len)) by (unfold r, reach; destruct (Z.leb_spec (zlen l mod 64 + len) 64); lia).
  set (X := l ++ bits_of (Z.to_nat r) v) in *. assert (LX : zlen X = zlen l + r) by (unfold X; rewrite zlen_app, zlen_bits_of; lia).
  assert (C : words_for (b_size b') = zlen (b_bits b')).
  { rewrite Sz, Bits, zlen_pack, LX. unfold words_for, ceil_div. clear - D M L Rr Z0. set (q := zlen l / 64) in *. set (s := zlen l mod 64) in *.
    destruct Rr as (_ & Lr & [-> | (-> & G)]).
    - transitivity (q + 1); [symmetry; apply (Z.div_unique _ _ _ (s + len - 1)); lia|apply (Z.div_unique _ _ _ 63); lia].
    - transitivity (q + 2); [symmetry; apply (Z.div_unique _ _ _ (s + len - 65)); lia|apply (Z.div_unique _ _ _ (s - 1)); lia]. }
  unfold bv_of_builder. rewrite assert_true by lia. split; [reflexivity|]. cbn [bv_size]. split; [exact Sz|]. intros p Hp.
  pose proof (bv_get_ok X p ltac:(lia)) as G. unfold bv_get in *. cbn [bv_size bv_words canonical] in *. rewrite assert_true in G by lia. rewrite assert_true by lia.
  rewrite Bits. rewrite G. f_equal. unfold zbit. replace (p <? 0) with false by lia. unfold X.
  destruct (Z.ltb_spec p (zlen l)) as [Lt|Ge]; unfold zlen in *.
  - rewrite !app_nth1 by lia. reflexivity.
  - rewrite !app_nth2 by lia. rewrite <- !zbit_nth, !zbit_bits_of. replace (Z.of_nat (Z.to_nat p - length l) <? Z.of_nat (Z.to_nat r)) with true by lia.
    replace (Z.of_nat (Z.to_nat p - length l) <? Z.of_nat (Z.to_nat len)) with true by lia. reflexivity.
Qed.
Lemma nd_builder gr os i : legal_run seqs0 os -> exists st, run gr builders0 os = Ok st /\ binv (st i) (spec_run seqs0 os i).
Proof. intros H. destruct (run_ok gr os builders0 seqs0 sinv0 H) as (st & E & S). exists st. split; [exact E|]. apply S. Qed.
Lemma nd_history_append gr os i v len : legal_run seqs0 os -> is_u64 v -> 0 < len <= 64 ->
  let l := spec_run seqs0 os i in
  exists st b' bv, run gr builders0 os = Ok st /\ nd_append_bits gr (st i) v len = Ok b' /\ bv_of_builder b' = Ok bv /\ bv_size bv = zlen l + len /\
  (forall p, 0 <= p < zlen l + len -> bv_get bv p = Ok (nth (Z.to_nat p) (l ++ bits_of (Z.to_nat len) v) false)) /\
  bv_words bv = pack (l ++ bits_of (Z.to_nat (reach (zlen l) len)) v).
Proof.
  intros H V L l. destruct (nd_builder gr os i H) as (st & E & I). destruct (nd_append_reads gr _ _ v len I V L) as (b' & bv & E1 & E2 & E3 & E4).
  destruct (nd_append_spurious gr _ _ v len I V L) as (b2 & F1 & _ & F2 & _). rewrite E1 in F1. injection F1 as <-.
  exists st, b', bv. repeat (split; [assumption|]). unfold bv_of_builder, assert_ in E2. destruct (_ =? _); [|discriminate]. injection E2 as <-. exact F2.
Qed.
Lemma nd_history_push gr os i v len x : legal_run seqs0 os -> is_u64 v ->
  let l := spec_run seqs0 os i in 0 < len < reach (zlen l) len ->
  exists st b1 b2 w, run gr builders0 os = Ok st /\ nd_append_bits gr (st i) v len = Ok b1 /\ push_back gr b1 x = Ok b2 /\ b_size b2 = zlen l + len + 1 /\
  rd (b_bits b2) ((zlen l + len) / 64) = Ok w /\ Z.testbit w ((zlen l + len) mod 64) = Z.testbit v len || x.
Proof.
  intros H V l L. destruct (nd_builder gr os i H) as (st & E & I). destruct (nd_push_spurious gr _ _ v len x I V L) as (b1 & b2 & E1 & E2 & E3 & E4).
  fold l in I, E1, E2, E3, E4. pose proof (zlen_nonneg l) as Z0.
  set (n := zlen l + len) in *. set (X := l ++ _) in E4. assert (LX : zlen X = zlen l + reach (zlen l) len).
  { unfold X. rewrite zlen_app, zlen_bits_of. lia. }
  pose proof (zlen_splice X n 1 [Z.testbit v len || x] ltac:(lia) eq_refl ltac:(lia)) as EL. change (Z.to_nat 1) with 1%nat in EL.
  set (Y := firstn _ _ ++ _) in *. pose proof (words_ok_bit (pack Y) Y n (words_ok_pack Y) ltac:(lia)) as B.
  exists st, b1, b2, (W (pack Y) (n / 64)). repeat (split; [assumption|]). split.
  - rewrite E4. apply W_rd. rewrite zlen_pack, EL, LX. split; [apply Z.div_pos; lia|]. apply Z.div_lt_upper_bound; [lia|].
    pose proof (Z.div_mod (zlen l + reach (zlen l) len + 63) 64 ltac:(lia)). pose proof (Z.mod_pos_bound (zlen l + reach (zlen l) len + 63) 64 ltac:(lia)). lia.
  - rewrite B. unfold Y. pose proof (zbit_splice X n 1 [Z.testbit v len || x] n ltac:(lia) eq_refl ltac:(lia) ltac:(lia)) as G. change (Z.to_nat 1) with 1%nat in G. rewrite G.
    replace ((n <=? n) && (n <? n + 1)) with true by lia. rewrite Z.sub_diag. reflexivity.
Qed.
Lemma nd_history_set gr os i pos v len : legal_run seqs0 os -> is_u64 v ->
  let l := spec_run seqs0 os i in 0 <= pos -> 0 < len <= 64 -> pos + len <= zlen l ->
  exists st b', run gr builders0 os = Ok st /\ nd_set_bits (st i) pos v len = Ok b' /\ b_size b' = zlen l /\
  forall q, 0 <= q < 64 * ((zlen l + 63) / 64) -> Z.testbit (nth (Z.to_nat (q / 64)) (b_bits b') 0) (q mod 64) =
    if (pos <=? q) && (q <? pos + len) then Z.testbit v (q - pos)
    else nth (Z.to_nat q) l false || (pos <=? q) && (q <? pos + reach pos len) && Z.testbit v (q - pos).
Proof.
  intros H V l P L E. destruct (nd_builder gr os i H) as (st & R & I). destruct (nd_set_spurious _ _ pos v len I V P L E) as (b' & E1 & E2 & E3 & E4).
  exists st, b'. repeat (split; [assumption|]). intros q Hq. apply E4. destruct I as (_ & (_ & -> & _) & _). exact Hq.
Qed.
Lemma nd_zero : nd_msb 0 = Ok 255 /\ nd_lsb 0 = Ok 255.
Proof. split; reflexivity. Qed.
