(** bit_vector: construction from a range and read access. *)
From Verif Require Import Base Spec Lib M_Broadword M_BitVector S_BitVector M_Darray P_BvGen.
From Verif Require Import P_BvLib P_Broadword P_Broadword2.

Lemma canonical_ok l : words_ok (bv_words (canonical l)) l.
Proof. apply words_ok_pack. Qed.

(** ** range constructor *)
Lemma range_loop_ok from : forall done bits cur n j,
  words_ok bits done -> zlen done mod 64 = 0 ->
  0 <= j < 64 -> zlen cur = j -> n = zlen (done ++ cur) ->
  let '(bits', mask', val', size') := range_loop from bits (2 ^ j) (value cur) n in
  let l := done ++ cur ++ from in
  size' = zlen l /\ words_ok (if mask' =? 1 then bits' else bits' ++ [val']) l.
Proof.
  induction from as [|x from IH]; intros done bits cur n j Hw Hm Hj Hc Hn; cbn [range_loop].
  - rewrite app_nil_r. split; auto. pose proof Hw as (U & E & B).
    destruct (Z.eqb_spec (2 ^ j) 1) as [E1|E1].
    + assert (j = 0).
      { destruct (Z.eq_dec j 0); auto. assert (2 ^ 1 <= 2 ^ j) by (apply Z.pow_le_mono_r; lia). lia. }
      destruct cur; [rewrite app_nil_r; auto|]. rewrite zlen_cons in Hc. pose proof (zlen_nonneg cur). lia.
    + assert (j <> 0) by (intros ->; apply E1; reflexivity).
      apply words_ok_intro.
      * apply Forall_app; split; auto. constructor; auto. pose proof (value_range cur) as R.
        rewrite Hc in R. pose proof (Z.pow_le_mono_r 2 j 64). unfold is_u64. lia.
      * rewrite !zlen_app, zlen_cons, E. change (zlen (@nil Z)) with 0. clear - Hm Hc Hj H. dlia.
      * intros k i Hk Hi. rewrite W_app, W_single, zbit_app.
        rewrite zlen_app, zlen_cons in Hk. change (zlen (@nil Z)) with 0 in Hk.
        assert (Ed : zlen done = 64 * zlen bits) by (clear - Hm E; dlia).
        destruct (Z.ltb_spec k (zlen bits)).
        -- rewrite B by lia. replace (64 * k + i <? zlen done) with true by lia. auto.
        -- replace (k - zlen bits =? 0) with true by lia. rewrite testbit_value_z.
           replace (64 * k + i <? zlen done) with false by lia. f_equal. lia.
  - set (cur' := cur ++ [x]).
    assert (Ev : (if x then Z.lor (value cur) (2 ^ j) else value cur) = value cur').
    { apply Z.bits_inj'. intros i Hi. rewrite testbit_value_z. unfold cur'.
      rewrite zbit_app, zbit_single, Hc. destruct x.
      - rewrite Z.lor_spec, testbit_value_z, Z.pow2_bits_eqb by lia.
        destruct (Z.ltb_spec i j).
        + replace (j =? i) with false by lia. apply orb_false_r.
        + rewrite zbit_out by lia. replace (i - j =? 0) with (j =? i) by lia.
          rewrite andb_true_r. reflexivity.
      - rewrite testbit_value_z, andb_false_r. destruct (Z.ltb_spec i j); auto. apply zbit_out; lia. }
    rewrite Ev.
    assert (Lc : zlen cur' = j + 1).
    { unfold cur'. rewrite zlen_app, zlen_cons. change (zlen (@nil bool)) with 0. lia. }
    assert (El : done ++ cur ++ x :: from = done ++ cur' ++ from)
      by (unfold cur'; rewrite <- app_assoc; reflexivity).
    rewrite El. rewrite Z.shiftl_mul_pow2 by lia.
    replace (2 ^ j * 2 ^ 1) with (2 ^ (j + 1)) by (rewrite Z.pow_add_r; lia).
    destruct (Z.eq_dec j 63) as [->|H63].
    + change (u64 (2 ^ (63 + 1)) =? 0) with true. cbv iota.
      assert (Hw' : words_ok (bits ++ [value cur']) (done ++ cur')).
      { pose proof Hw as (U & E & B). apply words_ok_intro.
        - apply Forall_app; split; auto. constructor; auto. pose proof (value_range cur') as R.
          rewrite Lc in R. exact R.
        - rewrite !zlen_app, zlen_cons, E. change (zlen (@nil Z)) with 0. clear - Hm Lc. dlia.
        - intros k i Hk Hi. rewrite W_app, W_single, zbit_app.
          rewrite zlen_app, zlen_cons in Hk. change (zlen (@nil Z)) with 0 in Hk.
          assert (Ed : zlen done = 64 * zlen bits) by (clear - Hm E; dlia).
          destruct (Z.ltb_spec k (zlen bits)).
          + rewrite B by lia. replace (64 * k + i <? zlen done) with true by lia. auto.
          + replace (k - zlen bits =? 0) with true by lia. rewrite testbit_value_z.
            replace (64 * k + i <? zlen done) with false by lia. f_equal. lia. }
      specialize (IH (done ++ cur') (bits ++ [value cur']) [] (n + 1) 0 Hw').
      change (2 ^ 0) with 1 in IH. change (value []) with 0 in IH. rewrite app_nil_l in IH.
      rewrite (app_assoc done cur' from). apply IH; try lia; try reflexivity.
      * rewrite zlen_app, Lc. clear - Hm. dlia.
      * rewrite app_nil_r, Hn, !zlen_app. lia.
    + assert (Hp : 0 < 2 ^ (j + 1) < 2 ^ 64).
      { split; [apply Z.pow_pos_nonneg; lia|apply Z.pow_lt_mono_r; lia]. }
      rewrite u64_small by lia. replace (2 ^ (j + 1) =? 0) with false by lia.
      apply IH; auto; try lia. rewrite Hn, !zlen_app. lia.
Qed.

Lemma bv_range_ok l : bv_range l = canonical l.
Proof.
  unfold bv_range. pose proof (range_loop_ok l [] [] [] 0 0 words_ok_nil eq_refl ltac:(lia) eq_refl eq_refl) as H.
  change (2 ^ 0) with 1 in H. change (value []) with 0 in H. cbn [app] in H.
  destruct (range_loop l [] 1 0 0) as [[[bits mask] val] size]. destruct H as [-> H].
  apply words_ok_eq in H. unfold canonical. rewrite <- H. reflexivity.
Qed.

(** ** single bits and windows *)
Lemma block_lt l p : 0 <= p < zlen l -> 0 <= p / 64 < zlen (pack l).
Proof. intros. rewrite zlen_pack. dlia. Qed.

Lemma bv_get_ok l pos : 0 <= pos < zlen l -> bv_get (canonical l) pos = Ok (zbit l pos).
Proof.
  intros H. unfold bv_get, canonical; cbn [bv_size bv_words].
  pose proof (block_lt l pos H). assert (0 <= pos mod 64 < 64) by (apply Z.mod_pos_bound; lia).
  rewrite !assert_true by lia. rewrite W_rd by auto. cbn [bind]. rewrite shr_ok by lia. cbn [bind].
  f_equal. rewrite <- (words_ok_bit (pack l) l pos) by (try apply words_ok_pack; lia).
  set (w := W (pack l) (pos / 64)). change 1 with (Z.ones 1). rewrite Z.land_ones by lia.
  rewrite <- Z.bit0_mod, Z.shiftr_spec by lia.
  replace (0 + pos mod 64) with (pos mod 64) by lia. destruct (Z.testbit w (pos mod 64)); reflexivity.
Qed.

(** the 64 bits from [pos], zero padded *)
Lemma get_word_bits l pos : 0 <= pos < zlen l ->
  get_word (canonical l) pos = Ok (value (window l (Z.to_nat pos) 64)).
Proof.
  intros H. unfold get_word, canonical; cbn [bv_size bv_words]. rewrite assert_true by lia.
  pose proof (block_lt l pos H) as Hb. set (k := pos / 64) in *. set (s := pos mod 64).
  assert (Hs : 0 <= s < 64) by (apply Z.mod_pos_bound; lia).
  assert (Ep : pos = 64 * k + s) by (unfold k, s; dlia).
  rewrite W_rd by auto. cbn [bind]. rewrite shr_ok by lia. cbn [bind].
  destruct (words_ok_pack l) as (U & E & B).
  assert (T : forall i, 0 <= i < 64 -> Z.testbit (value (window l (Z.to_nat pos) 64)) i = zbit l (pos + i)).
  { intros i Hi. rewrite testbit_value_z, zbit_window by lia.
    replace (i <? Z.of_nat 64) with true by lia. cbn [andb]. f_equal. lia. }
  destruct (negb (s =? 0) && (k + 1 <? zlen (pack l))) eqn:C.
  - rewrite W_rd by lia. cbn [bind]. rewrite shl_ok by lia. cbn [bind]. f_equal.
    apply bits_inj64; [apply lor_is; auto with u64s; apply shiftr_is; auto with u64s; lia|
                       apply value_window_u64|].
    intros i Hi. rewrite T by auto. rewrite Z.lor_spec, Z.shiftr_spec, testbit_shl64 by lia.
    destruct (Z.lt_ge_cases (i + s) 64).
    + rewrite B by lia. rewrite (Z.testbit_neg_r (W (pack l) (k + 1))) by lia.
      rewrite orb_false_r. f_equal. lia.
    + rewrite (testbit_high64 (W (pack l) k)) by (try apply W_range; auto). rewrite B by lia.
      cbn [orb]. f_equal. lia.
  - f_equal. apply bits_inj64; [apply shiftr_is; auto with u64s; lia|apply value_window_u64|].
    intros i Hi. rewrite T by auto. rewrite Z.shiftr_spec by lia.
    destruct (Z.lt_ge_cases (i + s) 64).
    + rewrite B by lia. f_equal. lia.
    + rewrite (testbit_high64 (W (pack l) k)) by (try apply W_range; auto). symmetry.
      apply zbit_out. right. clear - C E Ep H0 Hs Hi. dlia.
Qed.

Lemma get_bits_ok sp l pos len : 0 <= pos -> 0 <= len <= 64 -> pos + len <= zlen l ->
  (len = 64 -> exists m, sp 1 64 = Ok m) ->
  get_bits sp (canonical l) pos len = Ok (value (window l (Z.to_nat pos) (Z.to_nat len))).
Proof.
  intros Hp Hl Hpl Hsp. unfold get_bits, canonical; cbn [bv_size bv_words].
  rewrite assert_true by (pose proof (u64_le (pos + len)); lia). destruct (Z.eqb_spec len 0) as [->|Hn]; [reflexivity|].
  pose proof (block_lt l pos ltac:(lia)) as Hb. set (k := pos / 64) in *. set (s := pos mod 64).
  assert (Hs : 0 <= s < 64) by (apply Z.mod_pos_bound; lia).
  assert (Ep : pos = 64 * k + s) by (unfold k, s; dlia).
  destruct (words_ok_pack l) as (U & E & B).
  assert (M : exists m, shl_p sp 1 len = Ok m /\
     forall i, 0 <= i -> Z.testbit (Z.lor (if len =? 64 then 2 ^ 64 - 1 else 0) (u64 (m - 1))) i = (i <? len)).
  { destruct (Z.eq_dec len 64) as [->|].
    - destruct (Hsp eq_refl) as [m Em]. exists m. rewrite shl_p_big by lia. split; auto.
      intros i Hi. change (64 =? 64) with true. cbv iota. rewrite Z.lor_spec, testbit_max by lia.
      rewrite testbit_u64. destruct (i <? 64); auto.
    - rewrite shl_p_ok by lia. eexists; split; [reflexivity|]. intros i Hi.
      replace (len =? 64) with false by lia. rewrite Z.lor_0_l. apply testbit_mask; lia. }
  destruct M as (m & -> & Bm). cbn [bind]. set (mask := Z.lor _ _) in *. clearbody mask.
  rewrite W_rd by auto. cbn [bind]. rewrite shr_ok by lia. cbn [bind].
  assert (T : forall i, 0 <= i -> Z.testbit (value (window l (Z.to_nat pos) (Z.to_nat len))) i =
            (i <? len) && zbit l (pos + i)).
  { intros i Hi. rewrite testbit_value_z, zbit_window by lia. rewrite !Z2Nat.id by lia. auto. }
  destruct (Z.leb_spec (s + len) 64).
  - f_equal. apply Z.bits_inj'. intros i Hi. rewrite T by auto.
    rewrite Z.land_spec, Z.shiftr_spec, Bm by lia. destruct (Z.ltb_spec i len).
    + rewrite B by lia. rewrite andb_true_r. cbn [andb]. f_equal. lia.
    + apply andb_false_r.
  - rewrite W_rd by (rewrite E; clear - Ep H Hpl Hb; dlia). cbn [bind].
    rewrite shl_ok by lia. cbn [bind]. f_equal. apply Z.bits_inj'. intros i Hi. rewrite T by auto.
    rewrite Z.lor_spec, Z.land_spec, Z.shiftr_spec, Bm by lia.
    destruct (Z.lt_ge_cases i 64) as [Hi64|Hi64].
    + rewrite testbit_shl64 by lia. destruct (Z.lt_ge_cases (i + s) 64).
      * rewrite B by lia. rewrite (Z.testbit_neg_r (W (pack l) (k + 1))) by lia. cbn [andb].
        rewrite orb_false_r. replace (i <? len) with true by lia. cbn [andb]. f_equal. lia.
      * rewrite (testbit_high64 (W (pack l) k)) by (try apply W_range; auto). rewrite B by lia.
        cbn [orb]. rewrite andb_comm. f_equal. f_equal. lia.
    + replace (i <? len) with false by lia. rewrite andb_false_r. cbn [andb].
      rewrite orb_false_r. apply testbit_high64; [apply W_range; auto|lia].
Qed.

(** [get_bits(pos, 64)] when shifts by 64 are undefined *)
Lemma get_bits_strict64 l pos : 0 <= pos -> pos + 64 <= zlen l ->
  get_bits strict_shift (canonical l) pos 64 = Ub BadShift.
Proof.
  intros. unfold get_bits, canonical; cbn [bv_size bv_words]. rewrite assert_true by (pose proof (u64_le (pos + 64)); lia). reflexivity.
Qed.

(** ** get_word56 *)
Lemma testbit_byte_cat b r i : 0 <= b < 2 ^ 8 -> 0 <= i ->
  Z.testbit (b + 2 ^ 8 * r) i = if i <? 8 then Z.testbit b i else Z.testbit r (i - 8).
Proof. intros. apply testbit_split; lia. Qed.

Lemma load_le_ok ws l n : words_ok ws l -> forall i, 0 <= i -> i + Z.of_nat n <= 8 * zlen ws ->
  exists r, load_le ws i n = Ok r /\ 0 <= r < 2 ^ (8 * Z.of_nat n) /\
    forall j, 0 <= j < 8 * Z.of_nat n -> Z.testbit r j = zbit l (8 * i + j).
Proof.
  intros (U & E & B). induction n as [|n IH]; intros i Hi Hl; cbn [load_le].
  - exists 0. split; auto. split; [rewrite Z.mul_0_r; lia|]. intros; lia.
  - unfold byte_of_words. rewrite W_rd by dlia. cbn [bind].
    destruct (IH (i + 1) ltac:(lia) ltac:(lia)) as (r & -> & Rr & Br). cbn [bind].
    set (b := Z.land _ 255).
    assert (Rb : 0 <= b < 2 ^ 8).
    { unfold b. apply land_range; try lia. apply Z.shiftr_nonneg. apply (W_range ws (i / 8) U). }
    eexists; split; [reflexivity|]. split.
    + replace (8 * Z.of_nat (S n)) with (8 + 8 * Z.of_nat n) by lia. rewrite Z.pow_add_r by lia. nia.
    + intros j Hj. rewrite testbit_byte_cat by lia. destruct (Z.ltb_spec j 8).
      * unfold b. rewrite Z.land_spec, Z.shiftr_spec by lia. change 255 with (Z.ones 8).
        rewrite Z.testbit_ones_nonneg by lia. replace (j <? 8) with true by lia.
        rewrite andb_true_r. assert (0 <= i mod 8 < 8) by (apply Z.mod_pos_bound; lia).
        rewrite B by dlia. f_equal. dlia.
      * rewrite Br by lia. f_equal. lia.
Qed.

(** in bounds when the 8 bytes from byte [pos / 8] lie in the array *)
Lemma get_word56_ok l pos : 0 <= pos -> pos / 8 + 8 <= 8 * zlen (pack l) ->
  exists r, get_word56 (canonical l) pos = Ok r /\
    forall j, 0 <= j < 64 - pos mod 8 -> Z.testbit r j = zbit l (pos + j).
Proof.
  intros Hp Hl. unfold get_word56, canonical; cbn [bv_words].
  destruct (load_le_ok (pack l) l 8 (words_ok_pack l) (pos / 8) ltac:(dlia) ltac:(lia))
    as (r & -> & Rr & Br). cbn [bind].
  assert (0 <= pos mod 8 < 8) by (apply Z.mod_pos_bound; lia).
  rewrite shr_ok by lia. eexists; split; [reflexivity|]. intros j Hj.
  rewrite Z.shiftr_spec by lia. rewrite Br by lia. f_equal. dlia.
Qed.

(** ** predecessor and successor *)
Lemma getw_ok neg ws l k : words_ok ws l -> 0 <= k < zlen ws ->
  exists w, getw neg ws k = Ok w /\ is_u64 w /\
    forall i, 0 <= i < 64 -> Z.testbit w i = xorb neg (zbit l (64 * k + i)).
Proof.
  intros (U & E & B) Hk. unfold getw. rewrite W_rd by auto. cbn [bind].
  eexists; split; [reflexivity|]. split; [destruct neg; auto with u64s|].
  intros i Hi. destruct neg.
  - rewrite testbit_not64, B by lia. replace (i <? 64) with true by lia. reflexivity.
  - rewrite B by lia. destruct (zbit l _); reflexivity.
Qed.

(** [x] is the value looked for: [neg = true] looks for zeros *)
Lemma pred_loop_ok neg ws l fuel : words_ok ws l -> forall k w lim,
  0 <= k -> k <= Z.of_nat fuel -> k < zlen ws -> is_u64 w -> 0 <= lim < 64 ->
  (forall i, 0 <= i < 64 -> Z.testbit w i = (i <=? lim) && xorb neg (zbit l (64 * k + i))) ->
  forall q, 0 <= q <= 64 * k + lim -> zbit l q = negb neg ->
  (forall p, q < p <= 64 * k + lim -> zbit l p = neg) ->
  pred_loop neg fuel ws k w = Ok q.
Proof.
  intros Hw. induction fuel as [|fuel IH]; intros k w lim Hk Hf Hkw Uw Hlim Bw q Hq Eq Lq.
  all: cbn [pred_loop].
  all: pose proof (Z.div_mod q 64 ltac:(lia)) as Eqq;
    pose proof (Z.mod_pos_bound q 64 ltac:(lia)) as Hs;
    set (kq := q / 64) in *; set (s := q mod 64) in *; clearbody kq s.
  all: destruct (Z.eq_dec kq k) as [Ek|Ek].
  1,3: (* q in this word *)
    subst kq;
    assert (Bq : Z.testbit w s = true)
      by (rewrite Bw by lia; rewrite <- Eqq, Eq; replace (s <=? lim) with true by lia;
          destruct neg; reflexivity);
    assert (Nw : w <> 0) by (intros ->; rewrite Z.testbit_0_l in Bq; discriminate);
    rewrite msb_opt_correct by auto; cbn [bind]; f_equal;
    enough (Z.log2 w = s) by lia;
    apply Z.log2_bits_unique; auto; intros i Hi;
    destruct (Z.lt_ge_cases i 64) as [Hi64|Hi64]; [|apply testbit_high64; auto];
    rewrite Bw by lia; destruct (Z.leb_spec i lim); auto; rewrite Lq by lia; destruct neg; reflexivity.
  - exfalso. lia.
  - assert (kq < k) by lia.
    assert (W0 : w = 0).
    { apply bits_inj64; [auto|lia|]. intros i Hi. rewrite Z.testbit_0_l, Bw by lia.
      destruct (Z.leb_spec i lim); auto. rewrite Lq by lia. destruct neg; reflexivity. }
    rewrite W0. cbn [msb_opt bind Z.eqb]. rewrite assert_true by lia.
    destruct (getw_ok neg ws l (k - 1) Hw ltac:(lia)) as (w' & -> & Uw' & Bw'). cbn [bind].
    apply IH with (lim := 63); auto; try lia.
    intros i Hi. rewrite Bw' by lia. replace (i <=? 63) with true by lia. reflexivity.
Qed.

Lemma zbit_pos l p b : zbit l p = b -> b = true -> 0 <= p < zlen l.
Proof.
  intros H1 H2. destruct (Z.lt_ge_cases p 0); [rewrite zbit_out in H1 by lia; congruence|].
  destruct (Z.lt_ge_cases p (zlen l)); [lia|rewrite zbit_out in H1 by lia; congruence].
Qed.

Lemma predecessor_ok neg l pos q : 0 <= pos < zlen l -> 0 <= q <= pos -> zbit l q = negb neg ->
  (forall p, q < p <= pos -> zbit l p = neg) ->
  predecessor_gen neg (canonical l) pos = Ok q.
Proof.
  intros Hp Hq Eq Lq. unfold predecessor_gen, canonical; cbn [bv_size bv_words].
  rewrite assert_true by lia. pose proof (block_lt l pos Hp) as Hb.
  set (k := pos / 64) in *. set (s := pos mod 64).
  assert (Hs : 0 <= s < 64) by (apply Z.mod_pos_bound; lia).
  assert (Ep : pos = 64 * k + s) by (unfold k, s; dlia).
  destruct (getw_ok neg (pack l) l k (words_ok_pack l) Hb) as (w & -> & Uw & Bw). cbn [bind].
  rewrite shl_ok by lia. cbn [bind]. rewrite shr_ok by lia. cbn [bind].
  apply pred_loop_ok with (l := l) (lim := s); auto; try lia; try apply words_ok_pack.
  - apply shiftr_is; auto with u64s; lia.
  - intros i Hi. rewrite Z.shiftr_spec by lia.
    destruct (Z.leb_spec i s).
    + rewrite testbit_shl64 by lia. replace (i + (64 - s - 1) - (64 - s - 1)) with i by lia.
      rewrite Bw by lia. reflexivity.
    + apply testbit_high64; [apply u64_is|lia].
  - intros p Hpp. apply Lq. lia.
Qed.

Lemma succ_loop_ok neg ws l fuel : words_ok ws l -> forall k w lim,
  0 <= k < zlen ws -> zlen ws - k <= Z.of_nat fuel -> is_u64 w -> 0 <= lim < 64 ->
  (forall i, 0 <= i < 64 -> Z.testbit w i = (lim <=? i) && xorb neg (zbit l (64 * k + i))) ->
  forall q, 64 * k + lim <= q < 64 * zlen ws -> zbit l q = negb neg ->
  (forall p, 64 * k + lim <= p < q -> zbit l p = neg) ->
  succ_loop neg fuel ws k w = Ok q.
Proof.
  intros Hw. induction fuel as [|fuel IH]; intros k w lim Hk Hf Uw Hlim Bw q Hq Eq Lq; [lia|].
  cbn [succ_loop].
  pose proof (Z.div_mod q 64 ltac:(lia)) as Eqq.
  pose proof (Z.mod_pos_bound q 64 ltac:(lia)) as Hs.
  set (kq := q / 64) in *; set (s := q mod 64) in *; clearbody kq s.
  destruct (Z.eq_dec kq k) as [Ek|Ek].
  - subst kq. rewrite (lsb_opt_correct w s); auto.
    + cbn [bind]. f_equal. lia.
    + split; [lia|]. split.
      * rewrite Bw by lia. rewrite <- Eqq, Eq. replace (lim <=? s) with true by lia.
        destruct neg; reflexivity.
      * intros i Hi. rewrite Bw by lia. destruct (Z.leb_spec lim i); auto. rewrite Lq by lia.
        destruct neg; reflexivity.
  - assert (Hqk : k < kq) by lia.
    assert (W0 : w = 0).
    { apply bits_inj64; [auto|lia|]. intros i Hi. rewrite Z.testbit_0_l, Bw by lia.
      destruct (Z.leb_spec lim i); auto. rewrite Lq by lia. destruct neg; reflexivity. }
    rewrite W0, lsb_opt_zero. cbn [bind]. rewrite assert_true by lia.
    destruct (getw_ok neg ws l (k + 1) Hw ltac:(lia)) as (w' & -> & Uw' & Bw'). cbn [bind].
    apply IH with (lim := 0); auto; try lia.
    intros i Hi. rewrite Bw' by lia. replace (0 <=? i) with true by lia. reflexivity.
Qed.

Lemma successor_ok neg l pos q : 0 <= pos -> pos <= q < zlen l -> zbit l q = negb neg ->
  (forall p, pos <= p < q -> zbit l p = neg) ->
  successor_gen neg (canonical l) pos = Ok q.
Proof.
  intros Hp Hq Eq Lq. unfold successor_gen, canonical; cbn [bv_size bv_words].
  rewrite assert_true by lia. pose proof (block_lt l pos ltac:(lia)) as Hb.
  set (k := pos / 64) in *. set (s := pos mod 64).
  assert (Hs : 0 <= s < 64) by (apply Z.mod_pos_bound; lia).
  assert (Ep : pos = 64 * k + s) by (unfold k, s; dlia).
  destruct (getw_ok neg (pack l) l k (words_ok_pack l) Hb) as (w & -> & Uw & Bw). cbn [bind].
  rewrite shr_ok by lia. cbn [bind]. rewrite shl_ok by lia. cbn [bind].
  apply succ_loop_ok with (l := l) (lim := s); auto; try lia; try apply words_ok_pack.
  - unfold zlen. lia.
  - apply u64_is.
  - intros i Hi. rewrite testbit_shl64 by lia. destruct (Z.leb_spec s i).
    + rewrite Z.shiftr_spec by lia. rewrite Bw by lia. cbn [andb]. do 2 f_equal. lia.
    + rewrite Z.testbit_neg_r by lia. reflexivity.
  - rewrite zlen_pack. clear - Hq. dlia.
  - intros p Hpp. apply Lq. lia.
Qed.
