(** bit_vector_builder: every in-contract call history builds the intended sequence. *)
From Verif Require Import Base Spec Lib M_Broadword M_BitVector S_BitVector.
From Verif Require Import P_BvLib P_Broadword2.

Arguments v_push : simpl never.
Arguments v_need : simpl never.
Arguments v_grow : simpl never.

Lemma u64_bits bits len : 0 <= len <= 64 -> 0 <= bits < 2 ^ len -> is_u64 bits.
Proof. intros. unfold is_u64. pose proof (Z.pow_le_mono_r 2 len 64). lia. Qed.

Lemma append_word ws l bits len : words_ok ws l -> 0 < len <= 64 -> 0 <= bits < 2 ^ len ->
  zlen l mod 64 = 0 -> words_ok (ws ++ [bits]) (l ++ bits_of (Z.to_nat len) bits).
Proof.
  intros (H1 & H2 & H3) Hl Hb Hm. apply words_ok_intro.
  - apply Forall_app; split; auto. constructor; auto. eapply u64_bits; eauto. lia.
  - rewrite !zlen_app, zlen_cons, zlen_bits_of, H2. change (zlen (@nil Z)) with 0. dlia.
  - intros k i Hk Hi. rewrite W_app, zbit_app. rewrite zlen_app, zlen_cons in Hk.
    change (zlen (@nil Z)) with 0 in Hk.
    destruct (Z.ltb_spec k (zlen ws)).
    + rewrite H3 by lia. destruct (Z.ltb_spec (64 * k + i) (zlen l)); auto.
      exfalso. dlia.
    + assert (k = zlen ws) by lia. subst k. rewrite W_single.
      replace (zlen ws - zlen ws =? 0) with true by lia.
      replace (64 * zlen ws + i <? zlen l) with false by dlia.
      replace (64 * zlen ws + i - zlen l) with i by dlia.
      rewrite zbit_bits_of. destruct (Z.ltb_spec i (Z.of_nat (Z.to_nat len))); auto.
      eapply testbit_high; eauto. lia.
Qed.

Section append_cur.
  Context (ws : list Z) (l : list bool) (bits len : Z).
  Let s := zlen l mod 64.
  Let ws1 := upd ws (Z.to_nat (zlen ws - 1))
               (Z.lor (W ws (zlen ws - 1)) (u64 (Z.shiftl bits s))).
  Hypothesis (H : words_ok ws l) (Hl : 0 < len <= 64) (Hb : 0 <= bits < 2 ^ len) (Hs : s <> 0).

  Lemma cur_u64 : Forall is_u64 ws1.
  Proof. destruct H as (H1 & _). apply Forall_upd; auto with u64s. Qed.

  Lemma cur_bit k i : 0 <= k < zlen ws -> 0 <= i < 64 ->
    Z.testbit (W ws1 k) i = zbit (l ++ bits_of (Z.to_nat len) bits) (64 * k + i).
  Proof.
    destruct H as (H1 & H2 & H3). intros Hk Hi. unfold ws1. rewrite W_upd by lia.
    rewrite zbit_app, zbit_bits_of. unfold s in *.
    assert (E : zlen l = 64 * (zlen ws - 1) + zlen l mod 64) by (clear - H2 Hs; dlia).
    destruct (Z.eqb_spec k (zlen ws - 1)) as [->|Hn].
    - rewrite Z.lor_spec, testbit_shl64, H3 by dlia.
      destruct (Z.ltb_spec (64 * (zlen ws - 1) + i) (zlen l)) as [G|G].
      + rewrite (Z.testbit_neg_r bits) by lia. apply orb_false_r.
      + rewrite zbit_out by lia. simpl.
        replace (64 * (zlen ws - 1) + i - zlen l) with (i - zlen l mod 64) by lia.
        destruct (Z.ltb_spec (i - zlen l mod 64) (Z.of_nat (Z.to_nat len))); auto.
        eapply testbit_high; eauto. lia.
    - rewrite H3 by lia. replace (64 * k + i <? zlen l) with true; auto.
      symmetry. apply Z.ltb_lt. assert (0 <= zlen l mod 64) by (apply Z.mod_pos_bound; lia). lia.
  Qed.

  Lemma append_cur1 : len <= 64 - s -> words_ok ws1 (l ++ bits_of (Z.to_nat len) bits).
  Proof.
    intros G. destruct H as (H1 & H2 & H3). apply words_ok_intro; [apply cur_u64| |].
    - unfold ws1. rewrite zlen_upd, zlen_app, zlen_bits_of, H2. unfold s in *. dlia.
    - unfold ws1. rewrite zlen_upd. apply cur_bit.
  Qed.

  Lemma append_cur2 : 64 - s < len ->
    words_ok (ws1 ++ [Z.shiftr bits (64 - s)]) (l ++ bits_of (Z.to_nat len) bits).
  Proof.
    intros G. assert (Rs : 0 < s < 64) by (unfold s in *; dlia).
    destruct H as (H1 & H2 & H3). apply words_ok_intro.
    - apply Forall_app; split; [apply cur_u64|]. constructor; auto. apply shiftr_is; [lia|].
      eapply u64_bits; eauto. lia.
    - unfold ws1. rewrite zlen_app, zlen_upd, zlen_cons, zlen_app, zlen_bits_of, H2.
      change (zlen (@nil Z)) with 0. unfold s in *. dlia.
    - intros k i Hk Hi. rewrite W_app.
      replace (zlen ws1) with (zlen ws) in * by (unfold ws1; rewrite zlen_upd; auto).
      rewrite zlen_app, zlen_cons in Hk. change (zlen (@nil Z)) with 0 in Hk.
      replace (zlen ws1) with (zlen ws) in * by (unfold ws1; rewrite zlen_upd; auto).
      destruct (Z.ltb_spec k (zlen ws)); [apply cur_bit; lia|].
      assert (k = zlen ws) by lia. subst k. rewrite W_single.
      replace (zlen ws - zlen ws =? 0) with true by lia.
      rewrite Z.shiftr_spec by lia. rewrite zbit_app, zbit_bits_of.
      assert (E : zlen l = 64 * (zlen ws - 1) + s) by (unfold s in *; clear - H2 Hs; dlia).
      replace (64 * zlen ws + i <? zlen l) with false by lia.
      replace (64 * zlen ws + i - zlen l) with (i + (64 - s)) by lia.
      destruct (Z.ltb_spec (i + (64 - s)) (Z.of_nat (Z.to_nat len))); auto.
      eapply testbit_high; eauto. lia.
  Qed.
End append_cur.

(** ** The invariant of a builder that holds [l] *)
Definition binv (b : builder) (l : list bool) : Prop :=
  b_size b = zlen l /\ words_ok (b_bits b) l /\
  zlen (b_bits b) <= b_cap b /\
  (zlen l mod 64 <> 0 -> b_cur b = Some (b_gen b, zlen (b_bits b) - 1)).

Lemma binv_bv b l : binv b l -> bv_of_builder b = Ok (canonical l).
Proof.
  intros (H1 & H2 & _ & _). unfold bv_of_builder, words_for, ceil_div.
  pose proof H2 as (_ & E & _). rewrite assert_true.
  - rewrite H1, (words_ok_eq _ _ H2). reflexivity.
  - apply Z.eqb_eq. rewrite H1, E. f_equal. lia.
Qed.

Lemma v_need_bits gr b n : b_bits (v_need gr b n) = b_bits b.
Proof. unfold v_need. destruct (n <=? b_cap b); reflexivity. Qed.
Lemma v_need_size gr b n : b_size (v_need gr b n) = b_size b.
Proof. unfold v_need. destruct (n <=? b_cap b); reflexivity. Qed.
Lemma v_push_bits gr b w : b_bits (v_push gr b w) = b_bits b ++ [w].
Proof. unfold v_push; cbn. rewrite v_need_bits. reflexivity. Qed.
Lemma v_push_size gr b w : b_size (v_push gr b w) = b_size b.
Proof. unfold v_push; cbn. apply v_need_size. Qed.

Lemma v_need_cap gr b n : n <= b_cap (v_need gr b n) /\ b_cap b <= b_cap (v_need gr b n).
Proof. unfold v_need. destruct (Z.leb_spec n (b_cap b)); cbn; lia. Qed.
Lemma v_push_cap gr b w : zlen (b_bits (v_push gr b w)) <= b_cap (v_push gr b w).
Proof.
  rewrite v_push_bits, zlen_app, zlen_cons. change (zlen (@nil Z)) with 0. unfold v_push; cbn.
  pose proof (v_need_cap gr b (zlen (b_bits b) + 1)). lia.
Qed.

Lemma binv_back b l : b_size b = zlen l -> words_ok (b_bits b) l -> zlen (b_bits b) <= b_cap b ->
  binv (set_cur_back b) l.
Proof. intros; repeat split; auto; apply H0. Qed.

Lemma cur_or_ok b x : b_cur b = Some (b_gen b, zlen (b_bits b) - 1) -> 0 < zlen (b_bits b) ->
  cur_or b x = Ok (with_bits b (upd (b_bits b) (Z.to_nat (zlen (b_bits b) - 1))
                                  (Z.lor (W (b_bits b) (zlen (b_bits b) - 1)) x))).
Proof.
  intros H1 H2. unfold cur_or. rewrite H1, Z.eqb_refl, W_rd by lia. cbn [bind].
  rewrite wr_ok by lia. reflexivity.
Qed.

Lemma words_ok_pos ws l : words_ok ws l -> zlen l mod 64 <> 0 -> 0 < zlen ws.
Proof.
  intros (_ & H & _) Hn. pose proof (zlen_nonneg l). clear - H H0 Hn. dlia.
Qed.

Lemma no_spurious_ok bits len : 0 <= len <= 64 -> 0 <= bits < 2 ^ len ->
  no_spurious bits len = Ok true.
Proof.
  intros Hl Hb. unfold no_spurious. destruct (Z.eqb_spec len 64); auto.
  rewrite shr_ok by lia. cbn [bind]. rewrite Z.shiftr_div_pow2, Z.div_small by lia. reflexivity.
Qed.

Lemma append_bits_ok gr b l bits len : binv b l -> 0 <= len <= 64 -> 0 <= bits < 2 ^ len ->
  exists b', append_bits gr b bits len = Ok b' /\ binv b' (l ++ bits_of (Z.to_nat len) bits).
Proof.
  intros (H1 & H2 & Hc & H3) Hl Hb. unfold append_bits. rewrite no_spurious_ok by auto.
  cbn [bind]. rewrite assert_true by auto.
  destruct (Z.eqb_spec len 0) as [->|Hn].
  { exists b. split; auto. change (bits_of (Z.to_nat 0) bits) with (@nil bool).
    rewrite app_nil_r. split; [|split; [|split]]; auto. }
  set (s := b_size b mod 64). assert (Rs : 0 <= s < 64) by (apply Z.mod_pos_bound; lia).
  assert (Es : s = zlen l mod 64) by (unfold s; rewrite H1; auto).
  assert (Sz : b_size b + len = zlen (l ++ bits_of (Z.to_nat len) bits))
    by (rewrite zlen_app, zlen_bits_of; lia).
  cbv zeta. destruct (Z.eqb_spec s 0) as [E|E].
  - eexists; split; [reflexivity|]. apply binv_back; [| |apply v_push_cap]; rewrite ?v_push_bits, ?v_push_size; cbn; auto.
    apply append_word; auto; lia.
  - rewrite shl_ok by lia. cbn [bind]. rewrite cur_or_ok; cbn.
    2:{ apply H3. lia. }
    2:{ eapply words_ok_pos; eauto. lia. }
    destruct (Z.ltb_spec (64 - s) len).
    + rewrite shr_ok by lia. cbn [bind]. eexists; split; [reflexivity|].
      apply binv_back; [| |apply v_push_cap]; rewrite ?v_push_bits, ?v_push_size; cbn; auto.
      rewrite Es. apply append_cur2; auto; lia.
    + eexists; split; [reflexivity|]. apply binv_back; cbn; rewrite ?zlen_upd; auto.
      rewrite Es. apply append_cur1; auto; lia.
Qed.

Lemma bits_of_1 x : bits_of 1 (Z.b2z x) = [x].
Proof. destruct x; reflexivity. Qed.

Lemma push_back_ok gr b l x : binv b l ->
  exists b', push_back gr b x = Ok b' /\ binv b' (l ++ [x]).
Proof.
  intros (H1 & H2 & Hc & H3). unfold push_back.
  set (s := b_size b mod 64). assert (Rs : 0 <= s < 64) by (apply Z.mod_pos_bound; lia).
  assert (Es : s = zlen l mod 64) by (unfold s; rewrite H1; auto).
  assert (Rx : 0 <= Z.b2z x < 2 ^ 1) by (destruct x; simpl; lia).
  assert (Sz : b_size b + 1 = zlen (l ++ [x]))
    by (rewrite zlen_app, zlen_cons; change (zlen (@nil bool)) with 0; lia).
  cbv zeta. rewrite shl_ok by lia. cbn [bind]. destruct (Z.eqb_spec s 0) as [E|E].
  - rewrite cur_or_ok; [|reflexivity|].
    2:{ cbn. rewrite v_push_bits, zlen_app, zlen_cons. change (zlen (@nil Z)) with 0.
        pose proof (zlen_nonneg (b_bits b)). lia. }
    cbn [bind]. eexists; split; [reflexivity|]. split; [|split; [|split]].
    + cbn. rewrite v_push_size. auto.
    + cbn. rewrite v_push_bits. rewrite zlen_app, zlen_cons. change (zlen (@nil Z)) with 0.
      replace (zlen (b_bits b) + (0 + 1) - 1) with (zlen (b_bits b)) by lia.
      rewrite W_app. replace (zlen (b_bits b) <? zlen (b_bits b)) with false by lia.
      rewrite Z.sub_diag, W_single. cbn [Z.eqb]. rewrite Z.lor_0_l, E.
      rewrite Z.shiftl_0_r, u64_small by lia.
      replace (upd (b_bits b ++ [0]) (Z.to_nat (zlen (b_bits b))) (Z.b2z x))
        with (b_bits b ++ [Z.b2z x]).
      * pose proof (append_word _ _ (Z.b2z x) 1 H2 ltac:(lia) Rx ltac:(lia)) as G.
        change (Z.to_nat 1) with 1%nat in G. rewrite bits_of_1 in G. exact G.
      * unfold zlen. rewrite Nat2Z.id. clear. induction (b_bits b) as [|w ws IH]; simpl; congruence.
    + cbn. rewrite zlen_upd. apply v_push_cap.
    + intros _. cbn. rewrite zlen_upd. reflexivity.
  - rewrite cur_or_ok; cbn.
    2:{ apply H3. lia. }
    2:{ eapply words_ok_pos; eauto. lia. }
    eexists; split; [reflexivity|]. split; [|split; [|split]]; cbn; auto.
    + pose proof (append_cur1 (b_bits b) l (Z.b2z x) 1 H2 ltac:(lia) Rx ltac:(lia)) as G.
      change (Z.to_nat 1) with 1%nat in G. rewrite bits_of_1 in G. rewrite Es. apply G. lia.
    + rewrite zlen_upd. auto.
    + intros _. rewrite zlen_upd. apply H3. lia.
Qed.

Lemma new_builder_ok size init : 0 <= size ->
  exists b, new_builder size init = Ok b /\ binv b (repeat init (Z.to_nat size)).
Proof.
  intros Hs. unfold new_builder, words_for, ceil_div.
  replace (size + 64 - 1) with (size + 63) by lia.
  set (n := (size + 63) / 64). assert (Hn : 0 <= n) by (unfold n; dlia).
  set (fill := if init then 2 ^ 64 - 1 else 0).
  assert (Uf : is_u64 fill) by (unfold fill, is_u64; destruct init; lia).
  assert (L : zlen (repeat init (Z.to_nat size)) = size) by (rewrite zlen_repeat; lia).
  destruct (Z.eqb_spec size 0) as [->|Hz].
  { eexists; split; [reflexivity|]. split; [|split; [|split]]; auto. cbn.
    apply words_ok_nil.
    intros C. exfalso; apply C; reflexivity. }
  assert (Ln : zlen (repeat fill (Z.to_nat n)) = n) by (rewrite zlen_repeat; lia).
  assert (Bf : forall k i, 0 <= k < n -> 0 <= i < 64 ->
            Z.testbit (W (repeat fill (Z.to_nat n)) k) i = init).
  { intros. rewrite W_repeat by lia. unfold fill. destruct init.
    - rewrite testbit_max by lia. lia.
    - apply Z.testbit_0_l. }
  destruct (init && negb (size mod 64 =? 0)) eqn:E.
  - apply andb_true_iff in E. destruct E as [-> E].
    assert (0 < n) by (unfold n; dlia). assert (Hm : 0 < size mod 64 < 64) by dlia.
    rewrite W_rd by lia. cbn [bind]. rewrite shr_ok by lia. cbn [bind]. rewrite wr_ok by lia.
    cbn [bind]. eexists; split; [reflexivity|]. split; [|split; [|split]]; cbn; auto.
    + apply words_ok_intro.
      * apply Forall_upd; [apply Forall_repeat; auto|]. apply shiftr_is; [lia|].
        apply W_range. apply Forall_repeat; auto.
      * rewrite zlen_upd, Ln, L. reflexivity.
      * intros k i Hk Hi. rewrite zlen_upd, Ln in Hk. rewrite W_upd by lia.
        rewrite zbit_repeat, andb_true_r. replace (0 <=? 64 * k + i) with true by lia. simpl.
        rewrite Z2Nat.id by lia. destruct (Z.eqb_spec k (n - 1)) as [->|].
        -- rewrite Z.shiftr_spec by lia. assert (size = 64 * (n - 1) + size mod 64) by (unfold n; dlia).
           destruct (Z.ltb_spec (64 * (n - 1) + i) size).
           ++ apply Bf; lia.
           ++ apply testbit_high64; [apply W_range; apply Forall_repeat; auto|lia].
        -- rewrite Bf by lia. symmetry. apply Z.ltb_lt. unfold n in *. dlia.
    + rewrite zlen_upd. lia.
    + intros _. rewrite zlen_upd, Ln. reflexivity.
  - eexists; split; [reflexivity|]. apply binv_back; cbn; auto; [|lia]. apply words_ok_intro.
    + apply Forall_repeat; auto.
    + rewrite Ln, L. reflexivity.
    + intros k i Hk Hi. rewrite Ln in Hk. rewrite Bf by lia. rewrite zbit_repeat, Z2Nat.id by lia.
      replace (0 <=? 64 * k + i) with true by lia. cbn [andb].
      destruct init; [|rewrite andb_false_r; auto]. rewrite andb_true_r.
      symmetry. apply Z.ltb_lt. unfold n in *. simpl in E. dlia.
Qed.

Lemma reserve_ok gr b l n : binv b l -> zlen l mod 64 = 0 \/ n <= zlen l -> binv (reserve gr b n) l.
Proof.
  intros (H1 & H2 & Hc & H3) Hn. unfold reserve, v_need.
  destruct (Z.leb_spec (words_for n) (b_cap b)) as [G|G]; [split; auto|].
  destruct Hn as [Hn|Hn].
  - split; [|split; [|split]]; auto; cbn; [lia|]. intros C; lia.
  - exfalso. destruct H2 as (_ & E & _). unfold words_for, ceil_div in G. dlia.
Qed.

(** ** set, set_bits *)
Lemma binv_with_bits b l ws l' : binv b l -> words_ok ws l' -> zlen l' = zlen l ->
  binv (with_bits b ws) l'.
Proof.
  intros (H1 & H2 & Hc & H3) Hw E.
  assert (Ew : zlen ws = zlen (b_bits b))
    by (destruct H2 as (_ & -> & _), Hw as (_ & -> & _); rewrite E; auto).
  split; [|split; [|split]]; cbn; auto; try lia. rewrite Ew, E. auto.
Qed.

Lemma mod_word_ok ws i f : 0 <= i < zlen ws ->
  mod_word ws i f = Ok (upd ws (Z.to_nat i) (f (W ws i))).
Proof. intros. unfold mod_word. rewrite W_rd by auto. cbn [bind]. apply wr_ok; auto. Qed.

Lemma set_word_bit w mask bits s i : 0 <= s < 64 -> 0 <= i < 64 ->
  Z.testbit (Z.lor (Z.land w (not64 (u64 (Z.shiftl mask s)))) (u64 (Z.shiftl bits s))) i =
  (Z.testbit w i && negb (Z.testbit mask (i - s))) || Z.testbit bits (i - s).
Proof.
  intros. rewrite Z.lor_spec, Z.land_spec, testbit_not64, !testbit_shl64 by lia.
  replace (i <? 64) with true by lia. reflexivity.
Qed.

Lemma testbit_b2z x i : Z.testbit (Z.b2z x) i = (i =? 0) && x.
Proof.
  destruct (Z.eqb_spec i 0) as [->|]; [destruct x; reflexivity|].
  destruct (Z.lt_ge_cases i 0); [rewrite Z.testbit_neg_r; auto|].
  apply (testbit_high _ 1); [destruct x; simpl; lia|lia].
Qed.

Lemma bset_ok b l pos x : binv b l -> 0 <= pos < zlen l ->
  exists b', bset b pos x = Ok b' /\
    binv b' (firstn (Z.to_nat pos) l ++ [x] ++ skipn (Z.to_nat pos + 1) l).
Proof.
  intros H Hp. pose proof H as (H1 & (U & E & B) & _). unfold bset.
  set (k := pos / 64). set (s := pos mod 64).
  assert (Hs : 0 <= s < 64) by (apply Z.mod_pos_bound; lia).
  assert (Ep : pos = 64 * k + s) by (unfold k, s; dlia).
  assert (Hk : 0 <= k < zlen (b_bits b)) by (rewrite E; unfold k; dlia).
  cbv zeta. rewrite shl_ok by lia. cbn [bind]. rewrite mod_word_ok by auto. cbn [bind].
  rewrite shl_ok by lia. cbn [bind]. rewrite mod_word_ok by (rewrite zlen_upd; auto). cbn [bind].
  eexists; split; [reflexivity|].
  pose proof (zlen_splice l pos 1 [x] ltac:(lia) eq_refl ltac:(lia)) as EL.
  change (Z.to_nat 1) with 1%nat in EL.
  eapply binv_with_bits; eauto.
  apply words_ok_intro.
  - repeat apply Forall_upd; auto with u64s.
    rewrite W_upd, Z.eqb_refl by auto. auto with u64s.
  - rewrite !zlen_upd, EL. auto.
  - intros j i Hj Hi. rewrite !zlen_upd in Hj.
    pose proof (zbit_splice l pos 1 [x] (64 * j + i) ltac:(lia) eq_refl ltac:(lia) ltac:(lia)) as G.
    change (Z.to_nat 1) with 1%nat in G. rewrite G. clear G.
    rewrite W_upd by (rewrite zlen_upd; auto). rewrite !W_upd, Z.eqb_refl by auto.
    destruct (Z.eqb_spec j k) as [->|Hn].
    + rewrite set_word_bit, B by lia. rewrite zbit_single.
      destruct (Z.eq_dec i s) as [->|Hi'].
      * rewrite Z.sub_diag. replace ((pos <=? 64 * k + s) && (64 * k + s <? pos + 1)) with true by lia.
        change (Z.testbit 1 0) with true. cbn [negb]. rewrite andb_false_r. cbn [orb].
        replace (64 * k + s - pos =? 0) with true by lia. cbn [andb].
        destruct x; reflexivity.
      * replace ((pos <=? 64 * k + i) && (64 * k + i <? pos + 1)) with false by lia.
        rewrite (testbit_b2z x), (testbit_b2z true). replace (i - s =? 0) with false by lia.
        cbn [andb negb]. rewrite andb_true_r, orb_false_r. auto.
    + replace ((pos <=? 64 * j + i) && (64 * j + i <? pos + 1)) with false by lia.
      apply B; lia.
Qed.

Lemma set_bits_ok b l pos bits len : binv b l ->
  0 <= pos -> 0 <= len <= 64 -> pos + len <= zlen l -> 0 <= bits < 2 ^ len ->
  exists b', set_bits b pos bits len = Ok b' /\
    binv b' (firstn (Z.to_nat pos) l ++ bits_of (Z.to_nat len) bits ++
             skipn (Z.to_nat pos + Z.to_nat len) l).
Proof.
  intros H Hp Hl Hpl Hb. pose proof H as (H1 & (U & E & B) & _). unfold set_bits.
  rewrite assert_true by (pose proof (u64_le (pos + len)); lia). rewrite no_spurious_ok by auto. cbn [bind]. rewrite assert_true by auto.
  assert (Lb : zlen (bits_of (Z.to_nat len) bits) = len) by (rewrite zlen_bits_of; lia).
  destruct (Z.eqb_spec len 0) as [->|Hn].
  { exists b; split; auto. change (bits_of (Z.to_nat 0) bits) with (@nil bool). cbn [app].
    change (Z.to_nat 0) with 0%nat. rewrite Nat.add_0_r, firstn_skipn. auto. }
  set (k := pos / 64). set (s := pos mod 64).
  assert (Hs : 0 <= s < 64) by (apply Z.mod_pos_bound; lia).
  assert (Ep : pos = 64 * k + s) by (unfold k, s; dlia).
  assert (Hk : 0 <= k < zlen (b_bits b)) by (rewrite E; unfold k; dlia).
  assert (M : exists mask, (if len =? 64 then Ok (2 ^ 64 - 1)
                 else do m <- shl 1 len; Ok (u64 (m - 1))) = Ok mask /\ is_u64 mask /\
              forall i, 0 <= i -> Z.testbit mask i = (i <? len)).
  { destruct (Z.eqb_spec len 64) as [->|].
    - eexists; split; [reflexivity|]. split; [unfold is_u64; lia|]. apply testbit_max.
    - rewrite shl_ok by lia. eexists; split; [reflexivity|]. split; [apply u64_is|].
      intros; apply testbit_mask; lia. }
  destruct M as (mask & -> & Um & Bm). cbn [bind]. cbv zeta.
  rewrite shl_ok by lia. cbn [bind]. rewrite mod_word_ok by auto. cbn [bind].
  rewrite shl_ok by lia. cbn [bind]. rewrite mod_word_ok by (rewrite zlen_upd; auto). cbn [bind].
  assert (Ub_ : is_u64 bits) by (eapply u64_bits; eauto).
  pose proof (zlen_splice l pos len _ Hp Lb Hpl) as EL.
  set (ws1 := upd (upd _ _ _) _ _).
  assert (L1 : zlen ws1 = zlen (b_bits b)) by (unfold ws1; rewrite !zlen_upd; auto).
  assert (U1 : Forall is_u64 ws1).
  { unfold ws1. repeat apply Forall_upd; auto with u64s.
    rewrite W_upd, Z.eqb_refl by auto. auto with u64s. }
  assert (B1 : forall j i, 0 <= j < zlen ws1 -> 0 <= i < 64 -> Z.testbit (W ws1 j) i =
     if (j =? k) && (s <=? i) && (i <? s + len) then Z.testbit bits (i - s) else zbit l (64 * j + i)).
  { intros j i Hj Hi. unfold ws1.
    rewrite W_upd by (rewrite zlen_upd; auto). rewrite !W_upd, Z.eqb_refl by auto.
    destruct (Z.eqb_spec j k) as [->|]; [|apply B; lia].
    rewrite set_word_bit, B by lia. cbn [andb]. destruct (Z.leb_spec s i); cbn [andb].
    - rewrite Bm by lia. destruct (Z.ltb_spec i (s + len)).
      + replace (i - s <? len) with true by lia. rewrite andb_false_r. reflexivity.
      + replace (i - s <? len) with false by lia. rewrite andb_true_r.
        rewrite (testbit_high bits len) by lia. apply orb_false_r.
    - rewrite !(Z.testbit_neg_r _ (i - s)) by lia. cbn [negb]. rewrite andb_true_r, orb_false_r. auto. }
  clearbody ws1.
  destruct (Z.ltb_spec (64 - s) len) as [G|G].
  - assert (Hk1 : 0 <= k + 1 < zlen (b_bits b)) by (rewrite E; clear - Ep Hpl G Hk; dlia).
    rewrite shr_ok by lia. cbn [bind]. rewrite mod_word_ok by lia. cbn [bind].
    rewrite shr_ok by lia. cbn [bind]. rewrite mod_word_ok by (rewrite zlen_upd; lia). cbn [bind].
    eexists; split; [reflexivity|]. eapply binv_with_bits; eauto. apply words_ok_intro.
    + repeat apply Forall_upd; auto with u64s. rewrite W_upd, Z.eqb_refl by lia.
      apply lor_is; [auto with u64s|]. apply shiftr_is; auto; lia.
    + rewrite !zlen_upd, EL, L1. auto.
    + intros j i Hj Hi. rewrite !zlen_upd in Hj.
      rewrite zbit_splice by (auto; lia). rewrite zbit_bits_of, Z2Nat.id by lia.
      rewrite W_upd by (rewrite zlen_upd; lia). rewrite !W_upd, Z.eqb_refl by lia.
      destruct (Z.eqb_spec j (k + 1)) as [->|Hn1].
      * rewrite Z.lor_spec, Z.land_spec, testbit_not64, !Z.shiftr_spec by lia.
        replace (i <? 64) with true by lia. cbn [andb]. rewrite B1 by lia.
        replace (k + 1 =? k) with false by lia. cbn [andb]. rewrite Bm by lia.
        replace (pos <=? 64 * (k + 1) + i) with true by lia. cbn [andb].
        replace (64 * (k + 1) + i - pos) with (i + (64 - s)) by lia.
        destruct (Z.ltb_spec (64 * (k + 1) + i) (pos + len)).
        -- replace (i + (64 - s) <? len) with true by lia. rewrite andb_false_r. reflexivity.
        -- replace (i + (64 - s) <? len) with false by lia. rewrite andb_true_r.
           rewrite (testbit_high bits len) by lia. apply orb_false_r.
      * rewrite B1 by lia. destruct (Z.eqb_spec j k) as [->|]; cbn [andb].
        -- replace (pos <=? 64 * k + i) with (s <=? i) by lia.
           replace (64 * k + i <? pos + len) with (i <? s + len) by lia.
           replace (64 * k + i - pos) with (i - s) by lia.
           destruct (Z.leb_spec s i); auto. destruct (Z.ltb_spec i (s + len)); auto.
           replace (i - s <? len) with true by lia. reflexivity.
        -- replace ((pos <=? 64 * j + i) && (64 * j + i <? pos + len)) with false by lia. auto.
  - eexists; split; [reflexivity|]. eapply binv_with_bits; eauto. apply words_ok_intro; auto.
    + rewrite EL, L1. auto.
    + intros j i Hj Hi. rewrite zbit_splice by (auto; lia). rewrite zbit_bits_of, Z2Nat.id by lia.
      rewrite B1 by lia. destruct (Z.eqb_spec j k) as [->|]; cbn [andb].
      -- replace (pos <=? 64 * k + i) with (s <=? i) by lia.
         replace (64 * k + i <? pos + len) with (i <? s + len) by lia.
         replace (64 * k + i - pos) with (i - s) by lia.
         destruct (Z.leb_spec s i); auto. destruct (Z.ltb_spec i (s + len)); auto.
         replace (i - s <? len) with true by lia. reflexivity.
      -- replace ((pos <=? 64 * j + i) && (64 * j + i <? pos + len)) with false by lia. auto.
Qed.

(** ** zero_extend, one_extend *)
Lemma v_grow_bits gr b n : b_bits (v_grow gr b n) =
  b_bits b ++ repeat 0 (Z.to_nat (n - zlen (b_bits b))).
Proof. unfold v_grow. cbn. rewrite v_need_bits. auto. Qed.
Lemma v_grow_size gr b n : b_size (v_grow gr b n) = b_size b.
Proof. unfold v_grow. cbn. apply v_need_size. Qed.
Lemma v_grow_cap gr b n : zlen (b_bits b) <= n -> zlen (b_bits (v_grow gr b n)) <= b_cap (v_grow gr b n).
Proof.
  intros. rewrite v_grow_bits, zlen_app, zlen_repeat. unfold v_grow; cbn.
  pose proof (v_need_cap gr b n). lia.
Qed.

Lemma zero_extend_ok gr b l n : binv b l -> 0 <= n -> fits (zlen l + n) ->
  exists b', zero_extend gr b n = Ok b' /\ binv b' (l ++ repeat false (Z.to_nat n)).
Proof.
  intros (H1 & H2 & Hc & H3) Hn Hf. unfold fits in Hf. unfold zero_extend. cbv zeta.
  pose proof H2 as (U & E & B). cbn [b_size with_size b_bits].
  assert (EL : zlen (l ++ repeat false (Z.to_nat n)) = zlen l + n)
    by (rewrite zlen_app, zlen_repeat; lia).
  set (N := words_for (b_size b + n)).
  assert (EN : N = (zlen l + n + 63) / 64) by (unfold N, words_for, ceil_div; rewrite H1; f_equal; lia).
  pose proof (zlen_nonneg l).
  rewrite u64_small by (clear - E EN Hn Hf H; dlia).
  assert (Z0 : forall p, zbit (l ++ repeat false (Z.to_nat n)) p = zbit l p).
  { intros p. rewrite zbit_app, zbit_repeat, andb_false_r. destruct (Z.ltb_spec p (zlen l)); auto.
    symmetry; apply zbit_out; lia. }
  destruct (Z.eqb_spec (N - zlen (b_bits b)) 0) as [Z|Z].
  - eexists; split; [reflexivity|]. split; [|split; [|split]]; cbn; auto; try lia.
    + apply words_ok_intro; auto; [lia|]. intros. rewrite Z0. apply B; lia.
    + intros Hm. apply H3. clear - Hm Z EN E EL H Hn. dlia.
  - eexists; split; [reflexivity|].
    replace (zlen (b_bits b) + (N - zlen (b_bits b))) with N by lia.
    apply binv_back.
    + rewrite v_grow_size. cbn. lia.
    + rewrite v_grow_bits. cbn. apply words_ok_intro.
      * apply Forall_app; split; auto. apply Forall_repeat. unfold is_u64; lia.
      * rewrite zlen_app, zlen_repeat, EL. clear - E EN H Hn. dlia.
      * intros k i Hk Hi. rewrite Z0, W_app, W_repeat0. destruct (Z.ltb_spec k (zlen (b_bits b))) as [G|G].
        -- apply B; lia.
        -- rewrite Z.testbit_0_l. symmetry. apply zbit_out. right. clear - E G Hi. dlia.
    + apply v_grow_cap. cbn. clear - E EN H Hn. dlia.
Qed.

Lemma bits_of_ones n : (n <= 64)%nat -> bits_of n (Z.shiftr (2 ^ 64 - 1) (64 - Z.of_nat n)) = repeat true n.
Proof.
  intros H. apply zbit_ext; [rewrite zlen_bits_of, zlen_repeat; auto|].
  rewrite zlen_bits_of. intros p Hp. rewrite zbit_bits_of, zbit_repeat, Z.shiftr_spec, testbit_max by lia.
  replace (p <? Z.of_nat n) with true by lia. replace (0 <=? p) with true by lia.
  replace (p + (64 - Z.of_nat n) <? 64) with true by lia. reflexivity.
Qed.

Lemma one_extend_loop_ok gr fuel : forall b l n, binv b l -> 0 <= n -> n / 64 <= Z.of_nat fuel ->
  exists b', one_extend_loop gr fuel b n = Ok (b', n mod 64) /\
             binv b' (l ++ repeat true (Z.to_nat (n - n mod 64))).
Proof.
  induction fuel as [|fuel IH]; intros b l n H Hn Hf; cbn [one_extend_loop].
  - replace (64 <=? n) with false by dlia. exists b. rewrite Z.mod_small by dlia.
    rewrite Z.sub_diag. cbn [Z.to_nat repeat]. rewrite app_nil_r. auto.
  - destruct (Z.leb_spec 64 n).
    + destruct (append_bits_ok gr b l (2 ^ 64 - 1) 64 H ltac:(lia) ltac:(lia)) as (b1 & E1 & I1).
      rewrite E1. cbn [bind].
      destruct (IH b1 _ (n - 64) I1 ltac:(lia) ltac:(dlia)) as (b2 & E2 & I2).
      exists b2. rewrite E2. split; [do 2 f_equal; dlia|].
      rewrite <- app_assoc in I2. pose proof (bits_of_ones 64 ltac:(lia)) as O.
      change (Z.shiftr (2 ^ 64 - 1) (64 - Z.of_nat 64)) with (2 ^ 64 - 1) in O.
      change (Z.to_nat 64) with 64%nat in I2. rewrite O in I2.
      replace (Z.to_nat (n - n mod 64)) with (64 + Z.to_nat (n - 64 - (n - 64) mod 64))%nat by dlia.
      rewrite repeat_app. exact I2.
    + exists b. rewrite Z.mod_small by lia. rewrite Z.sub_diag. cbn [Z.to_nat repeat].
      rewrite app_nil_r. auto.
Qed.

Lemma one_extend_ok gr b l n : binv b l -> 0 <= n ->
  exists b', one_extend gr b n = Ok b' /\ binv b' (l ++ repeat true (Z.to_nat n)).
Proof.
  intros H Hn. unfold one_extend.
  destruct (one_extend_loop_ok gr (Z.to_nat (n / 64)) b l n H Hn ltac:(dlia)) as (b1 & E1 & I1).
  rewrite E1. cbn [bind]. assert (Hm : 0 <= n mod 64 < 64) by (apply Z.mod_pos_bound; lia).
  destruct (Z.eqb_spec (n mod 64) 0) as [E|E].
  - exists b1. split; auto. rewrite E, Z.sub_0_r in I1. auto.
  - rewrite shr_ok by lia. cbn [bind].
    set (x := Z.shiftr _ _).
    assert (Rx : 0 <= x < 2 ^ (n mod 64)).
    { unfold x. apply shiftr_range; try lia. replace (n mod 64 + (64 - n mod 64)) with 64 by lia. lia. }
    destruct (append_bits_ok gr b1 _ x (n mod 64) I1 ltac:(lia) Rx) as (b2 & E2 & I2).
    exists b2. split; auto. rewrite <- app_assoc in I2.
    pose proof (bits_of_ones (Z.to_nat (n mod 64)) ltac:(lia)) as O. rewrite Z2Nat.id in O by lia.
    fold x in O. rewrite O in I2. rewrite <- repeat_app in I2.
    replace (Z.to_nat (n - n mod 64) + Z.to_nat (n mod 64))%nat with (Z.to_nat n) in I2 by dlia. auto.
Qed.

(** ** append *)
Lemma append_loop_ok s : 0 < s < 64 -> forall rhs ws cur,
  Forall is_u64 ws -> Forall is_u64 rhs -> 0 <= cur -> cur + zlen rhs < zlen ws ->
  (forall k, cur < k -> W ws k = 0) ->
  exists ws', append_loop ws cur s rhs = Ok (ws', cur + zlen rhs) /\
    Forall is_u64 ws' /\ zlen ws' = zlen ws /\
    (forall k, cur + zlen rhs < k -> W ws' k = 0) /\
    forall k i, 0 <= k < zlen ws -> 0 <= i < 64 ->
      Z.testbit (W ws' k) i = Z.testbit (W ws k) i || wb rhs (64 * (k - cur) + i - s).
Proof.
  intros Hs. induction rhs as [|w rhs IH]; intros ws cur U Ur Hc Hl Hz; cbn [append_loop].
  - exists ws. change (zlen (@nil Z)) with 0. rewrite Z.add_0_r. repeat split; auto.
    intros. rewrite wb_nil, orb_false_r. auto.
  - rewrite zlen_cons in *. pose proof (zlen_nonneg rhs). inversion Ur as [|? ? Uw Ur']; subst.
    rewrite shl_ok by lia. cbn [bind]. rewrite mod_word_ok by lia. cbn [bind].
    rewrite shr_ok by lia. cbn [bind]. rewrite wr_ok by (rewrite zlen_upd; lia). cbn [bind].
    set (ws1 := upd (upd _ _ _) _ _).
    assert (L1 : zlen ws1 = zlen ws) by (unfold ws1; rewrite !zlen_upd; auto).
    assert (W1 : forall k, W ws1 k = if k =? cur + 1 then Z.shiftr w (64 - s)
       else if k =? cur then Z.lor (W ws cur) (u64 (Z.shiftl w s)) else W ws k).
    { intros k. unfold ws1. rewrite W_upd by (rewrite zlen_upd; lia). rewrite W_upd by lia. auto. }
    destruct (IH ws1 (cur + 1)) as (ws' & E & U' & L' & Z' & B'); auto; try lia.
    { unfold ws1. repeat apply Forall_upd; auto with u64s. apply shiftr_is; auto; lia. }
    { intros k Hk. rewrite W1. replace (k =? cur + 1) with false by lia.
      replace (k =? cur) with false by lia. apply Hz; lia. }
    exists ws'. rewrite E. split; [do 2 f_equal; lia|]. split; [auto|]. split; [lia|].
    split; [intros; apply Z'; lia|].
    intros k i Hk Hi. rewrite B' by lia. rewrite W1, wb_cons.
    destruct (Z.eqb_spec k (cur + 1)) as [->|N1].
    + rewrite Hz, Z.testbit_0_l by lia. cbn [orb]. rewrite Z.shiftr_spec by lia.
      replace (64 * (cur + 1 - (cur + 1)) + i - s) with (i - s) by lia.
      replace (64 * (cur + 1 - cur) + i - s) with (i + (64 - s)) by lia.
      destruct (Z.ltb_spec (i + (64 - s)) 64).
      * rewrite wb_neg by lia. apply orb_false_r.
      * rewrite testbit_high64 by (auto; lia). cbn [orb]. f_equal. lia.
    + destruct (Z.eqb_spec k cur) as [->|N2].
      * rewrite Z.lor_spec, testbit_shl64 by lia.
        replace (64 * (cur - cur) + i - s) with (i - s) by lia.
        replace (i - s <? 64) with true by lia. rewrite wb_neg by lia. apply orb_false_r.
      * destruct (Z.lt_ge_cases k cur).
        -- rewrite wb_neg by lia. replace (64 * (k - cur) + i - s <? 64) with true by lia.
           rewrite (Z.testbit_neg_r w) by lia. auto.
        -- replace (64 * (k - cur) + i - s <? 64) with false by lia. do 2 f_equal. lia.
Qed.

Lemma wb_app ws vs q : wb (ws ++ vs) q =
  if q <? 64 * zlen ws then wb ws q else wb vs (q - 64 * zlen ws).
Proof.
  revert q; induction ws as [|w ws IH]; intros q.
  - cbn [app]. change (zlen (@nil Z)) with 0. destruct (Z.ltb_spec q (64 * 0)).
    + rewrite !wb_neg by lia. auto.
    + f_equal. lia.
  - cbn [app]. rewrite !wb_cons, IH, zlen_cons. pose proof (zlen_nonneg ws).
    destruct (Z.ltb_spec q 64).
    + replace (q <? 64 * (zlen ws + 1)) with true by lia. auto.
    + replace (q - 64 <? 64 * zlen ws) with (q <? 64 * (zlen ws + 1)) by lia.
      destruct (q <? 64 * (zlen ws + 1)); auto. f_equal. lia.
Qed.

Lemma append_ok gr b l c r : binv b l -> binv c r ->
  exists b', append gr b c = Ok b' /\ binv b' (l ++ r).
Proof.
  intros H G. pose proof H as (H1 & H2 & Hc & H3). pose proof G as (G1 & G2 & _).
  unfold append. destruct (Z.eqb_spec (b_size c) 0) as [E0|E0].
  { exists b. split; auto. destruct r; [|rewrite G1, zlen_cons in E0; pose proof (zlen_nonneg r); lia].
    rewrite app_nil_r. auto. }
  cbv zeta. cbn [b_size with_size b_bits].
  pose proof H2 as (U & E & B). pose proof G2 as (Ur & Er & Br).
  pose proof (zlen_nonneg l) as H0. pose proof (zlen_nonneg r) as H4.
  set (pos := zlen (b_bits b)) in *. set (s := b_size b mod 64).
  assert (Es : s = zlen l mod 64) by (unfold s; rewrite H1; auto).
  set (n := words_for (b_size b + b_size c)).
  assert (En : n = (zlen l + zlen r + 63) / 64)
    by (unfold n, words_for, ceil_div; rewrite H1, G1; f_equal; lia).
  assert (Hn : pos <= n) by (clear - En E H4; dlia).
  replace (n <? pos) with false by lia.
  set (b1 := v_grow gr (with_size b (b_size b + b_size c)) n).
  assert (W1 : b_bits b1 = b_bits b ++ repeat 0 (Z.to_nat (n - pos)))
    by (unfold b1; rewrite v_grow_bits; auto).
  assert (L1 : zlen (b_bits b1) = n) by (rewrite W1, zlen_app, zlen_repeat; fold pos; lia).
  assert (S1 : b_size b1 = zlen (l ++ r))
    by (unfold b1; rewrite v_grow_size, zlen_app; cbn; lia).
  assert (C1 : zlen (b_bits b1) <= b_cap b1) by (apply v_grow_cap; cbn; auto).
  destruct (Z.eqb_spec s 0) as [Zs|Zs].
  - replace (pos + zlen (b_bits c) <=? zlen (b_bits b1)) with true
      by (rewrite L1; clear - En E Er Es Zs H4 H0; dlia).
    eexists; split; [reflexivity|].
    assert (En' : n = pos + zlen (b_bits c)) by (clear - En E Er Es Zs H4 H0; dlia).
    assert (EW : firstn (Z.to_nat pos) (b_bits b1) ++ b_bits c ++
                 skipn (Z.to_nat (pos + zlen (b_bits c))) (b_bits b1) = b_bits b ++ b_bits c).
    { rewrite W1. f_equal.
      - unfold pos, zlen. rewrite Nat2Z.id, firstn_app, Nat.sub_diag, firstn_all, firstn_O, app_nil_r.
        auto.
      - rewrite skipn_all2; [apply app_nil_r|]. rewrite <- W1.
        unfold zlen in L1, En'. unfold zlen. lia. }
    rewrite EW. apply binv_back.
    + auto.
    + cbn. apply words_ok_intro.
      * apply Forall_app; auto.
      * rewrite !zlen_app. fold pos. rewrite <- En', En. auto.
      * intros k i Hk Hi. rewrite W_app, zbit_app. fold pos.
        destruct (Z.ltb_spec k pos) as [H5|H5].
        -- rewrite B by lia. replace (64 * k + i <? zlen l) with true; auto.
           clear - E Es Zs H0 H5 Hi. dlia.
        -- rewrite Br by lia. replace (64 * k + i <? zlen l) with false by (clear - E Es Zs H0 H5 Hi; dlia).
           f_equal. clear - E Es Zs H0. dlia.
    + cbn. rewrite zlen_app. fold pos. lia.
  - assert (Rs : 0 < s < 64) by (clear - Es Zs; dlia).
    assert (El : zlen l = 64 * (pos - 1) + s) by (clear - Es Zs E; dlia).
    assert (Hr : 0 < zlen (b_bits c)) by (rewrite Er; rewrite G1 in E0; clear - E0 H4; dlia).
    destruct (exists_last (l := b_bits c)) as (cs & w & Ec).
    { intros C. rewrite C in Hr. change (zlen (@nil Z)) with 0 in Hr. lia. }
    rewrite W_rd by lia. cbn [bind].
    assert (Ew : W (b_bits c) (zlen (b_bits c) - 1) = w).
    { rewrite Ec, W_app, zlen_app, zlen_cons. change (zlen (@nil Z)) with 0.
      replace (zlen cs + (0 + 1) - 1 <? zlen cs) with false by lia.
      rewrite W_single. replace (zlen cs + (0 + 1) - 1 - zlen cs =? 0) with true by lia. auto. }
    rewrite Ew. rewrite Ec, removelast_last.
    assert (Lc : zlen (b_bits c) = zlen cs + 1).
    { rewrite Ec, zlen_app, zlen_cons. change (zlen (@nil Z)) with 0. lia. }
    pose proof (zlen_nonneg cs).
    assert (Ucs : Forall is_u64 cs /\ is_u64 w).
    { rewrite Ec in Ur. apply Forall_app in Ur. destruct Ur as [? Uw]. inversion Uw; auto. }
    destruct Ucs as [Ucs Uw].
    assert (U1 : Forall is_u64 (b_bits b1)).
    { rewrite W1. apply Forall_app; split; auto. apply Forall_repeat. unfold is_u64; lia. }
    assert (Hpos : 0 < pos) by (eapply words_ok_pos; eauto; lia).
    assert (Nlo : pos + zlen cs <= n) by (clear - En El Er Lc Rs H0 H4; dlia).
    assert (Nhi : n <= pos + zlen cs + 1) by (clear - En El Er Lc Rs H0 H4; dlia).
    assert (Zh : forall k, pos - 1 < k -> W (b_bits b1) k = 0).
    { intros k Hk. rewrite W1, W_app, W_repeat0. fold pos. replace (k <? pos) with false by lia. auto. }
    destruct (append_loop_ok s Rs cs (b_bits b1) (pos - 1) U1 Ucs ltac:(lia) ltac:(lia) Zh)
      as (ws2 & E2 & U2 & L2 & Z2 & B2).
    rewrite E2. cbn [bind]. rewrite shl_ok by lia. cbn [bind].
    set (cur := pos - 1 + zlen cs) in *.
    rewrite mod_word_ok by lia. cbn [bind].
    (* the result, as a function of the position *)
    assert (Bl : forall k i, 0 <= k < n -> 0 <= i < 64 ->
       zbit (l ++ r) (64 * k + i) =
       Z.testbit (W (b_bits b1) k) i || wb cs (64 * (k - (pos - 1)) + i - s)
       || (if 64 * (k - cur) + i - s <? 0 then false else Z.testbit w (64 * (k - cur) + i - s))).
    { intros k i Hk Hi. rewrite zbit_app. rewrite W1, W_app, W_repeat0. fold pos.
      assert (Q : 64 * (k - (pos - 1)) + i - s = 64 * k + i - zlen l) by lia. rewrite Q.
      destruct (Z.ltb_spec (64 * k + i) (zlen l)).
      - replace (k <? pos) with true by lia. rewrite B by lia.
        rewrite wb_neg by lia. replace (64 * (k - cur) + i - s <? 0) with true by lia.
        rewrite !orb_false_r. auto.
      - replace (Z.testbit (if k <? pos then W (b_bits b) k else 0) i) with false.
        2:{ destruct (k <? pos); [|rewrite Z.testbit_0_l; auto].
            rewrite B by lia. symmetry. apply zbit_out; lia. }
        cbn [orb]. rewrite <- (wb_ok (b_bits c) r) by auto. rewrite Ec, wb_app.
        destruct (Z.ltb_spec (64 * k + i - zlen l) (64 * zlen cs)).
        + replace (64 * (k - cur) + i - s <? 0) with true by lia. rewrite orb_false_r. auto.
        + replace (64 * (k - cur) + i - s <? 0) with false by lia.
          replace (wb cs (64 * k + i - zlen l)) with false.
          2:{ symmetry. apply wb_out. lia. }
          cbn [orb]. rewrite wb_cons, wb_nil.
          replace (64 * k + i - zlen l - 64 * zlen cs) with (64 * (k - cur) + i - s) by lia.
          destruct (Z.ltb_spec (64 * (k - cur) + i - s) 64); auto.
          symmetry. apply testbit_high64; auto. }
    set (ws3 := upd ws2 (Z.to_nat cur) (Z.lor (W ws2 cur) (u64 (Z.shiftl w s)))).
    assert (L3 : zlen ws3 = n) by (unfold ws3; rewrite zlen_upd; lia).
    assert (B3 : forall k, W ws3 k = if k =? cur then Z.lor (W ws2 cur) (u64 (Z.shiftl w s)) else W ws2 k)
      by (intros; unfold ws3; rewrite W_upd by lia; auto).
    assert (U3 : Forall is_u64 ws3) by (unfold ws3; apply Forall_upd; auto with u64s).
    destruct (Z.ltb_spec cur (zlen ws3 - 1)) as [C|C].
    + rewrite shr_ok by lia. cbn [bind]. rewrite wr_ok by lia. cbn [bind].
      eexists; split; [reflexivity|]. apply binv_back.
      * auto.
      * cbn. apply words_ok_intro.
        -- apply Forall_upd; auto. apply shiftr_is; auto; lia.
        -- rewrite zlen_upd, L3, En, zlen_app. auto.
        -- intros k i Hk Hi. rewrite zlen_upd in Hk. rewrite W_upd, B3 by lia. rewrite Bl by lia.
           destruct (Z.eqb_spec k (cur + 1)) as [->|N1].
           ++ rewrite Zh, Z.testbit_0_l by lia. cbn [orb].
              replace (wb cs (64 * (cur + 1 - (pos - 1)) + i - s)) with false.
              2:{ symmetry. apply wb_out. lia. }
              cbn [orb]. rewrite Z.shiftr_spec by lia.
              replace (64 * (cur + 1 - cur) + i - s) with (i + (64 - s)) by lia.
              replace (i + (64 - s) <? 0) with false by lia. auto.
           ++ destruct (Z.eqb_spec k cur) as [->|N2].
              ** rewrite Z.lor_spec, testbit_shl64, B2 by lia. f_equal.
                 replace (64 * (cur - cur) + i - s) with (i - s) by lia.
                 destruct (Z.ltb_spec (i - s) 0); auto. apply Z.testbit_neg_r; auto.
              ** rewrite B2 by lia. destruct (Z.ltb_spec (64 * (k - cur) + i - s) 0).
                 --- rewrite orb_false_r; auto.
                 --- rewrite (testbit_high64 w) by (auto; lia). rewrite orb_false_r; auto.
      * cbn. rewrite zlen_upd. lia.
    + eexists; split; [reflexivity|]. apply binv_back.
      * auto.
      * cbn. apply words_ok_intro; auto.
        -- rewrite L3, En, zlen_app. auto.
        -- intros k i Hk Hi. rewrite B3. rewrite Bl by lia.
           destruct (Z.eqb_spec k cur) as [->|N2].
           ** rewrite Z.lor_spec, testbit_shl64, B2 by lia. f_equal.
              replace (64 * (cur - cur) + i - s) with (i - s) by lia.
              destruct (Z.ltb_spec (i - s) 0); auto. apply Z.testbit_neg_r; auto.
           ** rewrite B2 by lia. replace (64 * (k - cur) + i - s <? 0) with true by lia.
              rewrite orb_false_r; auto.
      * cbn. lia.
Qed.

(** ** reverse *)
Lemma reverse_loop_ok s : 0 < s < 64 -> forall ws r, Forall is_u64 ws -> 0 <= r < 2 ^ s ->
  exists ws', reverse_loop s r ws =
      Ok (ws', if zlen ws =? 0 then r else Z.shiftr (W ws (zlen ws - 1)) (64 - s)) /\
    Forall is_u64 ws' /\ zlen ws' = zlen ws /\
    forall k i, 0 <= k < zlen ws -> 0 <= i < 64 -> Z.testbit (W ws' k) i =
      if 64 * k + (63 - i) <? s then Z.testbit r (63 - i) else wb ws (64 * k + (63 - i) - s).
Proof.
  intros Hs. induction ws as [|w ws IH]; intros r U Hr; cbn [reverse_loop].
  - exists []. repeat split; auto. intros k i Hk. change (zlen (@nil Z)) with 0 in Hk. lia.
  - inversion U as [|? ? Uw U']; subst. replace (s =? 64) with false by lia.
    rewrite shl_ok by lia. cbn [bind]. rewrite shr_ok by lia. cbn [bind].
    assert (Rw : 0 <= Z.shiftr w (64 - s) < 2 ^ s).
    { apply shiftr_range; try lia. replace (s + (64 - s)) with 64 by lia. exact Uw. }
    assert (Ur : is_u64 r) by (apply (u64_bits r s); lia).
    destruct (IH _ U' Rw) as (ws' & E & U1 & L1 & B1). rewrite E. cbn [bind].
    assert (Uc : is_u64 (Z.lor r (u64 (Z.shiftl w s)))) by auto with u64s.
    pose proof (zlen_nonneg ws).
    eexists; split; [|split; [|split]].
    + f_equal. f_equal. rewrite zlen_cons. replace (zlen ws + 1 =? 0) with false by lia.
      rewrite W_cons. destruct (Z.eqb_spec (zlen ws) 0) as [Z0|Z0].
      * rewrite Z0. reflexivity.
      * replace (zlen ws + 1 - 1 =? 0) with false by lia. do 2 f_equal. lia.
    + constructor; auto. apply reverse_bits_range; auto.
    + rewrite !zlen_cons. lia.
    + intros k i Hk Hi. rewrite zlen_cons in Hk. rewrite W_cons, wb_cons.
      destruct (Z.eqb_spec k 0) as [->|Hk0].
      * rewrite reverse_bits_bit by auto. rewrite Z.lor_spec, testbit_shl64 by lia.
        replace (64 * 0 + (63 - i)) with (63 - i) by lia.
        replace (63 - i - s <? 64) with true by lia.
        destruct (Z.ltb_spec (63 - i) s).
        -- rewrite (Z.testbit_neg_r w) by lia. apply orb_false_r.
        -- rewrite (testbit_high r s) by lia. reflexivity.
      * rewrite B1 by lia. replace (64 * k + (63 - i) <? s) with false by lia.
        replace (64 * k + (63 - i) - s <? 64) with (64 * (k - 1) + (63 - i) <? s) by lia.
        destruct (Z.ltb_spec (64 * (k - 1) + (63 - i)) s).
        -- rewrite Z.shiftr_spec by lia. f_equal. lia.
        -- f_equal. lia.
Qed.

Lemma reverse_loop_64 ws r : Forall is_u64 ws ->
  reverse_loop 64 r ws = Ok (map reverse_bits ws, r).
Proof.
  induction 1; cbn [reverse_loop]; auto. change (64 =? 64) with true. cbn [bind].
  rewrite IHForall. reflexivity.
Qed.

Lemma reverse_ok b l : binv b l -> exists b', reverse b = Ok b' /\ binv b' (rev l).
Proof.
  intros H. pose proof H as (H1 & H2 & _). pose proof H2 as (U & E & B). unfold reverse.
  rewrite H1. pose proof (zlen_nonneg l) as H0.
  destruct (Z.eq_dec (zlen l mod 64) 0) as [Z|Z].
  - rewrite Z. change (64 - 0) with 64. rewrite reverse_loop_64 by auto. cbn [bind].
    rewrite assert_true by auto. eexists; split; [reflexivity|].
    eapply binv_with_bits; eauto; [|apply zlen_rev].
    assert (L : zlen l = 64 * zlen (b_bits b)) by (clear - E Z; dlia).
    apply words_ok_intro.
    + apply Forall_rev. apply Forall_forall. intros x Hx. apply in_map_iff in Hx.
      destruct Hx as (w & <- & Hw). apply reverse_bits_range.
      rewrite Forall_forall in U. auto.
    + rewrite !zlen_rev, zlen_map. auto.
    + intros k i Hk Hi. rewrite zlen_rev, zlen_map in Hk.
      rewrite W_rev by (rewrite zlen_map; auto). rewrite zlen_map.
      rewrite zbit_rev by lia.
      assert (M : forall j, 0 <= j < zlen (b_bits b) ->
                W (map reverse_bits (b_bits b)) j = reverse_bits (W (b_bits b) j)).
      { intros j Hj. unfold W. replace (j <? 0) with false by lia.
        rewrite nth_indep with (d' := reverse_bits 0) by (rewrite map_length; unfold zlen in Hj; lia).
        apply map_nth. }
      rewrite M by lia. rewrite reverse_bits_bit by (auto with u64s).
      rewrite B by lia. f_equal. lia.
  - set (s := 64 - zlen l mod 64). assert (Rs : 0 < s < 64) by (unfold s; clear - Z; dlia).
    destruct (reverse_loop_ok s Rs (b_bits b) 0 U ltac:(lia)) as (ws & Er & Ur & Lr & Br).
    rewrite Er. cbn [bind].
    assert (Hp : 0 < zlen (b_bits b)) by (eapply words_ok_pos; eauto).
    assert (L : zlen l = 64 * zlen (b_bits b) - s) by (unfold s; clear - E Z; dlia).
    rewrite assert_true.
    2:{ replace (zlen (b_bits b) =? 0) with false by lia. apply Z.eqb_eq.
        apply bits_inj64; [apply shiftr_is; auto with u64s; lia|lia|].
        intros i Hi. rewrite Z.shiftr_spec, Z.testbit_0_l by lia.
        destruct (Z.lt_ge_cases (i + (64 - s)) 64).
        - rewrite B by lia. apply zbit_out. lia.
        - apply testbit_high64; auto. apply W_range; auto. }
    eexists; split; [reflexivity|].
    eapply binv_with_bits; eauto; [|apply zlen_rev]. apply words_ok_intro.
    + apply Forall_rev; auto.
    + rewrite !zlen_rev, Lr. auto.
    + intros k i Hk Hi. rewrite zlen_rev in Hk. rewrite W_rev by auto.
      rewrite Br by lia. rewrite Z.testbit_0_l, (wb_ok _ l) by auto.
      replace (64 * (zlen ws - 1 - k) + (63 - i) - s) with (zlen l - 1 - (64 * k + i)) by lia.
      destruct (Z.lt_ge_cases (64 * k + i) (zlen l)).
      * rewrite zbit_rev by lia. replace (64 * (zlen ws - 1 - k) + (63 - i) <? s) with false by lia. auto.
      * rewrite (zbit_out (rev l)) by (rewrite zlen_rev; lia).
        rewrite zbit_out by lia. destruct (_ <? s); auto.
Qed.

(** ** call histories *)
Definition sinv (st : nat -> builder) (s : nat -> list bool) : Prop := forall i, binv (st i) (s i).

Lemma sinv_put st s i b l : sinv st s -> binv b l -> sinv (put st i b) (put s i l).
Proof. intros H Hb j. unfold put. destruct (Nat.eqb j i); auto. Qed.

Lemma builder_swap_ok x y : builder_swap x y = (y, x).
Proof. destruct x, y. reflexivity. Qed.

Lemma step_ok gr st s o : sinv st s -> legal s o ->
  exists st', step gr st o = Ok st' /\ sinv st' (spec_step s o).
Proof.
  intros H L. destruct o; cbn [step spec_step legal] in *.
  - destruct L as [L _]. destruct (new_builder_ok size init L) as (b & -> & I). cbn [bind].
    eexists; split; [reflexivity|]. apply sinv_put; auto.
  - eexists; split; [reflexivity|]. intros j. unfold put. destruct (Nat.eqb_spec j i) as [->|]; auto.
    apply reserve_ok; auto.
  - destruct (push_back_ok gr _ _ b (H i)) as (b1 & -> & I). cbn [bind].
    eexists; split; [reflexivity|]. apply sinv_put; auto.
  - destruct (bset_ok _ _ pos b (H i) L) as (b1 & -> & I). cbn [bind].
    eexists; split; [reflexivity|]. apply sinv_put; auto.
  - destruct L as (L1 & L2 & L3 & L4).
    destruct (set_bits_ok _ _ pos bits len (H i) L1 L2 L3 L4) as (b1 & -> & I). cbn [bind].
    eexists; split; [reflexivity|]. apply sinv_put; auto.
  - destruct L as (L1 & L2 & _).
    destruct (append_bits_ok gr _ _ bits len (H i) L1 L2) as (b1 & -> & I). cbn [bind].
    eexists; split; [reflexivity|]. apply sinv_put; auto.
  - destruct L as (L1 & L2).
    destruct (zero_extend_ok gr _ _ n (H i) L1 L2) as (b1 & -> & I). cbn [bind].
    eexists; split; [reflexivity|]. apply sinv_put; auto.
  - destruct L as (L1 & _).
    destruct (one_extend_ok gr _ _ n (H i) L1) as (b1 & -> & I). cbn [bind].
    eexists; split; [reflexivity|]. apply sinv_put; auto.
  - destruct (append_ok gr _ _ _ _ (H i) (H j)) as (b1 & -> & I). cbn [bind].
    eexists; split; [reflexivity|]. apply sinv_put; auto.
  - destruct (reverse_ok _ _ (H i)) as (b1 & -> & I). cbn [bind].
    eexists; split; [reflexivity|]. apply sinv_put; auto.
  - rewrite builder_swap_ok. eexists; split; [reflexivity|]. repeat apply sinv_put; auto.
Qed.

Lemma sinv0 : sinv builders0 seqs0.
Proof.
  intros i. split; [reflexivity|]. split; [apply words_ok_nil|]. split; [reflexivity|].
  intros C. exfalso. apply C. reflexivity.
Qed.

Lemma run_ok gr os : forall st s, sinv st s -> legal_run s os ->
  exists st', run gr st os = Ok st' /\ sinv st' (spec_run s os).
Proof.
  induction os as [|o os IH]; intros st s H L; cbn [run spec_run legal_run] in *; [eauto|].
  destruct L as [L1 L2]. destruct (step_ok gr st s o H L1) as (st1 & -> & H1). cbn [bind]. eauto.
Qed.

Theorem builder_history gr os : legal_run seqs0 os ->
  exists st, run gr builders0 os = Ok st /\
    forall i, bv_of_builder (st i) = Ok (canonical (spec_run seqs0 os i)).
Proof.
  intros L. destruct (run_ok gr os _ _ sinv0 L) as (st & E & H). exists st. split; auto.
  intros i. apply binv_bv. auto.
Qed.
