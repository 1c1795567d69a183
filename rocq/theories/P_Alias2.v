(** Appending a builder of 33 to 63 bits to itself. *)
From Verif Require Import Base Spec Lib M_BitVector S_BitVector P_BvLib P_Builder P_BitVector P_BvProps M_Alias.

(** the bits the call leaves behind the end *)
Definition stray (l : list bool) : list bool :=
  let n := (64 - length l)%nat in firstn n (skipn n l ++ repeat false n).
Lemma zlen_stray l : 32 < zlen l < 64 -> zlen (stray l) = 64 - zlen l.
Proof.
  intros H. unfold stray. unfold zlen in *. rewrite firstn_length, app_length, skipn_length, repeat_length. lia.
Qed.

Lemma rd2_0 (a b : Z) : rd [a; b] 0 = Ok a. Proof. reflexivity. Qed.
Lemma rd2_1 (a b : Z) : rd [a; b] 1 = Ok b. Proof. reflexivity. Qed.
Lemma wr2_1 (a b x : Z) : wr [a; b] 1 x = Ok [a; x]. Proof. reflexivity. Qed.
Lemma mod2_0 a b f : mod_word [a; b] 0 f = Ok [f a; b]. Proof. reflexivity. Qed.
Lemma mod2_1 a b f : mod_word [a; b] 1 f = Ok [a; f b]. Proof. reflexivity. Qed.

Lemma append_self_mid gr b l : binv b l -> 32 < zlen l < 64 -> exists b', append_self gr b = Ok b' /\
  b_size b' = 2 * zlen l /\ words_ok (b_bits b') (l ++ l ++ repeat false (64 - length l) ++ stray l).
Proof.
  intros (H1 & HW & Hc & _) Hl. pose proof HW as (U & E & HB). unfold append_self. rewrite H1.
  replace (zlen l =? 0) with false by lia. cbv zeta. cbn [b_size with_size b_bits].
  assert (P : zlen (b_bits b) = 1) by (clear - E Hl; dlia). rewrite P.
  replace (words_for (zlen l + zlen l)) with 2 by (unfold words_for, ceil_div; clear - Hl; dlia).
  replace (2 <? 1) with false by lia. rewrite v_grow_bits. cbn [b_bits with_size].
  replace (zlen l mod 64) with (zlen l) by (clear - Hl; dlia). replace (zlen l =? 0) with false by lia.
  destruct (b_bits b) as [|w [|v ws]] eqn:Eb; [discriminate P| |rewrite !zlen_cons in P; pose proof (zlen_nonneg ws); lia].
  change (Z.to_nat (2 - zlen [w])) with 1%nat. cbn [repeat app]. change (Z.to_nat (zlen [w; 0] - 1)) with 1%nat.
  change (1 - 1) with 0. cbn [append_self_loop]. rewrite rd2_0. cbn [bind].
  rewrite shl_ok by lia. cbn [bind]. rewrite mod2_0. cbn [bind].
  rewrite shr_ok by lia. cbn [bind]. change (0 + 1) with 1. rewrite wr2_1. cbn [bind].
  set (w0 := Z.lor w (u64 (Z.shiftl w (zlen l)))). set (y := Z.shiftr w (64 - zlen l)).
  change (zlen [w0; y] - 1) with 1. rewrite rd2_1. cbn [bind].
  rewrite shl_ok by lia. cbn [bind]. rewrite mod2_1. cbn [bind].
  set (w1 := Z.lor y (u64 (Z.shiftl y (zlen l)))). change (1 <? zlen [w0; w1] - 1) with false. cbv iota.
  eexists. split; [reflexivity|]. unfold set_cur_back. cbn [b_size b_bits with_bits with_size].
  rewrite v_grow_size. cbn [b_size with_size]. split; [lia|].
  assert (Uw : is_u64 w) by (inversion U; auto). assert (Uy : is_u64 y) by (apply shiftr_is; auto; lia).
  assert (Bw : forall i, 0 <= i -> Z.testbit w i = zbit l i).
  { intros i Hi. destruct (Z.lt_ge_cases i 64).
    - apply (HB 0 i); lia.
    - rewrite zbit_out by lia. apply testbit_high64; auto. }
  assert (By : forall i, 0 <= i -> Z.testbit y i = zbit l (i + (64 - zlen l))).
  { intros i Hi. unfold y. rewrite Z.shiftr_spec by lia. apply Bw. lia. }
  pose proof (zlen_stray l Hl) as Zs.
  assert (Zr : zlen (repeat false (64 - length l)) = 64 - zlen l) by (rewrite zlen_repeat; unfold zlen in *; lia).
  assert (L64 : Z.of_nat (64 - length l) = 64 - zlen l) by (unfold zlen in *; lia).
  apply words_ok_intro.
  - constructor; [apply lor_is; auto; apply u64_is|]. constructor; [apply lor_is; auto; apply u64_is|constructor].
  - rewrite !zlen_app, Zr, Zs. change (zlen [w0; w1]) with 2. clear; dlia.
  - intros k i Hk Hi. change (zlen [w0; w1]) with 2 in Hk. rewrite !zbit_app, zbit_repeat, andb_false_r, Zr.
    assert (k = 0 \/ k = 1) as [-> | ->] by lia.
    + change (W [w0; w1] 0) with w0. unfold w0. rewrite Z.lor_spec, testbit_shl64, Bw by lia.
      change (64 * 0 + i) with i. destruct (Z.ltb_spec i (zlen l)).
      * rewrite (Z.testbit_neg_r w) by lia. apply orb_false_r.
      * rewrite zbit_out by lia. rewrite Bw by lia. replace (i - zlen l <? zlen l) with true by lia. reflexivity.
    + change (W [w0; w1] 1) with w1. unfold w1. rewrite Z.lor_spec, testbit_shl64, By by lia.
      change (64 * 1 + i) with (64 + i). replace (64 + i <? zlen l) with false by lia.
      destruct (Z.ltb_spec (64 + i - zlen l) (zlen l)).
      * rewrite (Z.testbit_neg_r y) by lia. rewrite orb_false_r. f_equal. lia.
      * rewrite zbit_out by lia. cbn [orb]. destruct (Z.ltb_spec (64 + i - zlen l - zlen l) (64 - zlen l)).
        -- apply Z.testbit_neg_r. lia.
        -- rewrite By by lia. unfold stray. cbv zeta. rewrite zbit_firstn, L64. replace (64 + i - zlen l - zlen l - (64 - zlen l)) with (i - zlen l) by lia.
           replace (i - zlen l <? 64 - zlen l) with true by lia. cbn [andb]. rewrite zbit_app.
           assert (ZS : zlen (skipn (64 - length l) l) = 2 * zlen l - 64) by (unfold zlen in *; rewrite skipn_length; lia).
           rewrite ZS, zbit_repeat, andb_false_r. destruct (Z.ltb_spec (i - zlen l) (2 * zlen l - 64)).
           ++ rewrite zbit_skipn by lia. f_equal. lia.
           ++ apply zbit_out. lia.
Qed.

Lemma append_self_middle gr os st i : legal_run seqs0 os -> run gr builders0 os = Ok st ->
  let l := spec_run seqs0 os i in 32 < zlen l < 64 ->
  exists b bv, append_self gr (st i) = Ok b /\ bv_of_builder b = Ok bv /\ bv_size bv = zlen (l ++ l) /\
  (forall p x, nth_error (l ++ l) p = Some x -> bv_get bv (Z.of_nat p) = Ok x) /\
  bv_words bv = pack (l ++ l ++ repeat false (64 - length l) ++ stray l) /\
  (bv = canonical (l ++ l) <-> Forall (eq false) (stray l)).
Proof.
  intros L R. cbv zeta. set (l := spec_run seqs0 os i). intros Hl.
  destruct (run_ok gr os _ _ sinv0 L) as (st' & R' & I). assert (st' = st) by congruence. subst st'. specialize (I i).
  destruct (append_self_mid gr _ _ I Hl) as (b & E & Sb & Wb). fold l in Wb, Sb.
  set (m := l ++ l ++ repeat false (64 - length l) ++ stray l) in *.
  pose proof (zlen_stray l Hl) as Zs.
  assert (Zr : zlen (repeat false (64 - length l)) = 64 - zlen l) by (rewrite zlen_repeat; unfold zlen in *; lia).
  assert (Zm : zlen m = 128) by (unfold m; rewrite !zlen_app, Zr, Zs; lia).
  pose proof Wb as (_ & Z2 & _). rewrite Zm in Z2. change ((128 + 63) / 64) with 2 in Z2.
  assert (Zll : zlen (l ++ l) = 2 * zlen l) by (rewrite zlen_app; lia).
  exists b, (mk_bv (2 * zlen l) (pack m)). split; auto.
  assert (Pm : b_bits b = pack m) by (apply words_ok_eq; auto).
  split; [|split; [auto|split; [|split; [reflexivity|]]]].
  - unfold bv_of_builder. rewrite Sb, Z2. rewrite assert_true by (unfold words_for, ceil_div; clear - Hl; dlia). rewrite Pm. reflexivity.
  - intros p x Hx.
    assert (Hp : (p < length (l ++ l))%nat) by (apply nth_error_Some; congruence).
    assert (Hm : nth_error m p = Some x) by (unfold m; rewrite app_assoc, nth_error_app1; auto).
    pose proof (bv_get_nth m p x Hm) as G. unfold bv_get in *. cbn [canonical bv_size bv_words] in *. rewrite Zm in G.
    assert (Z.of_nat p < 2 * zlen l) by (unfold zlen in *; rewrite app_length in *; lia).
    replace (Z.of_nat p <? 2 * zlen l) with true by lia. replace (Z.of_nat p <? 128) with true in G by lia. exact G.
  - assert (Q : pack (l ++ l) = pack (l ++ l ++ repeat false (128 - (length l + length l)))).
    { apply words_ok_eq. destruct (words_ok_pack (l ++ l)) as (Q1 & Q2 & Q3). split; [auto|]. split.
      - rewrite Q2. rewrite app_assoc, (zlen_app (l ++ l)), zlen_repeat, Zll. unfold zlen in *. clear - Hl. dlia.
      - intros k j Hk Hj. rewrite Q3 by auto. rewrite app_assoc, (zbit_app (l ++ l)).
        rewrite zbit_repeat, andb_false_r. destruct (Z.ltb_spec (64 * k + j) (zlen (l ++ l))); auto. apply zbit_out. lia. }
    unfold canonical. rewrite Zll, Q. split.
    + intros H. injection H as H. assert (M : m = l ++ l ++ repeat false (128 - (length l + length l))).
      { apply (words_ok_inj (pack m)); [apply words_ok_pack|rewrite H; apply words_ok_pack|].
        rewrite Zm, app_assoc, zlen_app, Zll, zlen_repeat. unfold zlen in *. lia. }
      unfold m in M. apply app_inv_head, app_inv_head in M.
      replace (128 - (length l + length l))%nat with ((64 - length l) + (64 - length l))%nat in M by (unfold zlen in *; lia).
      rewrite repeat_app in M. apply app_inv_head in M. rewrite M. clear. induction (64 - length l)%nat; cbn; constructor; auto.
    + intros H. f_equal. f_equal. unfold m. f_equal. f_equal.
      replace (128 - (length l + length l))%nat with ((64 - length l) + (64 - length l))%nat by (unfold zlen in *; lia).
      rewrite repeat_app. f_equal. replace (64 - length l)%nat with (length (stray l)) by (unfold zlen in *; lia).
      clear - H. induction H as [|x s Hx H IH]; cbn; [reflexivity|]. subst x. f_equal. auto.
Qed.
