(** rank and select of rs_bit_vector. *)
From Verif Require Import Base Spec Lib M_Broadword M_BitVector M_RsBitVector S_BitVector
  P_BvLib P_Broadword P_Broadword2 P_BitVector P_BvRank P_BvEnum P_RsBuild M_Darray P_RsGen.

Definition pinv (l : list bool) (pairs : list Z) : Prop :=
  zlen pairs = 2 * nb l + 2 /\ pairs_ok l pairs (nb l) /\ W pairs (2 * nb l + 1) = 0.

Lemma build_pairs_inv l : exists pairs, build_pairs (pack l) = Ok pairs /\ pinv l pairs.
Proof.
  destruct (build_pairs_ok l) as (p & E & L & P & Wl). exists p. split; auto. split; auto.
  replace (nb l + 1 - 1) with (nb l) in P by lia. auto.
Qed.

Lemma num_blocks_ok l pairs : pinv l pairs -> num_blocks pairs = nb l.
Proof.
  intros (L & _). unfold num_blocks. rewrite L. pose proof (nb_nonneg l).
  replace ((2 * nb l + 2) / 2) with (nb l + 1) by dlia. rewrite sub64_ok by lia. lia.
Qed.

Lemma block_rank_ok neg l pairs b : pinv l pairs -> 0 <= b <= nb l ->
  block_rank_gen neg pairs b = Ok (G neg l (8 * b)).
Proof.
  intros (L & (P1 & P2) & _) Hb. unfold block_rank_gen, block_rank0, block_rank, block_size.
  destruct neg; rewrite W_rd by lia; rewrite (Z.mul_comm b 2), P1 by lia; auto.
  cbn [bind]. pose proof (G_compl l (8 * b) ltac:(lia)) as C. pose proof (G_nonneg true l (8 * b)).
  rewrite sub64_ok by lia. f_equal. lia.
Qed.

(** ** hints *)
Definition hints_ok (neg : bool) (l : list bool) (hints : list Z) (n : Z) : Prop :=
  forall j, 0 <= j < n -> 0 <= W hints j < nb l /\
    G neg l (8 * W hints j) <= 1024 * (j + 1) < G neg l (8 * (W hints j + 1)).

Lemma hints_gen_loop_ok neg l pairs : pinv l pairs -> forall n i hints,
  0 <= i -> Z.of_nat n + i = nb l -> G neg l (8 * i) <= 1024 * (zlen hints + 1) ->
  hints_ok neg l hints (zlen hints) ->
  exists hints', hints_gen_loop neg pairs n i (1024 * (zlen hints + 1)) hints = Ok hints' /\
    hints_ok neg l hints' (zlen hints') /\ G neg l (8 * nb l) <= 1024 * (zlen hints' + 1).
Proof.
  intros P. induction n as [|n IH]; intros i hints Hi Hn Hg Hh; cbn [hints_gen_loop].
  - exists hints. replace i with (nb l) in Hg by lia. auto.
  - rewrite (block_rank_ok neg l) by (auto; lia). cbn [bind].
    pose proof (G_diff neg l (8 * i) (8 * (i + 1)) ltac:(lia)) as D.
    destruct (Z.ltb_spec (1024 * (zlen hints + 1)) (G neg l (8 * (i + 1)))) as [C|C].
    + destruct (IH (i + 1) (hints ++ [i])) as (h & E & Q1 & Q2); try lia.
      * rewrite zlen_app. change (zlen [i]) with 1. lia.
      * intros j Hj. rewrite zlen_app in Hj. change (zlen [i]) with 1 in Hj. rewrite W_app.
        destruct (Z.ltb_spec j (zlen hints)); [apply Hh; lia|].
        replace (j - zlen hints) with 0 by lia. change (W [i] 0) with i.
        replace j with (zlen hints) by lia. lia.
      * exists h. rewrite zlen_app in E. change (zlen [i]) with 1 in E.
        replace (1024 * (zlen hints + 1) + select_ones_per_hint)
          with (1024 * (zlen hints + 1 + 1)) by (unfold select_ones_per_hint, block_size; lia).
        auto.
    + destruct (IH (i + 1) hints) as (h & E & Q1 & Q2); try lia; auto. exists h; auto.
Qed.

Definition hints_inv (neg : bool) (l : list bool) (hints : list Z) : Prop :=
  hints = [] \/ (0 < zlen hints /\ hints_ok neg l hints (zlen hints - 1) /\
    W hints (zlen hints - 1) = nb l /\ G neg l (8 * nb l) <= 1024 * zlen hints).

Lemma hints_gen_ok neg l pairs : pinv l pairs ->
  exists hints, hints_gen neg pairs = Ok hints /\ hints_inv neg l hints.
Proof.
  intros P. unfold hints_gen. rewrite (num_blocks_ok l) by auto. pose proof (nb_nonneg l).
  change select_ones_per_hint with (1024 * (zlen (@nil Z) + 1)).
  destruct (hints_gen_loop_ok neg l pairs P (Z.to_nat (nb l)) 0 []) as (h & E & Q1 & Q2); try lia.
  { rewrite Z.mul_0_r, G_0. change (zlen (@nil Z)) with 0. lia. }
  { intros j Hj. change (zlen (@nil Z)) with 0 in Hj. lia. }
  rewrite E. cbn [bind]. eexists; split; [reflexivity|]. right.
  rewrite zlen_app. change (zlen [nb l]) with 1. pose proof (zlen_nonneg h).
  replace (zlen h + 1 - 1) with (zlen h) by lia.
  split; [lia|]. split; [|split; [|lia]].
  - intros j Hj. rewrite W_app. replace (j <? zlen h) with true by lia. apply Q1; auto.
  - rewrite W_app. replace (zlen h <? zlen h) with false by lia. rewrite Z.sub_diag. reflexivity.
Qed.

Definition rs_ok (l : list bool) (rs : rs_bit_vector) : Prop :=
  rs_bv rs = canonical l /\ pinv l (rs_pairs rs) /\
  hints_inv false l (rs_hints rs) /\ hints_inv true l (rs_hints0 rs).

Lemma rs_build_ok l h h0 : exists rs, rs_build (canonical l) h h0 = Ok rs /\ rs_ok l rs.
Proof.
  rewrite rs_build_eq. unfold rs_build_gen. cbn [canonical bv_words].
  destruct (build_pairs_inv l) as (pairs & -> & P). cbn [bind].
  assert (A : forall neg (b : bool), exists hs, (if b then hints_gen neg pairs else Ok []) = Ok hs /\ hints_inv neg l hs).
  { intros neg [].
    - apply hints_gen_ok; auto.
    - eexists; split; [reflexivity|]. left; auto. }
  destruct (A false h) as (hs & -> & A1). destruct (A true h0) as (hs0 & -> & A2). cbn [bind].
  eexists; split; [reflexivity|]. repeat split; cbn [rs_bv rs_pairs rs_hints rs_hints0]; auto; apply P.
Qed.

(** ** rank *)
Lemma num_ones_ok l rs : rs_ok l rs -> num_ones rs = Ok (Z.of_nat (count true l)).
Proof.
  intros (_ & (L & (P1 & _) & _) & _). unfold num_ones. pose proof (nb_nonneg l).
  rewrite W_rd by lia. rewrite L. replace (2 * nb l + 2 - 2) with (2 * nb l) by lia.
  rewrite P1 by lia. rewrite G_words; auto. apply nb_words.
Qed.
Lemma num_zeros_ok l rs : rs_ok l rs -> num_zeros rs = Ok (Z.of_nat (count false l)).
Proof.
  intros R. unfold num_zeros. rewrite (num_ones_ok l) by auto. cbn [bind].
  destruct R as (-> & _). cbn [canonical bv_size]. pose proof (count_compl l).
  unfold zlen. rewrite sub64_ok by lia. f_equal. lia.
Qed.

Lemma field neg l b k : 0 <= b -> 0 <= k <= 7 ->
  exists x, shr (H9 neg l b 7) ((7 - k) * 9) = Ok x /\ Z.land x 0x1FF = F neg l b k.
Proof.
  intros Hb Hk. rewrite shr_ok by lia. eexists; split; [reflexivity|].
  change 0x1FF with (Z.ones 9). rewrite Z.land_ones by lia. rewrite Z.shiftr_div_pow2 by lia.
  destruct (Z.eq_dec k 0) as [->|N].
  - pose proof (H9_range neg l b 7 Hb ltac:(lia)). rewrite Z.div_small by (simpl Z.of_nat in *; lia).
    unfold F. rewrite Z.add_0_r, Z.sub_diag. reflexivity.
  - replace ((7 - k) * 9) with (9 * Z.of_nat (Z.to_nat (7 - k))) by lia.
    unfold H9. rewrite <- (nth_digits 9 7) by lia.
    rewrite digits_dval9; [|rewrite map_length, desc_length; auto|apply H9_digits; auto].
    assert (C : k = 1 \/ k = 2 \/ k = 3 \/ k = 4 \/ k = 5 \/ k = 6 \/ k = 7) by lia.
    destruct C as [->|[->|[->|[->|[->|[->| ->]]]]]]; reflexivity.
Qed.

Lemma sub_block_rank_ok l pairs k : pinv l pairs -> 0 <= k < 8 * nb l ->
  sub_block_rank pairs k = Ok (G false l k).
Proof.
  intros P Hk. unfold sub_block_rank, block_size.
  pose proof (Z.div_mod k 8 ltac:(lia)) as D. pose proof (Z.mod_pos_bound k 8 ltac:(lia)) as M.
  set (b := k / 8) in *. set (s := k mod 8) in *. clearbody b s.
  change (block_rank pairs b) with (block_rank_gen false pairs b).
  rewrite (block_rank_ok false l) by (auto; lia). cbn [bind].
  destruct P as (L & (P1 & P2) & _). unfold sub_block_ranks. rewrite W_rd by lia.
  rewrite (Z.mul_comm b 2), P2 by lia. cbn [bind].
  destruct (field false l b s ltac:(lia) ltac:(lia)) as (x & -> & E). cbn [bind]. rewrite E.
  f_equal. unfold F. rewrite <- D. lia.
Qed.

Lemma rank_low w m k s : masked w m k 0 -> 0 <= k -> 0 < s < 64 -> 64 * (k + 1) <= zlen m ->
  Z.of_nat (rank true m (Z.to_nat (64 * k + s))) =
  Z.of_nat (rank true m (Z.to_nat (64 * k))) + popcount (u64 (Z.shiftl w (64 - s))).
Proof.
  intros [U B] Hk Hs Hm. rewrite popcount_correct by apply u64_is.
  replace (Z.to_nat (64 * k + s)) with (Z.to_nat (64 * k) + Z.to_nat s)%nat by lia.
  rewrite rank_window.
  replace (word_bits (u64 (Z.shiftl w (64 - s))))
    with (repeat false (Z.to_nat (64 - s)) ++ window m (Z.to_nat (64 * k)) (Z.to_nat s)).
  { rewrite count_app, count_repeat. cbn [eqb]. lia. }
  assert (L : zlen (window m (Z.to_nat (64 * k)) (Z.to_nat s)) = s).
  { unfold zlen in *. rewrite window_length; lia. }
  apply zbit_ext.
  - rewrite zlen_app, zlen_repeat, L. unfold word_bits. rewrite zlen_bits_of. lia.
  - intros p Hp. rewrite zlen_app, zlen_repeat, L in Hp. unfold word_bits. rewrite zbit_bits_of.
    rewrite testbit_shl64 by lia. replace (p <? Z.of_nat 64) with true by lia. cbn [andb].
    rewrite zbit_app, zlen_repeat, zbit_repeat, andb_false_r.
    destruct (Z.ltb_spec p (Z.of_nat (Z.to_nat (64 - s)))).
    + rewrite Z.testbit_neg_r by lia. reflexivity.
    + rewrite zbit_window by lia. rewrite B by lia.
      replace (0 <=? p - (64 - s)) with true by lia. cbn [andb].
      replace (p - Z.of_nat (Z.to_nat (64 - s)) <? Z.of_nat (Z.to_nat s)) with true by lia.
      cbn [andb]. f_equal. lia.
Qed.

Lemma rs_rank_ok l rs pos : rs_ok l rs -> 0 <= pos <= zlen l ->
  rs_rank rs pos = Ok (Z.of_nat (rank true l (Z.to_nat pos))).
Proof.
  intros R Hp. unfold rs_rank. rewrite (num_ones_ok l) by auto. destruct R as (-> & P & _).
  cbn [canonical bv_size bv_words]. rewrite assert_true by lia.
  destruct (Z.eqb_spec pos (zlen l)) as [->|N].
  - rewrite rank_all; auto. unfold zlen; lia.
  - pose proof (block_lt l pos ltac:(lia)) as Hb. pose proof (nb_words l) as Nw.
    rewrite (sub_block_rank_ok l) by (auto; lia). cbn [bind].
    pose proof (Z.div_mod pos 64 ltac:(lia)) as D. pose proof (Z.mod_pos_bound pos 64 ltac:(lia)) as M.
    rewrite <- (rank_bpad true l) by (unfold zlen in *; lia).
    set (k := pos / 64) in *. set (s := pos mod 64) in *. clearbody k s. rewrite D.
    destruct (Z.eqb_spec s 0) as [->|Hs].
    + rewrite Z.add_0_r. reflexivity.
    + rewrite W_rd by auto. cbn [bind]. rewrite shl_ok by lia. cbn [bind].
      rewrite (rank_low (W (pack l) k)); try lia; auto.
      * apply W_bpad; lia.
      * rewrite zlen_bpad. lia.
Qed.
Lemma rs_rank0_ok l rs pos : rs_ok l rs -> 0 <= pos <= zlen l ->
  rs_rank0 rs pos = Ok (Z.of_nat (rank false l (Z.to_nat pos))).
Proof.
  intros R Hp. unfold rs_rank0. rewrite (rs_rank_ok l) by auto. cbn [bind].
  pose proof (rank_compl l (Z.to_nat pos)). unfold zlen in *. rewrite sub64_ok by lia. f_equal. lia.
Qed.

(** ** select *)
Lemma sel_G neg l n q k : is_select true (flip neg (bpad l)) n q -> 0 <= k ->
  G neg l k <= Z.of_nat n <-> 64 * k <= Z.of_nat q.
Proof.
  intros Hq Hk. unfold G. split; intros H.
  - destruct (Z.le_gt_cases (64 * k) (Z.of_nat q)) as [|C]; auto. exfalso.
    pose proof (is_select_rank_lt _ _ _ _ (Z.to_nat (64 * k)) Hq ltac:(lia)). lia.
  - pose proof (is_select_rank_ge _ _ _ _ (Z.to_nat (64 * k)) Hq ltac:(lia)). lia.
Qed.

Lemma search_range_ok neg l hints pairs n : pinv l pairs -> hints_inv neg l hints ->
  0 <= n < G neg l (8 * nb l) ->
  exists a b, range_gen hints pairs n = Ok (a, b) /\ 0 <= a < b /\ b <= nb l + 1 /\
    G neg l (8 * a) <= n < G neg l (8 * b).
Proof.
  intros P Hh Hn. unfold range_gen.
  assert (N0 : 0 < nb l).
  { pose proof (nb_nonneg l). destruct (Z.eq_dec (nb l) 0) as [E|]; [|lia].
    rewrite E in Hn. rewrite Z.mul_0_r, G_0 in Hn. lia. }
  destruct Hh as [->|(L & Hh & Hl & Ht)].
  - change (zlen (@nil Z)) with 0. cbn [Z.eqb]. rewrite (num_blocks_ok l) by auto.
    exists 0, (nb l). split; [reflexivity|]. rewrite Z.mul_0_r, G_0. lia.
  - replace (zlen hints =? 0) with false by lia. change select_ones_per_hint with 1024.
    pose proof (Z.div_mod n 1024 ltac:(lia)) as D. pose proof (Z.mod_pos_bound n 1024 ltac:(lia)) as M.
    set (c := n / 1024) in *. set (r := n mod 1024) in *. clearbody c r.
    assert (Hc : 0 <= c < zlen hints) by lia.
    assert (HB : exists h, rd hints c = Ok h /\ 0 <= h <= nb l /\ n < G neg l (8 * (h + 1)) /\
                           (forall a, 0 <= a -> G neg l (8 * a) <= 1024 * c -> a <= h)).
    { rewrite W_rd by auto. eexists; split; [reflexivity|].
      destruct (Z.eq_dec c (zlen hints - 1)) as [->|Nc].
      - rewrite Hl. split; [lia|]. split.
        + pose proof (G_mono neg l (8 * nb l) (8 * (nb l + 1)) ltac:(lia)). lia.
        + intros a Ha Hga. destruct (Z.le_gt_cases a (nb l)); auto.
          pose proof (G_mono neg l (8 * nb l) (8 * a) ltac:(lia)). lia.
      - destruct (Hh c ltac:(lia)) as [Q1 Q2]. split; [lia|]. split; [lia|].
        intros a Ha Hga. destruct (Z.le_gt_cases a (W hints c)); auto.
        pose proof (G_mono neg l (8 * (W hints c + 1)) (8 * a) ltac:(lia)). lia. }
    assert (HA : exists a, (if c =? 0 then Ok 0 else rd hints (c - 1)) = Ok a /\ 0 <= a /\
                           G neg l (8 * a) <= 1024 * c).
    { destruct (Z.eqb_spec c 0) as [->|Nc].
      - exists 0. rewrite Z.mul_0_r, G_0. split; [reflexivity|lia].
      - rewrite W_rd by lia. eexists; split; [reflexivity|].
        destruct (Hh (c - 1) ltac:(lia)) as [Q1 Q2]. lia. }
    destruct HA as (a & -> & A1 & A2). destruct HB as (h & -> & B1 & B2 & B3). cbn [bind].
    exists a, (h + 1). split; [reflexivity|]. specialize (B3 a A1 A2). lia.
Qed.

Lemma block_search_ok neg l pairs n : pinv l pairs -> 0 <= n < G neg l (8 * nb l) ->
  forall fuel a b, 0 <= a < b -> b <= nb l + 1 -> b - a <= Z.of_nat fuel ->
  G neg l (8 * a) <= n < G neg l (8 * b) ->
  exists c, search_gen neg fuel pairs n a b = Ok c /\ 0 <= c /\
    G neg l (8 * c) <= n < G neg l (8 * (c + 1)).
Proof.
  intros P Hn. induction fuel as [|fuel IH]; intros a b Ha Hb Hf Hg; [lia|].
  cbn [search_gen]. rewrite sub64_ok by lia. destruct (Z.ltb_spec 1 (b - a)) as [C|C].
  - assert (Hm : a < a + (b - a) / 2 < b) by dlia. set (m := a + (b - a) / 2) in *. clearbody m.
    rewrite (block_rank_ok neg l) by (auto; lia). cbn [bind].
    destruct (Z.leb_spec (G neg l (8 * m)) n); apply IH; lia.
  - exists a. replace b with (a + 1) in Hg by lia. split; [reflexivity|lia].
Qed.

(** the complement counters of a block *)
Lemma H9_compl l b : 0 <= b < nb l ->
  u64 (u64 (64 * inv_count_step_9) - H9 false l b 7) = H9 true l b 7.
Proof.
  intros Hb.
  assert (E : 64 * inv_count_step_9 = dval 9 (map (fun k => 64 * k) (desc 7))) by reflexivity.
  pose proof (H9_range true l b 7 ltac:(lia) ltac:(lia)) as R.
  change (u64 (64 * inv_count_step_9)) with (64 * inv_count_step_9). rewrite E.
  assert (S : dval 9 (map (fun k => 64 * k) (desc 7)) - H9 false l b 7 = H9 true l b 7).
  { unfold H9. cbn [desc map dval].
    assert (Fk : forall k, 0 <= k <= 7 -> F true l b k = 64 * k - F false l b k).
    { intros k Hk. unfold F. rewrite !G_compl by lia. lia. }
    rewrite !Fk by lia. lia. }
  rewrite S. apply u64_small. simpl Z.of_nat in R. lia.
Qed.

Lemma parallel j : 0 <= j < 512 -> u64 (j * ones_step_9) = dval 9 (repeat j 7).
Proof.
  intros Hj. cbn [repeat dval]. change ones_step_9 with (dval 9 (repeat 1 7)). cbn [repeat dval].
  change (2 ^ 9) with 512. rewrite u64_small by (clear - Hj; lia). lia.
Qed.

Lemma sub_search_gen neg l n q b : is_select true (flip neg (bpad l)) n q -> 0 <= b ->
  8 * b <= Z.of_nat q / 64 < 8 * b + 8 -> Z.of_nat n < G neg l (8 * b) + 512 ->
  G neg l (8 * b) <= Z.of_nat n ->
  Z.land (Z.shiftr (u64 (uleq_step_9 (H9 neg l b 7)
     (u64 ((Z.of_nat n - G neg l (8 * b)) * ones_step_9)) * ones_step_9)) 54) 7 = Z.of_nat q / 64 - 8 * b.
Proof.
  intros Hq Hb Hs Hn Hn'. rewrite (parallel (Z.of_nat n - G neg l (8 * b))) by lia. unfold H9.
  rewrite uleq_step_9_dval; [|rewrite map_length, desc_length; auto|rewrite repeat_length; auto|
     apply H9_digits; auto|apply Forall_repeat; unfold digit; lia].
  set (s := Z.of_nat q / 64 - 8 * b).
  assert (C : forall k, 1 <= k <= 7 -> (F neg l b k <=? Z.of_nat n - G neg l (8 * b)) = (k <=? s)).
  { intros k Hk. pose proof (sel_G neg l n q (8 * b + k) Hq ltac:(lia)) as [S1 S2]. unfold F, s.
    destruct (Z.leb_spec k (Z.of_nat q / 64 - 8 * b)).
    - assert (64 * (8 * b + k) <= Z.of_nat q) by (clear - H; dlia). specialize (S2 H0). lia.
    - assert (~ 64 * (8 * b + k) <= Z.of_nat q) by (clear - H; dlia).
      assert (~ G neg l (8 * b + k) <= Z.of_nat n) by tauto. lia. }
  change (desc 7) with [7; 6; 5; 4; 3; 2; 1]. cbn [map repeat map2].
  rewrite !C by lia. assert (Hs' : 0 <= s <= 7) by (unfold s; lia). clearbody s.
  assert (D : s = 0 \/ s = 1 \/ s = 2 \/ s = 3 \/ s = 4 \/ s = 5 \/ s = 6 \/ s = 7) by lia.
  destruct D as [->|[->|[->|[->|[->|[->|[->| ->]]]]]]]; reflexivity.
Qed.

Lemma select_gen_ok neg l rs n q : rs_ok l rs -> is_select (negb neg) l n q ->
  select_gen neg rs (Z.of_nat n) = Ok (Z.of_nat q).
Proof.
  intros R Hq.
  assert (Hc : (n < count (negb neg) l)%nat).
  { pose proof (is_select_rank_lt _ _ _ _ (length l) Hq (is_select_bound _ _ _ _ Hq)).
    rewrite rank_all in H by lia. auto. }
  pose proof (is_select_bound _ _ _ _ Hq) as Hql.
  unfold select_gen.
  assert (T : (if neg then num_zeros rs else num_ones rs) = Ok (Z.of_nat (count (negb neg) l))).
  { destruct neg; [apply num_zeros_ok|apply num_ones_ok]; auto. }
  rewrite T. cbn [bind]. rewrite assert_true by lia. clear T.
  destruct R as (Ebv & P & H1 & H2). rewrite Ebv. cbn [canonical bv_words].
  assert (Hm := is_select_bpad neg l n q Hq).
  assert (Hqw : 0 <= Z.of_nat q / 64 < zlen (pack l)) by (apply block_lt; unfold zlen; lia).
  pose proof (nb_words l) as Nw.
  assert (Hn : 0 <= Z.of_nat n < G neg l (8 * nb l)).
  { split; [lia|]. destruct (Z.lt_ge_cases (Z.of_nat n) (G neg l (8 * nb l))) as [|C]; auto. exfalso.
    apply (sel_G neg l n q (8 * nb l) Hm ltac:(lia)) in C. revert C Hqw Nw. clear.
    generalize (nb l). intros. dlia. }
  destruct (search_range_ok neg l (if neg then rs_hints0 rs else rs_hints rs) (rs_pairs rs) (Z.of_nat n) P
     ltac:(destruct neg; auto) Hn) as (a & b & -> & A1 & A2 & A3). cbn [bind].
  assert (LP : zlen (rs_pairs rs) = 2 * nb l + 2) by apply P.
  destruct (block_search_ok neg l (rs_pairs rs) (Z.of_nat n) P Hn (S (length (rs_pairs rs))) a b A1 A2
     ltac:(unfold zlen in LP; lia) A3) as (c & -> & C0 & C1). cbn [bind].
  assert (C2 : 512 * c <= Z.of_nat q) by (pose proof (sel_G neg l n q (8 * c) Hm ltac:(lia)) as [S1 _]; lia).
  assert (C3 : Z.of_nat q < 512 * (c + 1)).
  { destruct (Z.lt_ge_cases (Z.of_nat q) (512 * (c + 1))) as [|X]; auto. exfalso.
    pose proof (sel_G neg l n q (8 * (c + 1)) Hm ltac:(lia)) as [_ S2]. lia. }
  pose proof (Z.div_mod (Z.of_nat q) 64 ltac:(lia)) as D.
  pose proof (Z.mod_pos_bound (Z.of_nat q) 64 ltac:(lia)) as M.
  assert (C4 : 8 * c <= Z.of_nat q / 64 < 8 * c + 8) by lia.
  rewrite (num_blocks_ok l) by auto. rewrite assert_true by lia.
  rewrite (block_rank_ok neg l) by (auto; lia). cbn [bind]. rewrite assert_true by lia.
  assert (Sr : sub_block_ranks (rs_pairs rs) c = Ok (H9 false l c 7)).
  { destruct P as (L & (P1 & P2) & _). unfold sub_block_ranks. rewrite W_rd by lia.
    rewrite (Z.mul_comm c 2), P2 by lia. reflexivity. }
  rewrite Sr. cbn [bind].
  replace (if neg then u64 (u64 (64 * inv_count_step_9) - H9 false l c 7) else H9 false l c 7)
    with (H9 neg l c 7) by (destruct neg; [rewrite H9_compl by lia|]; reflexivity).
  pose proof (G_diff neg l (8 * c) (8 * (c + 1)) ltac:(lia)) as GD.
  rewrite (sub_search_gen neg l n q c) by (auto; lia).
  destruct (field neg l c (Z.of_nat q / 64 - 8 * c) ltac:(lia) ltac:(lia)) as (x & -> & Ex).
  cbn [bind]. rewrite Ex. unfold F.
  replace (8 * c + (Z.of_nat q / 64 - 8 * c)) with (Z.of_nat q / 64) by lia.
  pose proof (sel_G neg l n q (Z.of_nat q / 64) Hm ltac:(lia)) as [_ S2].
  replace (G neg l (8 * c) + (G neg l (Z.of_nat q / 64) - G neg l (8 * c)))
    with (G neg l (Z.of_nat q / 64)) by lia.
  rewrite assert_true by lia. unfold block_size.
  replace (c * 8 + (Z.of_nat q / 64 - 8 * c)) with (Z.of_nat q / 64) by lia.
  destruct (getw_bpad neg l (Z.of_nat q / 64) Hqw) as (w & -> & Mw). cbn [bind].
  assert (Hlt : (q < Z.to_nat (64 * (Z.of_nat q / 64 + 1)))%nat) by lia.
  destruct (masked_select w _ _ 0 (Z.of_nat n - G neg l (Z.of_nat q / 64)) q Mw) as [-> _]; try lia.
  - rewrite zlen_flip, zlen_bpad. lia.
  - rewrite Z.add_0_r. unfold G in *.
    replace (rank true (flip neg (bpad l)) (Z.to_nat (64 * (Z.of_nat q / 64))) + Z.to_nat _)%nat with n by lia.
    auto.
  - cbn [bind]. f_equal. lia.
Qed.

(** ** inverse laws *)
Lemma rank_select_inv neg l rs n : rs_ok l rs -> (n < count (negb neg) l)%nat ->
  exists p, select_gen neg rs (Z.of_nat n) = Ok p /\
    (if neg then rs_rank0 rs p else rs_rank rs p) = Ok (Z.of_nat n).
Proof.
  intros R Hn. destruct (select_exists _ _ _ Hn) as [q Hq]. exists (Z.of_nat q).
  split; [apply select_gen_ok with (l := l); auto|].
  pose proof (is_select_bound _ _ _ _ Hq). destruct Hq as [_ Hq].
  destruct neg; cbn [negb] in *; [rewrite (rs_rank0_ok l)|rewrite (rs_rank_ok l)];
    rewrite ?Nat2Z.id; auto; try (unfold zlen; lia); congruence.
Qed.
Lemma select_rank_inv neg l rs p : rs_ok l rs -> nth_error l p = Some (negb neg) ->
  exists n, (if neg then rs_rank0 rs (Z.of_nat p) else rs_rank rs (Z.of_nat p)) = Ok n /\
    select_gen neg rs n = Ok (Z.of_nat p).
Proof.
  intros R Hp. assert (p < length l)%nat by (apply nth_error_Some; congruence).
  exists (Z.of_nat (rank (negb neg) l p)). split.
  - destruct neg; cbn [negb]; [rewrite (rs_rank0_ok l)|rewrite (rs_rank_ok l)];
      rewrite ?Nat2Z.id; auto; unfold zlen; lia.
  - apply select_gen_ok with (l := l); auto. split; auto.
Qed.

(** ** the statements of C12-C14 *)
Lemma rs_range_ok l h h0 : exists rs, rs_build (bv_range l) h h0 = Ok rs /\ rs_ok l rs.
Proof. rewrite bv_range_ok. apply rs_build_ok. Qed.

Lemma rs_rank_all l h h0 : exists rs, rs_build (bv_range l) h h0 = Ok rs /\
  num_ones rs = Ok (Z.of_nat (count true l)) /\ num_zeros rs = Ok (Z.of_nat (count false l)) /\
  forall pos, 0 <= pos <= zlen l ->
    rs_rank rs pos = Ok (Z.of_nat (rank true l (Z.to_nat pos))) /\
    rs_rank0 rs pos = Ok (Z.of_nat (rank false l (Z.to_nat pos))).
Proof.
  destruct (rs_range_ok l h h0) as (rs & E & R). exists rs.
  split; [auto|]. split; [apply num_ones_ok; auto|]. split; [apply num_zeros_ok; auto|].
  intros pos Hp. split; [apply rs_rank_ok|apply rs_rank0_ok]; auto.
Qed.

Lemma rs_select_all l h h0 : exists rs, rs_build (bv_range l) h h0 = Ok rs /\
  (forall n q, is_select true l n q -> rs_select rs (Z.of_nat n) = Ok (Z.of_nat q)) /\
  (forall n q, is_select false l n q -> rs_select0 rs (Z.of_nat n) = Ok (Z.of_nat q)).
Proof.
  destruct (rs_range_ok l h h0) as (rs & E & R). exists rs. split; [auto|].
  split; intros n q H; rewrite ?rs_select_eq, ?rs_select0_eq; [apply (select_gen_ok false l)|apply (select_gen_ok true l)]; auto.
Qed.

Lemma rs_select_exists l h h0 : exists rs, rs_build (bv_range l) h h0 = Ok rs /\
  (forall n, 0 <= n < Z.of_nat (count true l) ->
     exists q, rs_select rs n = Ok (Z.of_nat q) /\ is_select true l (Z.to_nat n) q) /\
  (forall n, 0 <= n < Z.of_nat (count false l) ->
     exists q, rs_select0 rs n = Ok (Z.of_nat q) /\ is_select false l (Z.to_nat n) q).
Proof.
  destruct (rs_range_ok l h h0) as (rs & E & R). exists rs. split; [auto|].
  split; intros n Hn.
  - destruct (select_exists true l (Z.to_nat n) ltac:(lia)) as [q Hq]. exists q. split; auto.
    rewrite <- (Z2Nat.id n) by lia. rewrite rs_select_eq. apply (select_gen_ok false l); auto.
  - destruct (select_exists false l (Z.to_nat n) ltac:(lia)) as [q Hq]. exists q. split; auto.
    rewrite <- (Z2Nat.id n) by lia. rewrite rs_select0_eq. apply (select_gen_ok true l); auto.
Qed.

Lemma rs_inverse l h h0 : exists rs, rs_build (bv_range l) h h0 = Ok rs /\
  (forall n, 0 <= n < Z.of_nat (count true l) ->
     exists p, rs_select rs n = Ok p /\ rs_rank rs p = Ok n) /\
  (forall n, 0 <= n < Z.of_nat (count false l) ->
     exists p, rs_select0 rs n = Ok p /\ rs_rank0 rs p = Ok n) /\
  (forall p, nth_error l p = Some true ->
     exists n, rs_rank rs (Z.of_nat p) = Ok n /\ rs_select rs n = Ok (Z.of_nat p)) /\
  (forall p, nth_error l p = Some false ->
     exists n, rs_rank0 rs (Z.of_nat p) = Ok n /\ rs_select0 rs n = Ok (Z.of_nat p)).
Proof.
  destruct (rs_range_ok l h h0) as (rs & E & R). exists rs. split; [auto|].
  split; [|split; [|split]].
  - intros n Hn. pose proof (rank_select_inv false l rs (Z.to_nat n) R ltac:(cbn [negb]; lia)) as I.
    rewrite Z2Nat.id in I by lia. destruct I as (p & A & B). exists p. rewrite ?rs_select_eq, ?rs_select0_eq. auto.
  - intros n Hn. pose proof (rank_select_inv true l rs (Z.to_nat n) R ltac:(cbn [negb]; lia)) as I.
    rewrite Z2Nat.id in I by lia. destruct I as (p & A & B). exists p. rewrite ?rs_select_eq, ?rs_select0_eq. auto.
  - intros p Hp. destruct (select_rank_inv false l rs p R Hp) as (n & A & B). exists n. rewrite rs_select_eq. auto.
  - intros p Hp. destruct (select_rank_inv true l rs p R Hp) as (n & A & B). exists n. rewrite rs_select0_eq. auto.
Qed.

Lemma rs_empty_range h h0 : exists rs,
  rs_build (bv_range []) h h0 = Ok rs /\ num_ones rs = Ok 0 /\ rs_rank rs 0 = Ok 0.
Proof.
  destruct (rs_rank_all [] h h0) as (rs & E & N & _ & R). exists rs. split; [auto|]. split; [auto|].
  apply (R 0). cbv. split; discriminate.
Qed.
