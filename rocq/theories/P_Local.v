(** Proofs for C115 *)
From Verif Require Import Base Spec Lib M_Broadword M_BitVector M_RsBitVector M_Darray M_EliasFano M_Util.
From Verif Require Import P_Broadword P_Broadword3 P_BvLib P_BvRank S_BitVector P_RsGen P_RsBuild P_RsQuery P_BvGen P_BitVector P_BvProps S_Local.

Lemma same_len P xs ys : same_at P xs ys -> zlen xs = zlen ys.
Proof. intros (L & _). unfold zlen. congruence. Qed.
Lemma same_rd (P : Z -> Prop) xs ys i : same_at P xs ys -> P i -> rd xs i = rd ys i.
Proof.
  intros S Hi. unfold rd. rewrite (same_len _ _ _ S). destruct S as (_ & S).
  destruct ((0 <=? i) && (i <? zlen ys)) eqn:E; [|reflexivity]. rewrite S by (auto; lia). reflexivity.
Qed.
Lemma same_weaken (P Q : Z -> Prop) xs ys : (forall i, 0 <= i -> Q i -> P i) -> same_at P xs ys -> same_at Q xs ys.
Proof. intros H (L & S). split; auto. Qed.

Lemma local_get bv bv' pos : bv_size bv = bv_size bv' -> same_at (fun i => i = pos / 64) (bv_words bv) (bv_words bv') -> bv_get bv pos = bv_get bv' pos.
Proof. intros Z S. unfold bv_get. rewrite Z, (same_len _ _ _ S), (same_rd _ _ _ _ S eq_refl). reflexivity. Qed.
Lemma local_get_bits sp bv bv' pos len : bv_size bv = bv_size bv' ->
  same_at (fun i => pos / 64 <= i <= (pos + len - 1) / 64) (bv_words bv) (bv_words bv') -> 0 <= len -> get_bits sp bv pos len = get_bits sp bv' pos len.
Proof.
  intros Z S H. unfold get_bits. rewrite Z. destruct (u64 (pos + len) <=? bv_size bv'); cbn [assert_]; [|reflexivity].
  destruct (Z.eqb_spec len 0) as [|N]; [reflexivity|]. destruct (shl_p sp 1 len) as [m|]; cbn [bind]; [|reflexivity].
  rewrite (same_rd _ _ _ (pos / 64) S) by dlia. destruct (rd (bv_words bv') (pos / 64)) as [w|]; cbn [bind]; [|reflexivity].
  destruct (shr w (pos mod 64)) as [x|]; cbn [bind]; [|reflexivity]. destruct (Z.leb_spec (pos mod 64 + len) 64); [reflexivity|].
  rewrite (same_rd _ _ _ (pos / 64 + 1) S) by dlia. reflexivity.
Qed.
Lemma local_get_word bv bv' pos : bv_size bv = bv_size bv' ->
  same_at (fun i => pos / 64 <= i <= (pos + 63) / 64) (bv_words bv) (bv_words bv') -> get_word bv pos = get_word bv' pos.
Proof.
  intros Z S. unfold get_word. rewrite Z, (same_len _ _ _ S), (same_rd _ _ _ (pos / 64) S) by dlia.
  destruct (Z.eqb_spec (pos mod 64) 0) as [|N]; cbn [negb andb]; [reflexivity|]. rewrite (same_rd _ _ _ (pos / 64 + 1) S) by dlia. reflexivity.
Qed.
Lemma same_load ws ws' hi : forall n i, same_at (fun j => i / 8 <= j <= hi) ws ws' -> (i + Z.of_nat n - 1) / 8 <= hi -> load_le ws i n = load_le ws' i n.
Proof.
  induction n as [|n IH]; intros i S H; [reflexivity|]. cbn [load_le]. unfold byte_of_words. rewrite (same_rd _ _ _ (i / 8) S) by dlia.
  rewrite (IH (i + 1)); [reflexivity| |].
  - eapply same_weaken; [|exact S]. cbv beta. intros j _ Hj. dlia.
  - replace (i + 1 + Z.of_nat n - 1) with (i + Z.of_nat (Datatypes.S n) - 1) by lia. exact H.
Qed.
Lemma local_get_word56 bv bv' pos : same_at (fun i => pos / 64 <= i <= (pos / 8 + 7) / 8) (bv_words bv) (bv_words bv') -> get_word56 bv pos = get_word56 bv' pos.
Proof.
  intros S. unfold get_word56. rewrite (same_load _ (bv_words bv') ((pos / 8 + 7) / 8)); [reflexivity| |].
  - eapply same_weaken; [|exact S]. cbv beta. intros i _ Hi. rewrite Z.div_div in Hi by lia. exact Hi.
  - apply Z.div_le_mono; lia.
Qed.
Lemma local_nibble n n' pos : nv_size n = nv_size n' -> same_at (fun i => i = pos / 2) (nv_nibbles n) (nv_nibbles n') -> nv_get n pos = nv_get n' pos.
Proof. intros Z S. unfold nv_get. rewrite Z, (same_rd _ _ _ _ S eq_refl). reflexivity. Qed.

Lemma local_rank rs rs' pos : bv_size (rs_bv rs) = bv_size (rs_bv rs') ->
  (if pos =? bv_size (rs_bv rs) then same_at (fun i => i = zlen (rs_pairs rs) - 2) (rs_pairs rs) (rs_pairs rs')
   else same_at (fun i => i = 2 * (pos / 512) \/ i = 2 * (pos / 512) + 1) (rs_pairs rs) (rs_pairs rs') /\
     (pos mod 64 <> 0 -> same_at (fun i => i = pos / 64) (bv_words (rs_bv rs)) (bv_words (rs_bv rs')))) ->
  rs_rank rs pos = rs_rank rs' pos /\ rs_rank0 rs pos = rs_rank0 rs' pos.
Proof.
  intros Z S. assert (R : rs_rank rs pos = rs_rank rs' pos); [|unfold rs_rank0; rewrite R; auto].
  unfold rs_rank. rewrite <- Z. destruct (pos <=? bv_size (rs_bv rs)); cbn [assert_]; [|reflexivity].
  destruct (pos =? bv_size (rs_bv rs)).
  - unfold num_ones. rewrite <- (same_len _ _ _ S). rewrite (same_rd _ _ _ _ S eq_refl). reflexivity.
  - destruct S as (S & Sw). assert (E : sub_block_rank (rs_pairs rs) (pos / 64) = sub_block_rank (rs_pairs rs') (pos / 64)).
    { unfold sub_block_rank, block_rank, sub_block_ranks, block_size. rewrite Z.div_div by lia. change (64 * 8) with 512.
      rewrite (same_rd _ _ _ (pos / 512 * 2) S) by lia. rewrite (same_rd _ _ _ (pos / 512 * 2 + 1) S) by lia. reflexivity. }
    rewrite E. destruct (sub_block_rank (rs_pairs rs') _) as [r|]; cbn [bind]; [|reflexivity].
    destruct (Z.eqb_spec (pos mod 64) 0) as [|N]; [reflexivity|]. rewrite (same_rd _ _ _ _ (Sw N) eq_refl). reflexivity.
Qed.

Lemma siw_range w k r : is_u64 w -> 0 <= k -> select_in_word w k = Ok r -> 0 <= r < 64.
Proof.
  intros Hw Hk E. unfold select_in_word in E. destruct (Z.lt_ge_cases k (Z.of_nat (count true (word_bits w)))) as [C|C].
  - destruct (select_in_word_gen_correct false w k Hw ltac:(lia)) as (p & E' & S). rewrite E in E'. injection E' as ->.
    apply is_select_bound in S. rewrite word_bits_length in S. lia.
  - rewrite (select_in_word_assert false w k Hw C) in E. discriminate.
Qed.
Definition even_or (j : Z) (i : Z) : Prop := i mod 2 = 0 \/ i = j.
Lemma same_search neg xs ys n j : same_at (even_or j) xs ys -> forall fuel a b, search_gen neg fuel xs n a b = search_gen neg fuel ys n a b.
Proof.
  intros S. assert (R : forall b, block_rank_gen neg xs b = block_rank_gen neg ys b).
  { intros b. unfold block_rank_gen, block_rank0, block_rank. destruct neg; rewrite (same_rd _ _ _ (b * 2) S) by (left; dlia); reflexivity. }
  induction fuel as [|fuel IH]; intros a b; cbn [search_gen]; [reflexivity|]. rewrite R. destruct (1 <? sub64 b a); [|reflexivity].
  destruct (block_rank_gen neg ys _); cbn [bind]; [|reflexivity]. rewrite !IH. reflexivity.
Qed.
Lemma getw_u64 neg ws i w : Forall is_u64 ws -> getw neg ws i = Ok w -> is_u64 w.
Proof.
  intros F E. unfold getw, rd in E. destruct ((0 <=? i) && (i <? zlen ws)); [|discriminate]. destruct (nth_error ws (Z.to_nat i)) as [x|] eqn:N; [|discriminate].
  cbn [bind] in E. injection E as <-. assert (U : is_u64 x) by (apply (proj1 (Forall_forall _ _) F); eapply nth_error_In; eauto).
  destruct neg; [|exact U]. unfold not64, u64, is_u64. apply Z.mod_pos_bound. lia.
Qed.
Lemma local_gen neg rs rs' n q : Forall is_u64 (bv_words (rs_bv rs)) -> zlen (rs_pairs rs) mod 2 = 0 ->
  select_gen neg rs n = Ok q -> bv_size (rs_bv rs) = bv_size (rs_bv rs') ->
  same_at (fun i => i mod 2 = 0 \/ i = 2 * (q / 512) + 1) (rs_pairs rs) (rs_pairs rs') ->
  same_at (fun i => i = n / 1024 \/ i = n / 1024 - 1) (if neg then rs_hints0 rs else rs_hints rs) (if neg then rs_hints0 rs' else rs_hints rs') ->
  same_at (fun i => i = q / 64) (bv_words (rs_bv rs)) (bv_words (rs_bv rs')) ->
  select_gen neg rs' n = Ok q.
Proof.
  intros F Ev E Hz Sp Sh Sw. unfold select_gen in *. cbv zeta in *.
  assert (En : num_ones rs = num_ones rs').
  { unfold num_ones. rewrite <- (same_len _ _ _ Sp). apply (same_rd _ _ _ _ Sp). left. dlia. }
  assert (Ez : num_zeros rs = num_zeros rs') by (unfold num_zeros; rewrite En, Hz; reflexivity).
  rewrite <- En, <- Ez. destruct (if neg then num_zeros rs else num_ones rs) as [t|]; [|discriminate]. cbn [bind] in *.
  destruct (n <? t); [|discriminate]. cbn [assert_] in *.
  assert (Er : forall p, range_gen (if neg then rs_hints0 rs' else rs_hints rs') (rs_pairs rs') p = range_gen (if neg then rs_hints0 rs' else rs_hints rs') (rs_pairs rs) p).
  { intros p. unfold range_gen, num_blocks. rewrite (same_len _ _ _ Sp). reflexivity. }
  assert (Er' : range_gen (if neg then rs_hints0 rs' else rs_hints rs') (rs_pairs rs) n = range_gen (if neg then rs_hints0 rs else rs_hints rs) (rs_pairs rs) n).
  { unfold range_gen. rewrite (same_len _ _ _ Sh). change select_ones_per_hint with 1024.
    rewrite (same_rd _ _ _ (n / 1024) Sh) by auto. rewrite (same_rd _ _ _ (n / 1024 - 1) Sh) by auto. reflexivity. }
  rewrite Er, Er'. destruct (range_gen _ (rs_pairs rs) n) as [[a b]|]; [|discriminate]. cbn [bind] in *.
  rewrite <- (proj1 Sp), <- (same_search neg _ _ n _ Sp). destruct (search_gen _ _ _ _ a b) as [c|]; [|discriminate]. cbn [bind] in *.
  unfold num_blocks in *. rewrite <- (same_len _ _ _ Sp). destruct (c <? _); [|discriminate]. cbn [assert_] in *.
  assert (Rb : block_rank_gen neg (rs_pairs rs') c = block_rank_gen neg (rs_pairs rs) c).
  { unfold block_rank_gen, block_rank0, block_rank. destruct neg; rewrite (same_rd _ _ _ (c * 2) Sp) by (left; dlia); reflexivity. }
  rewrite Rb. destruct (block_rank_gen neg (rs_pairs rs) c) as [cr|]; [|discriminate]. cbn [bind] in *.
  destruct (cr <=? n); [|discriminate]. cbn [assert_] in *.
  destruct (sub_block_ranks (rs_pairs rs) c) as [s|] eqn:Es; [|discriminate]. cbn [bind] in *.
  set (sub := if neg then u64 (u64 (64 * inv_count_step_9) - s) else s) in *.
  set (off := Z.land _ 7) in *. assert (Ho : 0 <= off < 8) by (unfold off; change 7 with (Z.ones 3); rewrite Z.land_ones by lia; apply Z.mod_pos_bound; lia).
  destruct (shr sub ((7 - off) * 9)) as [x|] eqn:Ex; [|discriminate]. cbn [bind] in *.
  destruct (cr + Z.land x 511 <=? n) eqn:Cn; [|discriminate]. cbn [assert_] in *.
  destruct (getw neg _ (c * block_size + off)) as [w|] eqn:Ew; [|discriminate]. cbn [bind] in *.
  destruct (select_in_word w _) as [r|] eqn:Eq; [|discriminate]. cbn [bind] in E. injection E as <-.
  assert (Hr : 0 <= r < 64) by (refine (siw_range w _ r (getw_u64 _ _ _ _ F Ew) _ Eq); apply Z.leb_le in Cn; lia). unfold block_size in *.
  assert (Qb : ((c * 8 + off) * 64 + r) / 512 = c) by dlia. assert (Qw : ((c * 8 + off) * 64 + r) / 64 = c * 8 + off) by dlia.
  rewrite Qb in Sp. rewrite Qw in Sw.
  assert (Es' : sub_block_ranks (rs_pairs rs') c = Ok s) by (rewrite <- Es; unfold sub_block_ranks; symmetry; apply (same_rd _ _ _ _ Sp); right; lia).
  rewrite Es'. cbn [bind]. fold sub. fold off. rewrite Ex. cbn [bind]. rewrite Cn. cbn [assert_].
  assert (Ew' : getw neg (bv_words (rs_bv rs')) (c * 8 + off) = Ok w).
  { rewrite <- Ew. unfold getw. rewrite (same_rd _ _ _ _ Sw eq_refl). reflexivity. }
  rewrite Ew'. cbn [bind]. rewrite Eq. reflexivity.
Qed.
Lemma pack_u64 l : Forall is_u64 (pack l).
Proof. exact (proj1 (words_ok_pack l)). Qed.
Lemma local_select l h h0 : exists rs, rs_build (bv_range l) h h0 = Ok rs /\ forall rs' n q, bv_size (rs_bv rs) = bv_size (rs_bv rs') ->
  same_at (fun i => i mod 2 = 0 \/ i = 2 * (Z.of_nat q / 512) + 1) (rs_pairs rs) (rs_pairs rs') ->
  same_at (fun i => i = Z.of_nat q / 64) (bv_words (rs_bv rs)) (bv_words (rs_bv rs')) ->
  (is_select true l n q -> same_at (fun i => i = Z.of_nat n / 1024 \/ i = Z.of_nat n / 1024 - 1) (rs_hints rs) (rs_hints rs') ->
    rs_select rs' (Z.of_nat n) = Ok (Z.of_nat q)) /\
  (is_select false l n q -> same_at (fun i => i = Z.of_nat n / 1024 \/ i = Z.of_nat n / 1024 - 1) (rs_hints0 rs) (rs_hints0 rs') ->
    rs_select0 rs' (Z.of_nat n) = Ok (Z.of_nat q)).
Proof.
  rewrite bv_range_ok. destruct (rs_build_ok l h h0) as (rs & E & R). exists rs. split; [exact E|]. intros rs' n q Hz Sp Sw.
  assert (F : Forall is_u64 (bv_words (rs_bv rs))) by (rewrite (proj1 R); apply pack_u64).
  assert (Ev : zlen (rs_pairs rs) mod 2 = 0) by (destruct R as (_ & (L & _) & _); rewrite L; dlia).
  split; intros Hq Sh.
  - rewrite rs_select_eq. apply (local_gen false rs); auto. apply (select_gen_ok false l); auto.
  - rewrite rs_select0_eq. apply (local_gen true rs); auto. apply (select_gen_ok true l); auto.
Qed.
Lemma local_ef ef low n : 0 <= ef_l ef -> bv_size (ef_low ef) = bv_size low ->
  same_at (fun i => n * ef_l ef / 64 <= i <= (n * ef_l ef + ef_l ef - 1) / 64) (bv_words (ef_low ef)) (bv_words low) ->
  ef_select ef n = ef_select (mk_ef (ef_size ef) (ef_high ef) (ef_d1 ef) (ef_d0 ef) low (ef_l ef)) n.
Proof.
  intros Hl Hz S. unfold ef_select. cbn [ef_d1 ef_high ef_l ef_low]. rewrite (local_get_bits strict_shift _ low _ _ Hz S) by lia. reflexivity.
Qed.
Lemma local_bits bv bv' pos : bv_size bv = bv_size bv' ->
  (same_at (fun i => i = pos / 64) (bv_words bv) (bv_words bv') -> bv_get bv pos = bv_get bv' pos) /\
  (forall sp len, 0 <= len -> same_at (fun i => pos / 64 <= i <= (pos + len - 1) / 64) (bv_words bv) (bv_words bv') ->
    get_bits sp bv pos len = get_bits sp bv' pos len) /\
  (same_at (fun i => pos / 64 <= i <= (pos + 63) / 64) (bv_words bv) (bv_words bv') -> get_word bv pos = get_word bv' pos) /\
  (same_at (fun i => pos / 64 <= i <= (pos / 8 + 7) / 8) (bv_words bv) (bv_words bv') -> get_word56 bv pos = get_word56 bv' pos).
Proof.
  intros H. repeat split; intros; [apply local_get|apply local_get_bits|apply local_get_word|apply local_get_word56]; auto.
Qed.
