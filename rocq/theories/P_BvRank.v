(** Ranks, windows and words. *)
From Verif Require Import Base Spec Lib M_Broadword P_BvLib P_Broadword.

Lemma rank_window b l a n : rank b l (a + n) = (rank b l a + count b (window l a n))%nat.
Proof.
  unfold rank, window. rewrite <- count_app. f_equal.
  rewrite <- (firstn_skipn a (firstn (a + n) l)). f_equal.
  - rewrite firstn_firstn. f_equal. lia.
  - rewrite firstn_skipn_comm. reflexivity.
Qed.

Lemma window_length {A} (l : list A) a n : (a + n <= length l)%nat -> length (window l a n) = n.
Proof. intros. unfold window. rewrite firstn_length, skipn_length. lia. Qed.

Lemma nth_error_window {A} (l : list A) a n p : (p < n)%nat ->
  nth_error (window l a n) p = nth_error l (a + p).
Proof.
  intros H. unfold window.
  assert (G : forall (k : list A) n p, (p < n)%nat -> nth_error (firstn n k) p = nth_error k p).
  { clear. induction k as [|x k IH]; intros [|n] [|p] H; simpl; auto; try lia. apply IH. lia. }
  rewrite G by auto. clear. revert l; induction a as [|a IH]; intros l; simpl; auto.
  destruct l; simpl; auto. destruct p; auto.
Qed.

Lemma is_select_window b l a n k p : is_select b (window l a n) k p ->
  is_select b l (rank b l a + k) (a + p).
Proof.
  intros [H1 H2]. assert (p < n)%nat.
  { assert (p < length (window l a n))%nat by (apply nth_error_Some; congruence).
    unfold window in *. rewrite firstn_length in *. lia. }
  split; [rewrite <- (nth_error_window l a n p); auto|].
  rewrite rank_window. f_equal. rewrite <- H2. unfold rank, window.
  rewrite firstn_firstn. do 2 f_equal. lia.
Qed.

Lemma is_select_map_negb b l k p : is_select b (map negb l) k p <-> is_select (negb b) l k p.
Proof.
  unfold is_select, rank. rewrite firstn_map, count_map_negb.
  rewrite nth_error_map. destruct (nth_error l p) as [x|]; simpl; [|intuition discriminate].
  split; intros [H1 H2]; split; auto; inversion H1; subst; rewrite ?negb_involutive; auto.
Qed.

Lemma rank_map_negb b l p : rank b (map negb l) p = rank (negb b) l p.
Proof. unfold rank. rewrite firstn_map, count_map_negb. reflexivity. Qed.

Lemma is_select_bound b l k p : is_select b l k p -> (p < length l)%nat.
Proof. intros [H _]. apply nth_error_Some. congruence. Qed.

Lemma is_select_rank_lt b l k p q : is_select b l k p -> (p < q)%nat -> (k < rank b l q)%nat.
Proof.
  intros [H1 H2] H. pose proof (rank_S b l p b H1). rewrite eqb_reflx in *.
  pose proof (rank_mono b l (S p) q ltac:(lia)). lia.
Qed.
Lemma is_select_rank_ge b l k p q : is_select b l k p -> (q <= p)%nat -> (rank b l q <= k)%nat.
Proof. intros [H1 H2] H. pose proof (rank_mono b l q p H). lia. Qed.

(** a word that holds the bits of block [k] from [lo] on *)
Definition masked (w : Z) (m : list bool) (k lo : Z) : Prop :=
  is_u64 w /\ forall i, 0 <= i < 64 -> Z.testbit w i = (lo <=? i) && zbit m (64 * k + i).

Lemma masked_bits w m k lo : masked w m k lo -> 0 <= k -> 0 <= lo <= 64 -> 64 * (k + 1) <= zlen m ->
  word_bits w = repeat false (Z.to_nat lo) ++ window m (Z.to_nat (64 * k + lo)) (Z.to_nat (64 - lo)).
Proof.
  intros [U B] Hk Hlo Hm.
  assert (L : zlen (window m (Z.to_nat (64 * k + lo)) (Z.to_nat (64 - lo))) = 64 - lo).
  { unfold zlen in *. rewrite window_length; lia. }
  apply zbit_ext.
  - rewrite zlen_app, zlen_repeat, L. unfold word_bits. rewrite zlen_bits_of. lia.
  - intros p Hp. unfold word_bits in *. rewrite zlen_bits_of in Hp. rewrite zbit_bits_of, B by lia.
    replace (p <? Z.of_nat 64) with true by lia. cbn [andb].
    rewrite zbit_app, zlen_repeat, zbit_repeat, andb_false_r, Z2Nat.id by lia.
    destruct (Z.leb_spec lo p).
    + replace (p <? lo) with false by lia. rewrite zbit_window by lia.
      rewrite !Z2Nat.id by lia. replace (p - lo <? 64 - lo) with true by lia. cbn [andb]. f_equal. lia.
    + replace (p <? lo) with true by lia. reflexivity.
Qed.

Lemma masked_popcount w m k lo : masked w m k lo -> 0 <= k -> 0 <= lo <= 64 -> 64 * (k + 1) <= zlen m ->
  Z.of_nat (rank true m (Z.to_nat (64 * k + lo))) + popcount w =
  Z.of_nat (rank true m (Z.to_nat (64 * (k + 1)))).
Proof.
  intros H Hk Hlo Hm. rewrite popcount_correct by apply H.
  rewrite (masked_bits w m k lo) by auto. rewrite count_app, count_repeat. cbn [eqb].
  replace (Z.to_nat (64 * (k + 1))) with (Z.to_nat (64 * k + lo) + Z.to_nat (64 - lo))%nat by lia.
  rewrite rank_window. lia.
Qed.

Lemma masked_select w m k lo j q : masked w m k lo -> 0 <= k -> 0 <= lo <= 64 -> 64 * (k + 1) <= zlen m ->
  0 <= j -> is_select true m (rank true m (Z.to_nat (64 * k + lo)) + Z.to_nat j) q ->
  (q < Z.to_nat (64 * (k + 1)))%nat ->
  select_in_word w j = Ok (Z.of_nat q - 64 * k) /\ 64 * k + lo <= Z.of_nat q.
Proof.
  intros H Hk Hlo Hm Hj Hq Hlt.
  assert (Hjc : 0 <= j < Z.of_nat (count true (word_bits w))).
  { rewrite <- popcount_correct by apply H. pose proof (masked_popcount w m k lo H Hk Hlo Hm).
    pose proof (is_select_rank_lt _ _ _ _ _ Hq Hlt). lia. }
  destruct (select_in_word_correct w j (proj1 H) Hjc) as (p & E & Hp).
  rewrite E. rewrite (masked_bits w m k lo) in Hp by auto.
  assert (Hpl : (Z.to_nat lo <= p)%nat).
  { destruct (Nat.le_gt_cases (Z.to_nat lo) p); auto. destruct Hp as [Hp _].
    rewrite nth_error_app1 in Hp by (rewrite repeat_length; auto).
    apply nth_error_In, repeat_spec in Hp. discriminate. }
  assert (Hp' : is_select true (window m (Z.to_nat (64 * k + lo)) (Z.to_nat (64 - lo)))
                  (Z.to_nat j) (p - Z.to_nat lo)).
  { destruct Hp as [P1 P2]. split.
    - rewrite nth_error_app2, repeat_length in P1 by (rewrite repeat_length; auto). auto.
    - rewrite rank_app2, repeat_length, count_repeat in P2 by (rewrite repeat_length; auto).
      cbn [eqb] in P2. lia. }
  apply is_select_window in Hp'. pose proof (is_select_unique _ _ _ _ _ Hp' Hq).
  split; [f_equal|]; lia.
Qed.
