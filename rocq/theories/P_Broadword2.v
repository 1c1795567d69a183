(** Proofs about reversal, extreme bits and lane comparisons of broadword.hpp. *)
From Verif Require Import Base Spec Lib M_Tables M_Broadword P_Broadword.
From Coq Require Import ZifyBool ZifyNat.

(** ** Reversal *)
Definition swap_step (x s m : Z) : Z :=
  Z.lor (Z.land (Z.shiftr x s) m) (u64 (Z.shiftl (Z.land x m) s)).

Lemma swap_step_range x s m : 0 <= s -> is_u64 x -> is_u64 m -> is_u64 (swap_step x s m).
Proof.
  intros Hs Hx Hm. unfold is_u64, swap_step. apply lor_range; [lia| |apply u64_range].
  apply land_range; [lia| |auto]. apply shiftr_range64; auto.
Qed.

Definition swap_index (s m i : Z) : Z := if Z.testbit m i then i + s else i - s.

Lemma swap_step_bit x s m i : 0 <= s < 64 -> 0 <= i < 64 ->
  Z.testbit m i = negb ((s <=? i) && Z.testbit m (i - s)) ->
  Z.testbit (swap_step x s m) i = Z.testbit x (swap_index s m i).
Proof.
  intros Hs Hi Hm. unfold swap_step, swap_index.
  rewrite Z.lor_spec, Z.land_spec, testbit_u64, Z.shiftl_spec, Z.land_spec, Z.shiftr_spec by lia.
  replace (i <? 64) with true by lia. cbn [andb].
  destruct (Z.testbit m i) eqn:E.
  - rewrite andb_true_r. destruct (Z.leb_spec s i).
    + cbn [andb negb] in Hm. destruct (Z.testbit m (i - s)); [discriminate|].
      rewrite andb_false_r, orb_false_r. reflexivity.
    + rewrite (Z.testbit_neg_r x (i - s)) by lia. cbn [andb]. apply orb_false_r.
  - rewrite andb_false_r. cbn [orb]. destruct (s <=? i); cbn [andb negb] in Hm; [|discriminate].
    destruct (Z.testbit m (i - s)); [|discriminate]. apply andb_true_r.
Qed.

Definition swap_ok (s m i : Z) : bool :=
  Bool.eqb (Z.testbit m i) (negb ((s <=? i) && Z.testbit m (i - s))) &&
  (0 <=? swap_index s m i) && (swap_index s m i <? 64).

Lemma swap_ok_bit x s m i : 0 <= s < 64 -> 0 <= i < 64 ->
  forallb (swap_ok s m) (map Z.of_nat (seq 0 64)) = true ->
  Z.testbit (swap_step x s m) i = Z.testbit x (swap_index s m i) /\ 0 <= swap_index s m i < 64.
Proof.
  intros Hs Hi H. pose proof (sweep 64 _ H i Hi) as S. unfold swap_ok in S.
  apply andb_true_iff in S. destruct S as [S S3]. apply andb_true_iff in S. destruct S as [S1 S2].
  apply eqb_prop in S1. split; [apply swap_step_bit; auto | lia].
Qed.

Lemma last_step x : is_u64 x ->
  Z.lor (Z.shiftr x 32) (u64 (Z.shiftl x 32)) = swap_step x 32 (2 ^ 32 - 1).
Proof.
  intros Hx. apply Z.bits_inj'. intros i Hi. unfold swap_step.
  rewrite !Z.lor_spec, Z.land_spec, !testbit_u64, !Z.shiftl_spec, Z.land_spec, Z.shiftr_spec by lia.
  change (2 ^ 32 - 1) with (Z.ones 32).
  rewrite (Z.testbit_ones_nonneg 32 i) by lia.
  destruct (Z.ltb_spec i 64).
  - cbn [andb]. destruct (Z.ltb_spec i 32).
    + rewrite (Z.testbit_neg_r x (i - 32)), (Z.testbit_neg_r (Z.ones 32) (i - 32)) by lia.
      cbn [andb]. rewrite andb_true_r. reflexivity.
    + rewrite (testbit_high64 x (i + 32)) by (auto; lia).
      rewrite Z.testbit_ones_nonneg by lia. replace (i - 32 <? 32) with true by lia.
      rewrite andb_true_r. reflexivity.
  - cbn [andb]. rewrite (testbit_high64 x (i + 32)) by (auto; lia). reflexivity.
Qed.

Lemma magic_ok :
  forallb (swap_ok 1 magic_mask_1) (map Z.of_nat (seq 0 64)) = true /\
  forallb (swap_ok 2 magic_mask_2) (map Z.of_nat (seq 0 64)) = true /\
  forallb (swap_ok 4 magic_mask_3) (map Z.of_nat (seq 0 64)) = true /\
  forallb (swap_ok 8 magic_mask_4) (map Z.of_nat (seq 0 64)) = true /\
  forallb (swap_ok 16 magic_mask_5) (map Z.of_nat (seq 0 64)) = true /\
  forallb (swap_ok 32 (2 ^ 32 - 1)) (map Z.of_nat (seq 0 64)) = true.
Proof. vm_compute. auto 10. Qed.

Lemma is_u64_masks : is_u64 magic_mask_1 /\ is_u64 magic_mask_2 /\ is_u64 magic_mask_3 /\
  is_u64 magic_mask_4 /\ is_u64 magic_mask_5 /\ is_u64 (2 ^ 32 - 1).
Proof. unfold is_u64. repeat split; vm_compute; congruence. Qed.

Lemma reverse_bytes_range x : is_u64 x -> is_u64 (reverse_bytes x).
Proof.
  intros Hx. unfold reverse_bytes. cbv zeta. destruct is_u64_masks as (?&?&?&?&?&?).
  fold (swap_step x 8 magic_mask_4).
  fold (swap_step (swap_step x 8 magic_mask_4) 16 magic_mask_5).
  rewrite last_step; repeat (apply swap_step_range; [lia| |assumption]); auto.
Qed.

Lemma reverse_bytes_bit x i : is_u64 x -> 0 <= i < 64 ->
  Z.testbit (reverse_bytes x) i = Z.testbit x (8 * (7 - i / 8) + i mod 8).
Proof.
  intros Hx Hi. unfold reverse_bytes. cbv zeta. destruct is_u64_masks as (?&?&?&?&?&?).
  fold (swap_step x 8 magic_mask_4).
  fold (swap_step (swap_step x 8 magic_mask_4) 16 magic_mask_5).
  rewrite last_step by (repeat (apply swap_step_range; [lia| |assumption]); auto).
  destruct magic_ok as (M1&M2&M3&M4&M5&M6).
  destruct (swap_ok_bit (swap_step (swap_step x 8 magic_mask_4) 16 magic_mask_5) 32 _ i
    ltac:(clear; lia) Hi M6) as [-> H6].
  destruct (swap_ok_bit (swap_step x 8 magic_mask_4) 16 _ _ ltac:(clear; lia) H6 M5) as [-> H7].
  destruct (swap_ok_bit x 8 _ _ ltac:(clear; lia) H7 M4) as [-> H8].
  f_equal. apply Z.eqb_eq.
  refine (sweep 64 (fun i => swap_index 8 magic_mask_4 (swap_index 16 magic_mask_5
    (swap_index 32 (2 ^ 32 - 1) i)) =? 8 * (7 - i / 8) + i mod 8) _ i Hi).
  vm_compute. reflexivity.
Qed.

Lemma reverse_bits_range x : is_u64 x -> is_u64 (reverse_bits x).
Proof.
  intros Hx. unfold reverse_bits. cbv zeta. destruct is_u64_masks as (?&?&?&?&?&?).
  apply reverse_bytes_range. repeat (apply swap_step_range; [lia| |assumption]); auto.
Qed.

Lemma reverse_bits_bit x i : is_u64 x -> 0 <= i < 64 ->
  Z.testbit (reverse_bits x) i = Z.testbit x (63 - i).
Proof.
  intros Hx Hi. unfold reverse_bits. cbv zeta. destruct is_u64_masks as (?&?&?&?&?&?).
  fold (swap_step x 1 magic_mask_1).
  fold (swap_step (swap_step x 1 magic_mask_1) 2 magic_mask_2).
  fold (swap_step (swap_step (swap_step x 1 magic_mask_1) 2 magic_mask_2) 4 magic_mask_3).
  rewrite reverse_bytes_bit by (auto; repeat (apply swap_step_range; [lia| |assumption]); auto).
  destruct magic_ok as (M1&M2&M3&M4&M5&M6).
  assert (H5 : 0 <= 8 * (7 - i / 8) + i mod 8 < 64) by (clear - Hi; dlia).
  destruct (swap_ok_bit (swap_step (swap_step x 1 magic_mask_1) 2 magic_mask_2) 4 _ _
    ltac:(clear; lia) H5 M3) as [-> H6].
  destruct (swap_ok_bit (swap_step x 1 magic_mask_1) 2 _ _ ltac:(clear; lia) H6 M2) as [-> H7].
  destruct (swap_ok_bit x 1 _ _ ltac:(clear; lia) H7 M1) as [-> H8].
  f_equal. apply Z.eqb_eq.
  refine (sweep 64 (fun i => swap_index 1 magic_mask_1 (swap_index 2 magic_mask_2
    (swap_index 4 magic_mask_3 (8 * (7 - i / 8) + i mod 8))) =? 63 - i) _ i Hi).
  vm_compute. reflexivity.
Qed.

Lemma reverse_bits_correct x : is_u64 x ->
  is_u64 (reverse_bits x) /\ word_bits (reverse_bits x) = rev (word_bits x).
Proof.
  intros Hx. split; [apply reverse_bits_range; auto|].
  apply nth_ext_bool; [rewrite rev_length, !word_bits_length; auto|].
  intros i Hi. rewrite word_bits_length in Hi.
  rewrite rev_nth by (rewrite word_bits_length; auto). rewrite word_bits_length.
  unfold word_bits. rewrite !nth_bits_of by lia.
  rewrite reverse_bits_bit by (auto; lia). f_equal. lia.
Qed.

Lemma byte_testbit w i j : 0 <= j < 8 ->
  Z.testbit (byte w i) j = Z.testbit w (8 * Z.of_nat i + j).
Proof.
  intros Hj. unfold byte. rewrite Z.mod_pow2_bits_low by lia.
  rewrite Z.div_pow2_bits by lia. f_equal. lia.
Qed.

Lemma byte_range w i : 0 <= byte w i < 2 ^ 8.
Proof. unfold byte. apply Z.mod_pos_bound. lia. Qed.

Lemma byte_eq a b i j :
  (forall t, 0 <= t < 8 -> Z.testbit a (8 * Z.of_nat i + t) = Z.testbit b (8 * Z.of_nat j + t)) ->
  byte a i = byte b j.
Proof.
  intros H. apply Z.bits_inj'. intros t Ht. destruct (Z.lt_ge_cases t 8).
  - rewrite !byte_testbit by lia. apply H. lia.
  - rewrite !(testbit_high _ 8) by (auto using byte_range). reflexivity.
Qed.

Lemma reverse_bytes_correct x i : is_u64 x -> (i < 8)%nat ->
  byte (reverse_bytes x) i = byte x (7 - i).
Proof.
  intros Hx Hi. apply byte_eq. intros t Ht.
  rewrite reverse_bytes_bit by (auto; lia). f_equal.
  rewrite (Z.mul_comm 8 (Z.of_nat i)), Z.div_add_l by lia.
  rewrite (Z.add_comm _ t), Z.mod_add by lia. rewrite Z.mod_small, Z.div_small by lia. lia.
Qed.

Lemma byte_inj x y : is_u64 x -> is_u64 y ->
  (forall i, (i < 8)%nat -> byte x i = byte y i) -> x = y.
Proof.
  intros Hx Hy H. apply bits_inj64; auto. intros i Hi.
  specialize (H (Z.to_nat (i / 8)) ltac:(dlia)).
  assert (E : i = 8 * Z.of_nat (Z.to_nat (i / 8)) + i mod 8) by dlia.
  rewrite E. rewrite <- !byte_testbit by dlia. rewrite H. reflexivity.
Qed.

Lemma reverse_bytes_intrinsic_correct x : is_u64 x ->
  reverse_bytes_intrinsic x = reverse_bytes x.
Proof.
  intros Hx.
  assert (E : reverse_bytes_intrinsic x = dval 8 (map (byte x) [7;6;5;4;3;2;1;0]%nat)).
  { assert (B : forall i, Z.land (Z.shiftr x (8 * Z.of_nat i)) 255 = byte x i).
    { intros i. change 255 with (Z.ones 8). rewrite Z.land_ones, Z.shiftr_div_pow2 by lia. reflexivity. }
    unfold reverse_bytes_intrinsic. cbn [seq map fold_right dval]. rewrite !B.
    change (2 ^ (8 * (7 - Z.of_nat 0))) with 72057594037927936.
    change (2 ^ (8 * (7 - Z.of_nat 1))) with 281474976710656.
    change (2 ^ (8 * (7 - Z.of_nat 2))) with 1099511627776.
    change (2 ^ (8 * (7 - Z.of_nat 3))) with 4294967296.
    change (2 ^ (8 * (7 - Z.of_nat 4))) with 16777216.
    change (2 ^ (8 * (7 - Z.of_nat 5))) with 65536.
    change (2 ^ (8 * (7 - Z.of_nat 6))) with 256.
    change (2 ^ (8 * (7 - Z.of_nat 7))) with 1.
    change (2 ^ 8) with 256. ring. }
  assert (F : Forall (digit 8) (map (byte x) [7;6;5;4;3;2;1;0]%nat)).
  { cbn [map]. repeat (apply Forall_cons; [apply byte_range|]). apply Forall_nil. }
  assert (R : is_u64 (reverse_bytes_intrinsic x)).
  { rewrite E. apply dval8_range; [exact F|reflexivity]. }
  apply byte_inj; auto using reverse_bytes_range.
  intros i Hi. rewrite reverse_bytes_correct by auto.
  rewrite E. unfold byte at 1. rewrite <- (nth_digits 8 8) by lia.
  rewrite digits_dval8 by auto.
  do 8 (destruct i as [|i]; [reflexivity|]). lia.
Qed.

(** ** bit_position *)
Lemma bit_position_pow2 p : 0 <= p < 64 -> bit_position (2 ^ p) = Ok p.
Proof.
  intros Hp.
  set (P := fun p => match bit_position (2 ^ p) with Ok q => q =? p | Ub _ => false end).
  assert (S : P p = true) by (apply (sweep 64); [vm_compute; reflexivity | exact Hp]).
  unfold P in S. destruct (bit_position (2 ^ p)); [|discriminate]. f_equal. lia.
Qed.

Lemma count_two_le l i j : (i < j)%nat -> nth_error l i = Some true -> nth_error l j = Some true ->
  (2 <= count true l)%nat.
Proof.
  intros Hij Hi Hj.
  pose proof (rank_S true l i true Hi). pose proof (rank_S true l j true Hj).
  simpl in *. pose proof (rank_mono true l (S i) j Hij). pose proof (rank_le_count true l (S j)). lia.
Qed.

(** ** msb *)
Lemma msb_sat_bit x w i : 0 <= w -> 0 <= i ->
  Z.testbit (Z.lor x (Z.shiftr x w)) i = Z.testbit x i || Z.testbit x (i + w).
Proof. intros. rewrite Z.lor_spec, Z.shiftr_spec by lia. reflexivity. Qed.

(** [x] has every bit of the [w] positions up to [L] set and none above [L] *)
Definition sat (L w x : Z) : Prop :=
  (forall i, 0 <= i -> L - w < i <= L -> Z.testbit x i = true) /\
  (forall i, L < i -> Z.testbit x i = false).

Lemma sat_step L w x : 0 <= L -> 0 <= w -> sat L w x -> sat L (2 * w) (Z.lor x (Z.shiftr x w)).
Proof.
  intros HL Hw [H1 H2]. split; intros i Hi.
  - intros Hi2. rewrite msb_sat_bit by lia. destruct (Z.lt_ge_cases (L - w) i).
    + rewrite H1 by lia. reflexivity.
    + rewrite (H1 (i + w)) by lia. apply orb_true_r.
  - rewrite msb_sat_bit by lia. rewrite !H2 by lia. reflexivity.
Qed.

Lemma msb_opt_correct x : is_u64 x -> x <> 0 -> msb_opt x = Ok (Some (Z.log2 x)).
Proof.
  intros Hx Hn. unfold is_u64 in Hx. unfold msb_opt. replace (x =? 0) with false by lia. cbv zeta.
  set (L := Z.log2 x).
  assert (HL : 0 <= L) by apply Z.log2_nonneg.
  assert (HL2 : L < 64) by (apply Z.log2_lt_pow2; lia).
  assert (S0 : sat L 1 x).
  { split; intros i Hi; [intros Hi2|].
    - replace i with (Z.log2 x) by (fold L; lia). apply Z.bit_log2. lia.
    - apply Z.bits_above_log2; [lia|]. fold L. lia. }
  apply sat_step in S0; [|lia|lia]. apply sat_step in S0; [|lia|lia].
  apply sat_step in S0; [|lia|lia]. apply sat_step in S0; [|lia|lia].
  apply sat_step in S0; [|lia|lia]. apply sat_step in S0; [|lia|lia].
  change (2 * (2 * (2 * (2 * (2 * (2 * 1)))))) with 64 in S0.
  change (2 * (2 * (2 * (2 * (2 * 1))))) with 32 in S0.
  change (2 * (2 * (2 * (2 * 1)))) with 16 in S0.
  change (2 * (2 * (2 * 1))) with 8 in S0.
  change (2 * (2 * 1)) with 4 in S0. change (2 * 1) with 2 in S0.
  match goal with S : sat L 64 ?t |- _ => set (y := t) in * end.
  clearbody y. destruct S0 as [S1 S2].
  replace (Z.lxor y (Z.shiftr y 1)) with (2 ^ L).
  { rewrite bit_position_pow2 by lia. reflexivity. }
  apply Z.bits_inj'. intros i Hi. rewrite Z.pow2_bits_eqb, Z.lxor_spec, Z.shiftr_spec by lia.
  destruct (Z.lt_trichotomy i L) as [H|[H|H]].
  - rewrite !S1 by lia. replace (L =? i) with false by lia. reflexivity.
  - rewrite S1, S2 by lia. replace (L =? i) with true by lia. reflexivity.
  - rewrite !S2 by lia. replace (L =? i) with false by lia. reflexivity.
Qed.

Lemma msb_opt_zero : msb_opt 0 = Ok None.
Proof. reflexivity. Qed.

Lemma msb_correct x : is_u64 x -> x <> 0 -> msb x = Ok (Z.log2 x).
Proof.
  intros Hx Hn. unfold msb. rewrite assert_true by lia.
  rewrite msb_opt_correct by auto. rewrite bind_ok.
  rewrite u8_small; [reflexivity|]. unfold is_u64 in Hx.
  assert (Z.log2 x < 64) by (apply Z.log2_lt_pow2; lia).
  pose proof (Z.log2_nonneg x). lia.
Qed.

(** ** lsb *)
Lemma lowest_bit_exists x : 0 < x -> exists c q, 0 <= c /\ 0 <= q /\ x = 2 ^ c * (2 * q + 1).
Proof.
  intros Hx. assert (H0 : 0 <= x) by lia. revert Hx. pattern x. apply Z_lt_induction; [|exact H0].
  clear x H0. intros x IH Hx. destruct (Z.odd x) eqn:E.
  - exists 0, (x / 2). rewrite Zodd_mod in E. apply Zeq_bool_eq in E.
    change (2 ^ 0) with 1. dlia.
  - assert (x mod 2 = 0) by (rewrite Zmod_odd, E; reflexivity).
    destruct (IH (x / 2) ltac:(dlia) ltac:(dlia)) as [c [q [Hc [Hq E2]]]].
    exists (c + 1), q. split; [lia|]. split; [lia|].
    rewrite Z.pow_add_r by lia. change (2 ^ 1) with 2. rewrite (Z.div_mod x 2) by lia. nia.
Qed.

(** position of the lowest one bit *)
Definition is_lsb (x c : Z) : Prop :=
  0 <= c /\ Z.testbit x c = true /\ forall i, 0 <= i < c -> Z.testbit x i = false.

Lemma lowest_bit_bits c q : 0 <= c -> is_lsb (2 ^ c * (2 * q + 1)) c.
Proof.
  intros Hc. split; [auto|]. replace (2 ^ c * (2 * q + 1)) with (0 + 2 ^ c * (2 * q + 1)) by ring.
  assert (0 < 2 ^ c) by (apply Z.pow_pos_nonneg; lia).
  split.
  - rewrite testbit_split by lia. rewrite Z.ltb_irrefl, Z.sub_diag. apply Z.testbit_odd_0.
  - intros i Hi. rewrite testbit_split by lia. replace (i <? c) with true by lia. apply Z.testbit_0_l.
Qed.

Lemma is_lsb_unique x c d : is_lsb x c -> is_lsb x d -> c = d.
Proof.
  intros [Hc [H1 H2]] [Hd [H3 H4]]. destruct (Z.lt_trichotomy c d) as [H|[H|H]]; auto.
  - rewrite H4 in H1 by lia. discriminate.
  - rewrite H2 in H3 by lia. discriminate.
Qed.

Lemma is_lsb_exists x : 0 < x -> exists c, is_lsb x c.
Proof.
  intros H. destruct (lowest_bit_exists x H) as [c [q [Hc [Hq E]]]]. exists c. rewrite E.
  apply lowest_bit_bits; auto.
Qed.

Lemma isolate_lsb x c : is_u64 x -> is_lsb x c -> Z.land x (u64 (- x)) = 2 ^ c.
Proof.
  intros Hx H. unfold is_u64 in Hx.
  assert (Hpos : 0 < x).
  { destruct (Z.eq_dec x 0) as [->|]; [|lia]. destruct H as [_ [H _]].
    rewrite Z.testbit_0_l in H. discriminate. }
  destruct (lowest_bit_exists x Hpos) as [d [q [Hd [Hq E]]]].
  pose proof (lowest_bit_bits d q Hd) as B. rewrite <- E in B.
  rewrite (is_lsb_unique x c d H B). clear c H.
  assert (P : 0 < 2 ^ d) by (apply Z.pow_pos_nonneg; lia).
  assert (d < 64).
  { destruct (Z.lt_ge_cases d 64); auto.
    pose proof (Z.pow_le_mono_r 2 64 d). nia. }
  apply Z.bits_inj'. intros i Hi. rewrite Z.land_spec, testbit_u64, Z.pow2_bits_eqb by lia.
  replace (- x) with (Z.lnot (x - 1)) by (unfold Z.lnot; lia).
  rewrite Z.lnot_spec by lia.
  replace (x - 1) with ((2 ^ d - 1) + 2 ^ d * (2 * q)) by (rewrite E; ring).
  rewrite testbit_split by lia.
  destruct B as [_ [B1 B2]].
  destruct (Z.lt_trichotomy i d) as [H0|[H0|H0]].
  - rewrite B2 by lia. replace (d =? i) with false by lia. reflexivity.
  - subst i. rewrite B1, Z.ltb_irrefl, Z.sub_diag, Z.testbit_even_0, Z.eqb_refl.
    replace (d <? 64) with true by lia. reflexivity.
  - replace (i <? d) with false by lia. replace (d =? i) with false by lia.
    rewrite E. replace (2 ^ d * (2 * q + 1)) with (0 + 2 ^ d * (2 * q + 1)) by ring.
    rewrite testbit_split by lia. replace (i <? d) with false by lia.
    replace (i - d) with (Z.succ (i - d - 1)) by lia.
    rewrite Z.testbit_odd_succ, Z.testbit_even_succ by lia.
    destruct (Z.testbit q (i - d - 1)), (i <? 64); reflexivity.
Qed.

Lemma is_lsb_lt64 x c : is_u64 x -> is_lsb x c -> 0 <= c < 64.
Proof.
  intros Hx [Hc [H _]]. destruct (Z.lt_ge_cases c 64); [lia|].
  rewrite testbit_high64 in H by auto. discriminate.
Qed.

Lemma lsb_opt_correct x c : is_u64 x -> is_lsb x c -> lsb_opt x = Ok (Some c).
Proof.
  intros Hx H. pose proof (is_lsb_lt64 x c Hx H) as Hc. unfold lsb_opt.
  replace (x =? 0) with false.
  2:{ symmetry. apply Z.eqb_neq. intros ->. destruct H as [_ [H _]].
      rewrite Z.testbit_0_l in H. discriminate. }
  rewrite (isolate_lsb x c) by auto. rewrite bit_position_pow2 by lia. reflexivity.
Qed.

Lemma lsb_opt_zero : lsb_opt 0 = Ok None.
Proof. reflexivity. Qed.

Lemma is_lsb_nonzero x c : is_lsb x c -> x <> 0.
Proof. intros [_ [H _]] ->. rewrite Z.testbit_0_l in H. discriminate. Qed.

Lemma lsb_correct x c : is_u64 x -> is_lsb x c -> lsb x = Ok c.
Proof.
  intros Hx H. pose proof (is_lsb_lt64 x c Hx H) as Hc. unfold lsb.
  pose proof (is_lsb_nonzero x c H). rewrite assert_true by lia.
  rewrite (lsb_opt_correct x c) by auto. rewrite bind_ok, u8_small by lia. reflexivity.
Qed.

(** ** agreement with the compiler builtins *)
Lemma find_seq_first (f : nat -> bool) a n c : (a <= c < a + n)%nat -> f c = true ->
  (forall i, (a <= i < c)%nat -> f i = false) -> find f (seq a n) = Some c.
Proof.
  revert a; induction n as [|n IH]; intros a H Hc Hl; [lia|]. simpl.
  destruct (Nat.eq_dec a c) as [->|Hn]; [rewrite Hc; auto|].
  rewrite Hl by lia. apply IH; auto; try lia. intros; apply Hl; lia.
Qed.

Lemma bsf64_correct x c : is_u64 x -> is_lsb x c -> bsf64 x = Some c.
Proof.
  intros Hx H. pose proof (is_lsb_lt64 x c Hx H) as Hc. unfold bsf64.
  destruct H as [_ [H1 H2]].
  rewrite (find_seq_first _ 0 64 (Z.to_nat c)).
  - f_equal. lia.
  - lia.
  - rewrite Z2Nat.id by lia. auto.
  - intros i Hi. apply H2. lia.
Qed.

Lemma find_rev_seq_last (f : nat -> bool) n c : (c < n)%nat -> f c = true ->
  (forall i, (c < i < n)%nat -> f i = false) -> find f (rev (seq 0 n)) = Some c.
Proof.
  induction n as [|n IH]; intros H Hc Hl; [lia|].
  rewrite seq_S, rev_app_distr. simpl.
  destruct (Nat.eq_dec n c) as [->|Hn]; [rewrite Hc; auto|].
  rewrite Hl by lia. apply IH; auto; try lia. intros; apply Hl; lia.
Qed.

Lemma bsr64_correct x : is_u64 x -> x <> 0 -> bsr64 x = Some (Z.log2 x).
Proof.
  intros Hx Hn. unfold is_u64 in Hx. unfold bsr64.
  pose proof (Z.log2_nonneg x). assert (Z.log2 x < 64) by (apply Z.log2_lt_pow2; lia).
  rewrite (find_rev_seq_last _ 64 (Z.to_nat (Z.log2 x))).
  - f_equal. lia.
  - lia.
  - rewrite Z2Nat.id by lia. apply Z.bit_log2. lia.
  - intros i Hi. apply Z.bits_above_log2; lia.
Qed.

Lemma bsf64_zero : bsf64 0 = None.
Proof. reflexivity. Qed.
Lemma bsr64_zero : bsr64 0 = None.
Proof. reflexivity. Qed.

(** ** same_msb *)
Lemma same_msb_sym x y : same_msb x y = same_msb y x.
Proof. unfold same_msb. rewrite Z.lxor_comm, Z.land_comm. reflexivity. Qed.

Lemma same_msb_lt x y : 0 <= x -> 0 < y -> (x = 0 \/ Z.log2 x < Z.log2 y) -> same_msb x y = false.
Proof.
  intros Hx Hy H. unfold same_msb. apply Z.leb_gt.
  set (L := Z.log2 y) in *. assert (HL : 0 <= L) by apply Z.log2_nonneg.
  assert (P : 0 < 2 ^ L) by (apply Z.pow_pos_nonneg; lia).
  assert (Hx2 : x < 2 ^ L).
  { destruct H as [->|H]; [auto|]. destruct (Z.eq_dec x 0) as [->|]; [auto|].
    apply Z.log2_lt_pow2; lia. }
  pose proof (land_range_l x y L HL ltac:(lia) ltac:(lia)) as HA.
  assert (2 ^ L <= Z.lxor x y).
  { destruct (Z.le_gt_cases (2 ^ L) (Z.lxor x y)) as [|C]; auto.
    assert (0 <= Z.lxor x y) by (apply Z.lxor_nonneg; lia).
    assert (Z.testbit (Z.lxor x y) L = false) by (eapply testbit_high; [split; eauto|lia]).
    assert (By : Z.testbit y L = true) by (apply Z.bit_log2; lia).
    rewrite Z.lxor_spec, (testbit_high x L L), By in H1 by lia. discriminate. }
  lia.
Qed.

Lemma same_msb_eq x y : 0 < x -> 0 < y -> Z.log2 x = Z.log2 y -> same_msb x y = true.
Proof.
  intros Hx Hy E. unfold same_msb. apply Z.leb_le.
  set (L := Z.log2 x) in *. assert (HL : 0 <= L) by apply Z.log2_nonneg.
  assert (0 <= Z.lxor x y) by (apply Z.lxor_nonneg; lia).
  assert (0 <= Z.land x y) by (apply Z.land_nonneg; lia).
  assert (Bx : Z.testbit x L = true) by (apply Z.bit_log2; lia).
  assert (By : Z.testbit y L = true) by (rewrite E; apply Z.bit_log2; lia).
  assert (Z.lxor x y < 2 ^ L).
  { apply nonneg_lt_pow2_bits; auto. intros i Hi. rewrite Z.lxor_spec.
    destruct (Z.eq_dec i L) as [->|Hn].
    - rewrite Bx, By. reflexivity.
    - rewrite !Z.bits_above_log2 by (unfold L in *; lia). reflexivity. }
  assert (2 ^ L <= Z.land x y).
  { destruct (Z.le_gt_cases (2 ^ L) (Z.land x y)) as [|C]; auto.
    assert (T : Z.testbit (Z.land x y) L = false) by (eapply testbit_high; [split; eauto|lia]).
    rewrite Z.land_spec, Bx, By in T. discriminate. }
  lia.
Qed.

Lemma same_msb_correct x y : is_u64 x -> is_u64 y ->
  same_msb x y = true <-> (x = 0 /\ y = 0) \/ (x <> 0 /\ y <> 0 /\ Z.log2 x = Z.log2 y).
Proof.
  unfold is_u64. intros Hx Hy.
  destruct (Z.eq_dec x 0) as [->|Nx]; destruct (Z.eq_dec y 0) as [->|Ny].
  - split; [auto|reflexivity].
  - rewrite same_msb_lt by (auto; lia). split; [discriminate|lia].
  - rewrite same_msb_sym, same_msb_lt by (auto; lia). split; [discriminate|lia].
  - destruct (Z.lt_trichotomy (Z.log2 x) (Z.log2 y)) as [H|[H|H]].
    + rewrite same_msb_lt by (auto; lia). split; [discriminate|lia].
    + rewrite same_msb_eq by lia. split; auto.
    + rewrite same_msb_sym, same_msb_lt by (auto; lia). split; [discriminate|lia].
Qed.

(** ** Lane comparisons *)
Lemma map2_forall {A B} (P : A -> Prop) (Q : B -> Prop) {C} (R : C -> Prop) (f : A -> B -> C) xs ys :
  (forall x y, P x -> Q y -> R (f x y)) -> Forall P xs -> Forall Q ys -> Forall R (map2 f xs ys).
Proof.
  intros H Hx. revert ys; induction Hx; intros ys Hy; simpl; [constructor|].
  inversion Hy; constructor; auto.
Qed.

Lemma map2_ext_forall {A B C} (P : A -> Prop) (Q : B -> Prop) (f g : A -> B -> C) xs ys :
  (forall x y, P x -> Q y -> f x y = g x y) -> Forall P xs -> Forall Q ys ->
  map2 f xs ys = map2 g xs ys.
Proof.
  intros H Hx. revert ys; induction Hx; intros ys Hy; simpl; auto.
  inversion Hy; subst; auto. f_equal; auto.
Qed.

Lemma map2_l {A B C D} (f : C -> B -> D) (g : A -> C) xs ys :
  map2 f (map g xs) ys = map2 (fun x y => f (g x) y) xs ys.
Proof. revert ys; induction xs; intros [|y ys]; simpl; auto. f_equal; auto. Qed.
Lemma map_map2 {A B C D} (f : C -> D) (g : A -> B -> C) xs ys :
  map f (map2 g xs ys) = map2 (fun x y => f (g x y)) xs ys.
Proof. revert ys; induction xs; intros [|y ys]; simpl; auto. f_equal; auto. Qed.
Lemma map2_map2_same {A B C D E} (f : C -> D -> E) (g : A -> B -> C) (h : A -> B -> D) xs ys :
  map2 f (map2 g xs ys) (map2 h xs ys) = map2 (fun x y => f (g x y) (h x y)) xs ys.
Proof. revert ys; induction xs; intros [|y ys]; simpl; auto. f_equal; auto. Qed.
Lemma map2_flip {A B C} (f : A -> B -> C) xs ys : map2 f xs ys = map2 (fun y x => f x y) ys xs.
Proof. revert ys; induction xs; intros [|y ys]; simpl; auto. f_equal; auto. Qed.

(** one lane of width [n + 1] *)
Section lane_algebra.
  Context (n : Z) (Hn : 0 <= n).
  Let W := 2 ^ (n + 1).
  Let M := 2 ^ n.

  Lemma lane_WM : W = 2 * M /\ 0 < M.
  Proof.
    unfold W, M. rewrite Z.pow_add_r by lia. change (2 ^ 1) with 2.
    split; [ring|apply Z.pow_pos_nonneg; lia].
  Qed.

  Lemma lane_testbit d : 0 <= d < W -> Z.testbit d n = (M <=? d).
  Proof.
    destruct lane_WM as [E P]. intros Hd. rewrite E in Hd.
    destruct (Z.leb_spec M d).
    - replace d with ((d - M) + M * 1) by ring. unfold M. rewrite testbit_split; fold M; try lia.
      rewrite Z.ltb_irrefl, Z.sub_diag. reflexivity.
    - apply (testbit_high d n); fold M; lia.
  Qed.

  Lemma lane_land_low d : Z.land d (M - 1) = d mod M.
  Proof.
    unfold M. replace (2 ^ n - 1) with (Z.ones n) by (rewrite Z.ones_equiv; lia).
    apply Z.land_ones; auto.
  Qed.

  Lemma lane_land_top d : 0 <= d < W -> Z.land d M = if M <=? d then M else 0.
  Proof.
    intros Hd. apply Z.bits_inj'. intros i Hi. rewrite Z.land_spec.
    unfold M at 1. rewrite Z.pow2_bits_eqb by lia.
    destruct (Z.eqb_spec n i) as [<-|N].
    - rewrite andb_true_r, lane_testbit by auto. destruct (M <=? d).
      + unfold M. rewrite Z.pow2_bits_true by lia. reflexivity.
      + rewrite Z.testbit_0_l. reflexivity.
    - rewrite andb_false_r. destruct (M <=? d).
      + unfold M. rewrite Z.pow2_bits_false by lia. reflexivity.
      + rewrite Z.testbit_0_l. reflexivity.
  Qed.

  Lemma lane_lor_top d : 0 <= d < W -> Z.lor d M = M + d mod M.
  Proof.
    intros Hd. destruct lane_WM as [E P].
    assert (Hm : 0 <= d mod M < M) by (apply Z.mod_pos_bound; auto).
    rewrite (Z.div_mod d M) at 1 by lia.
    replace (M * (d / M) + d mod M) with (d mod M + 2 ^ n * (d / M)) by (unfold M; ring).
    replace M with (0 + 2 ^ n * 1) at 3 by (unfold M; ring).
    rewrite split_lor by (unfold M in *; lia).
    rewrite Z.lor_0_r. fold M.
    assert (d / M = 0 \/ d / M = 1) as [->| ->].
    { rewrite E in Hd. assert (0 <= d / M) by (apply Z.div_pos; lia).
      assert (d / M < 2) by (apply Z.div_lt_upper_bound; lia). lia. }
    - change (Z.lor 0 1) with 1. ring.
    - change (Z.lor 1 1) with 1. ring.
  Qed.

  Lemma lane_sub_range d e : 0 <= d < W -> 0 <= e < W ->
    0 <= Z.lor e M - Z.land d (M - 1) < W /\
    Z.testbit (Z.lor e M - Z.land d (M - 1)) n = (d mod M <=? e mod M).
  Proof.
    intros Hd He. destruct lane_WM as [E P].
    assert (Hm : 0 <= d mod M < M) by (apply Z.mod_pos_bound; auto).
    assert (Hm2 : 0 <= e mod M < M) by (apply Z.mod_pos_bound; auto).
    rewrite lane_lor_top, lane_land_low by auto.
    split; [lia|]. rewrite lane_testbit by lia. lia.
  Qed.

  Lemma lane_land_bit x : 0 <= x < W -> Z.land x M = M * Z.b2z (Z.testbit x n).
  Proof.
    intros H. rewrite lane_land_top, lane_testbit by auto. destruct (M <=? x); cbn [Z.b2z]; lia.
  Qed.

  Lemma lane_not d e : 0 <= d < W -> 0 <= e < W ->
    0 <= Z.land d (W - 1 - e) < W /\
    Z.testbit (Z.land d (W - 1 - e)) n = Z.testbit d n && negb (Z.testbit e n).
  Proof.
    intros Hd He. destruct lane_WM as [E P].
    split; [apply land_range; lia|].
    rewrite Z.land_spec. f_equal. rewrite !lane_testbit by lia. lia.
  Qed.

  Lemma lane_mod d : 0 <= d < W -> d mod M = if M <=? d then d - M else d.
  Proof.
    intros Hd. destruct lane_WM as [E P]. destruct (Z.leb_spec M d).
    - symmetry. apply Z.mod_unique_pos with (q := 1); lia.
    - apply Z.mod_small; lia.
  Qed.
End lane_algebra.

(** what the two byte comparisons really compute in a lane *)
Definition leq8_lane (d e : Z) : Z :=
  if Bool.eqb (d <? 128) (e <? 128) then (if d <=? e then 1 else 0)
  else if e mod 128 <? d mod 128 then 1 else 0.
Definition uleq8_lane (d e : Z) : Z :=
  if Bool.eqb (d <? 128) (e <? 128) then (if d <=? e then 1 else 0)
  else if d <? 128 then (if e mod 128 <? d mod 128 then 1 else 0)
  else (if d mod 128 <=? e mod 128 then 1 else 0).

Definition leq8_digit (d e : Z) : Z :=
  Z.land (Z.lxor (Z.lor e 128 - Z.land d 127) (Z.lxor d e)) 128.
Definition uleq8_digit (d e : Z) : Z :=
  Z.land (Z.lxor (Z.lxor (Z.lor e 128 - Z.land d 127) (Z.lxor d e)) (Z.land d (255 - e))) 128.

Lemma leq8_sweep d e : digit 8 d -> digit 8 e ->
  digit 8 (Z.lor e 128 - Z.land d 127) /\ digit 8 (Z.lxor d e) /\
  digit 8 (Z.lxor (Z.lor e 128 - Z.land d 127) (Z.lxor d e)) /\
  digit 8 (Z.land d (255 - e)) /\
  digit 8 (Z.lxor (Z.lxor (Z.lor e 128 - Z.land d 127) (Z.lxor d e)) (Z.land d (255 - e))) /\
  leq8_digit d e = 2 ^ 7 * leq8_lane d e /\ uleq8_digit d e = 2 ^ 7 * uleq8_lane d e.
Proof.
  intros Hd He.
  unfold digit in *. change (2 ^ 8) with (2 ^ (7 + 1)) in *.
  destruct (lane_sub_range 7 ltac:(lia) d e Hd He) as [R1 B1].
  destruct (lane_not 7 ltac:(lia) d e Hd He) as [R2 B2].
  change (2 ^ 7) with 128 in *. change (128 - 1) with 127 in *.
  change (2 ^ (7 + 1) - 1 - e) with (255 - e) in *.
  assert (R3 : 0 <= Z.lxor d e < 2 ^ (7 + 1)) by (apply lxor_range; lia).
  assert (R4 : 0 <= Z.lxor (Z.lor e 128 - Z.land d 127) (Z.lxor d e) < 2 ^ (7 + 1))
    by (apply lxor_range; lia).
  assert (R5 : 0 <= Z.lxor (Z.lxor (Z.lor e 128 - Z.land d 127) (Z.lxor d e)) (Z.land d (255 - e))
     < 2 ^ (7 + 1)) by (apply lxor_range; lia).
  do 5 (split; [assumption|]).
  assert (Bd := lane_testbit 7 ltac:(lia) d Hd). assert (Be := lane_testbit 7 ltac:(lia) e He).
  assert (Md := lane_mod 7 ltac:(lia) d Hd). assert (Me := lane_mod 7 ltac:(lia) e He).
  change (2 ^ 7) with 128 in *.
  split.
  - unfold leq8_digit. change 128 with (2 ^ 7) at 2. rewrite (lane_land_bit 7) by (auto; lia).
    change (2 ^ 7) with 128. f_equal.
    rewrite !Z.lxor_spec, B1, Bd, Be. unfold leq8_lane. rewrite Md, Me. clear - Hd He.
    destruct (Z.leb_spec 128 d), (Z.leb_spec 128 e), (Z.ltb_spec d 128), (Z.ltb_spec e 128);
      try lia; cbn [Bool.eqb xorb];
      repeat match goal with |- context [?a <=? ?b] => destruct (Z.leb_spec a b)
                        | |- context [?a <? ?b] => destruct (Z.ltb_spec a b) end;
      cbn [xorb Z.b2z]; lia.
  - unfold uleq8_digit. change 128 with (2 ^ 7) at 2. rewrite (lane_land_bit 7) by (auto; lia).
    change (2 ^ 7) with 128. f_equal.
    rewrite !Z.lxor_spec, B1, B2, Bd, Be. unfold uleq8_lane. rewrite Md, Me. clear - Hd He.
    destruct (Z.leb_spec 128 d), (Z.leb_spec 128 e), (Z.ltb_spec d 128), (Z.ltb_spec e 128);
      try lia; cbn [Bool.eqb xorb andb negb];
      repeat match goal with |- context [?a <=? ?b] => destruct (Z.leb_spec a b)
                        | |- context [?a <? ?b] => destruct (Z.ltb_spec a b) end;
      cbn [xorb Z.b2z]; lia.
Qed.

Lemma land_not_msbs8 ds : length ds = 8%nat -> Forall (digit 8) ds ->
  Z.land (dval 8 ds) (not64 msbs_step_8) = dval 8 (map (fun d => Z.land d 127) ds).
Proof.
  intros L H. apply dval_land_c; auto; [lia|rewrite L; reflexivity|unfold digit; lia].
Qed.

Lemma digit_map2 ds es f : Forall (digit 8) ds -> Forall (digit 8) es ->
  (forall d e, digit 8 d -> digit 8 e -> digit 8 (f d e)) -> Forall (digit 8) (map2 f ds es).
Proof. intros. eapply map2_forall; eauto. Qed.

Lemma shiftr_lanes k s ds : 0 <= s ->
  Z.shiftr (dval k (map (fun d => 2 ^ s * d) ds)) s = dval k ds.
Proof.
  intros Hs. rewrite dval_shiftr; auto.
  - rewrite map_map. f_equal. rewrite <- map_id. apply map_ext. intros d.
    rewrite Z.shiftr_div_pow2, Z.mul_comm, Z.div_mul by (try apply Z.pow_nonzero; lia). reflexivity.
  - clear. induction ds; simpl; constructor; auto. exists a. ring.
Qed.

Lemma not64_dval8 es : length es = 8%nat -> Forall (digit 8) es ->
  not64 (dval 8 es) = dval 8 (map (fun e => 255 - e) es).
Proof.
  intros L H. rewrite not64_eq by (apply dval8_range; auto).
  do 8 (destruct es as [|? es]; [discriminate L|]). destruct es; [|discriminate L].
  cbn [map dval]. change (2 ^ 8) with 256. change (2 ^ 64) with 18446744073709551616. ring.
Qed.

Lemma step_8_dval ds es : length ds = 8%nat -> length es = 8%nat ->
  Forall (digit 8) ds -> Forall (digit 8) es ->
  Z.lxor (u64 (Z.lor (dval 8 es) msbs_step_8 - Z.land (dval 8 ds) (not64 msbs_step_8)))
    (Z.lxor (dval 8 ds) (dval 8 es)) =
  dval 8 (map2 (fun d e => Z.lxor (Z.lor e 128 - Z.land d 127) (Z.lxor d e)) ds es).
Proof.
  intros Ld Le Hd He.
  rewrite land_not_msbs8 by auto.
  rewrite (dval_lor_c 8 ltac:(lia) es 128) by (first [rewrite Le; reflexivity|assumption|unfold digit; lia]).
  rewrite dval_sub by (rewrite !map_length; lia).
  rewrite dval_lxor by (try lia; auto).
  rewrite map2_map, map2_flip.
  assert (S := leq8_sweep).
  rewrite u64_small.
  2:{ apply dval8_range; [apply digit_map2; auto; intros; apply S; auto|].
      rewrite map2_length; lia. }
  rewrite dval_lxor; [|lia|rewrite !map2_length; lia|apply digit_map2; auto; intros; apply S; auto|
     apply digit_map2; auto; intros; apply S; auto].
  rewrite map2_map2_same. reflexivity.
Qed.

Lemma leq_step_8_dval ds es : length ds = 8%nat -> length es = 8%nat ->
  Forall (digit 8) ds -> Forall (digit 8) es ->
  leq_step_8 (dval 8 ds) (dval 8 es) = dval 8 (map2 leq8_lane ds es).
Proof.
  intros Ld Le Hd He. unfold leq_step_8. rewrite step_8_dval by auto.
  assert (S := leq8_sweep).
  rewrite (dval_land_c 8 ltac:(lia) _ 128);
   [|rewrite map2_length, Ld by lia; reflexivity|unfold digit; lia|apply digit_map2; auto; intros; apply S; auto].
  rewrite map_map2.
  rewrite (map2_ext_forall (digit 8) (digit 8) _ (fun d e => 2 ^ 7 * leq8_lane d e)) by
    (auto; intros; apply S; auto).
  rewrite <- (map_map2 (fun x => 2 ^ 7 * x)).
  apply shiftr_lanes. lia.
Qed.

Lemma uleq_step_8_dval ds es : length ds = 8%nat -> length es = 8%nat ->
  Forall (digit 8) ds -> Forall (digit 8) es ->
  uleq_step_8 (dval 8 ds) (dval 8 es) = dval 8 (map2 uleq8_lane ds es).
Proof.
  intros Ld Le Hd He. unfold uleq_step_8. rewrite step_8_dval by auto.
  assert (S := leq8_sweep).
  rewrite not64_dval8 by auto.
  rewrite (dval_land 8 ltac:(lia) ds (map (fun e => 255 - e) es)).
  2:{ rewrite map_length; lia. }
  2:{ auto. }
  2:{ eapply Forall_map; [|exact He]. unfold digit. change (2 ^ 8) with 256. intros; lia. }
  replace (map2 Z.land ds (map (fun e => 255 - e) es)) with (map2 (fun d e => Z.land d (255 - e)) ds es).
  2:{ rewrite <- (map_id ds) at 2. rewrite map2_map. reflexivity. }
  rewrite dval_lxor; [|lia|rewrite !map2_length; lia|apply digit_map2; auto; intros; apply S; auto|
     apply digit_map2; auto; intros; apply S; auto].
  rewrite map2_map2_same.
  rewrite (dval_land_c 8 ltac:(lia) _ 128);
   [|rewrite map2_length, Ld by lia; reflexivity|unfold digit; lia|apply digit_map2; auto; intros; apply S; auto].
  rewrite map_map2.
  rewrite (map2_ext_forall (digit 8) (digit 8) _ (fun d e => 2 ^ 7 * uleq8_lane d e)) by
    (auto; intros; apply S; auto).
  rewrite <- (map_map2 (fun x => 2 ^ 7 * x)).
  apply shiftr_lanes. lia.
Qed.

Lemma nth_map2 f xs ys i : (i < length xs)%nat -> length xs = length ys ->
  nth i (map2 f xs ys) 0 = f (nth i xs 0) (nth i ys 0) :> Z.
Proof.
  revert ys i; induction xs as [|x xs IH]; intros [|y ys] [|i] H L; simpl in *; try lia; auto.
  apply IH; lia.
Qed.

Lemma lane_digits n m w i : 0 <= n -> (i < m)%nat -> lane n w i = nth i (digits n m w) 0.
Proof. intros. unfold lane. rewrite nth_digits by auto. reflexivity. Qed.

Lemma leq_step_8_lanes x y i : is_u64 x -> is_u64 y -> (i < 8)%nat ->
  byte (leq_step_8 x y) i = leq8_lane (byte x i) (byte y i).
Proof.
  intros Hx Hy Hi. change (byte ?w i) with (lane 8 w i).
  rewrite (lane_digits 8 8 x), (lane_digits 8 8 y), (lane_digits 8 8 _ i) by lia.
  rewrite (digits8 x Hx) at 1. rewrite (digits8 y Hy) at 1.
  assert (Dx : Forall (digit 8) (digits 8 8 x)) by (apply digits_range; lia).
  assert (Dy : Forall (digit 8) (digits 8 8 y)) by (apply digits_range; lia).
  rewrite leq_step_8_dval by (auto using digits_length).
  rewrite digits_dval8.
  - rewrite nth_map2 by (rewrite !digits_length; lia). reflexivity.
  - rewrite map2_length; rewrite !digits_length; auto.
  - apply digit_map2; auto. intros. unfold digit, leq8_lane.
    repeat match goal with |- context [if ?c then _ else _] => destruct c end; lia.
Qed.

Lemma uleq_step_8_lanes x y i : is_u64 x -> is_u64 y -> (i < 8)%nat ->
  byte (uleq_step_8 x y) i = uleq8_lane (byte x i) (byte y i).
Proof.
  intros Hx Hy Hi. change (byte ?w i) with (lane 8 w i).
  rewrite (lane_digits 8 8 x), (lane_digits 8 8 y), (lane_digits 8 8 _ i) by lia.
  rewrite (digits8 x Hx) at 1. rewrite (digits8 y Hy) at 1.
  assert (Dx : Forall (digit 8) (digits 8 8 x)) by (apply digits_range; lia).
  assert (Dy : Forall (digit 8) (digits 8 8 y)) by (apply digits_range; lia).
  rewrite uleq_step_8_dval by (auto using digits_length).
  rewrite digits_dval8.
  - rewrite nth_map2 by (rewrite !digits_length; lia). reflexivity.
  - rewrite map2_length; rewrite !digits_length; auto.
  - apply digit_map2; auto. intros. unfold digit, uleq8_lane.
    repeat match goal with |- context [if ?c then _ else _] => destruct c end; lia.
Qed.

Lemma leq_step_8_correct x y i : is_u64 x -> is_u64 y -> (i < 8)%nat ->
  (128 <= byte x i <-> 128 <= byte y i) ->
  byte (leq_step_8 x y) i = if byte x i <=? byte y i then 1 else 0.
Proof.
  intros Hx Hy Hi H. rewrite leq_step_8_lanes by auto. unfold leq8_lane.
  replace (Bool.eqb (byte x i <? 128) (byte y i <? 128)) with true by lia. reflexivity.
Qed.
Lemma uleq_step_8_correct x y i : is_u64 x -> is_u64 y -> (i < 8)%nat ->
  (128 <= byte x i <-> 128 <= byte y i) ->
  byte (uleq_step_8 x y) i = if byte x i <=? byte y i then 1 else 0.
Proof.
  intros Hx Hy Hi H. rewrite uleq_step_8_lanes by auto. unfold uleq8_lane.
  replace (Bool.eqb (byte x i <? 128) (byte y i <? 128)) with true by lia. reflexivity.
Qed.

Definition zc_digit (d : Z) : Z := Z.land (Z.lor d (Z.lor d 128 - 1)) 128.

Lemma zc_sweep d : digit 8 d ->
  digit 8 (Z.lor d 128) /\ digit 8 (Z.lor d 128 - 1) /\ digit 8 (Z.lor d (Z.lor d 128 - 1)) /\
  zc_digit d = 2 ^ 7 * (if d =? 0 then 0 else 1).
Proof.
  intros Hd.
  set (P := fun d => (0 <=? Z.lor d 128) && (Z.lor d 128 <? 256) &&
     (0 <=? Z.lor d 128 - 1) && (Z.lor d 128 - 1 <? 256) &&
     (0 <=? Z.lor d (Z.lor d 128 - 1)) && (Z.lor d (Z.lor d 128 - 1) <? 256) &&
     (zc_digit d =? 2 ^ 7 * (if d =? 0 then 0 else 1))).
  assert (S : P d = true) by (apply (sweep 256); [vm_compute; reflexivity | exact Hd]).
  unfold P in S. unfold digit. change (2 ^ 8) with 256.
  repeat rewrite andb_true_iff in S. rewrite !Z.leb_le, !Z.ltb_lt, Z.eqb_eq in S. tauto.
Qed.

Lemma zcompare_step_8_correct x i : is_u64 x -> (i < 8)%nat ->
  byte (zcompare_step_8 x) i = if byte x i =? 0 then 0 else 1.
Proof.
  intros Hx Hi. change (byte ?w i) with (lane 8 w i).
  rewrite (lane_digits 8 8 x), (lane_digits 8 8 _ i) by lia.
  rewrite (digits8 x Hx) at 1.
  assert (D : Forall (digit 8) (digits 8 8 x)) by (apply digits_range; lia).
  assert (L : length (digits 8 8 x) = 8%nat) by apply digits_length.
  set (ds := digits 8 8 x) in *. clearbody ds. clear x Hx. unfold zcompare_step_8.
  assert (S := zc_sweep).
  rewrite (dval_lor_c 8 ltac:(lia) ds 128 msbs_step_8) by (first [rewrite L; reflexivity|assumption|unfold digit; lia]).
  rewrite (dval_sub_c 8 _ 1) by (rewrite map_length, L; reflexivity).
  rewrite map_map.
  rewrite u64_small.
  2:{ apply dval8_range; [|rewrite map_length; auto]. eapply Forall_map; [|exact D]. intros; apply S; auto. }
  rewrite dval_lor; [|lia|rewrite map_length; auto|auto|eapply Forall_map; [|exact D]; intros; apply S; auto].
  rewrite <- (map_id ds) at 1. rewrite map2_map, map2_same.
  rewrite (dval_land_c 8 ltac:(lia) _ 128);
   [|rewrite map_length, L; reflexivity|unfold digit; lia|eapply Forall_map; [|exact D]; intros; apply S; auto].
  rewrite map_map.
  rewrite (map_ext_in _ (fun d => 2 ^ 7 * (if d =? 0 then 0 else 1))).
  2:{ intros d Hd. apply S. eapply Forall_forall in D; eauto. }
  rewrite <- (map_map (fun d => if d =? 0 then 0 else 1) (fun d => 2 ^ 7 * d)).
  rewrite shiftr_lanes by lia.
  rewrite digits_dval8.
  - rewrite nth_map_Z by lia. reflexivity.
  - rewrite map_length; auto.
  - eapply Forall_map; [|exact D]. intros d _. cbn beta. unfold digit. destruct (d =? 0); lia.
Qed.

(** 9-bit lanes *)
Definition uleq9_digit (d e : Z) : Z :=
  Z.land (Z.lxor (Z.lor (Z.lor e 256 - Z.land d 255) (Z.lxor d e)) (Z.land d (511 - e))) 256.

Lemma uleq9_sweep d e : digit 9 d -> digit 9 e ->
  digit 9 (Z.lor e 256 - Z.land d 255) /\ digit 9 (Z.lxor d e) /\
  digit 9 (Z.lor (Z.lor e 256 - Z.land d 255) (Z.lxor d e)) /\
  digit 9 (Z.land d (511 - e)) /\
  digit 9 (Z.lxor (Z.lor (Z.lor e 256 - Z.land d 255) (Z.lxor d e)) (Z.land d (511 - e))) /\
  uleq9_digit d e = 2 ^ 8 * (if d <=? e then 1 else 0).
Proof.
  intros Hd He.
  unfold digit in *. change (2 ^ 9) with (2 ^ (8 + 1)) in *.
  destruct (lane_sub_range 8 ltac:(lia) d e Hd He) as [R1 B1].
  destruct (lane_not 8 ltac:(lia) d e Hd He) as [R2 B2].
  change (2 ^ 8) with 256 in *. change (256 - 1) with 255 in *.
  change (2 ^ (8 + 1) - 1 - e) with (511 - e) in *.
  assert (R3 : 0 <= Z.lxor d e < 2 ^ (8 + 1)) by (apply lxor_range; lia).
  assert (R4 : 0 <= Z.lor (Z.lor e 256 - Z.land d 255) (Z.lxor d e) < 2 ^ (8 + 1))
    by (apply lor_range; lia).
  assert (R5 : 0 <= Z.lxor (Z.lor (Z.lor e 256 - Z.land d 255) (Z.lxor d e)) (Z.land d (511 - e))
     < 2 ^ (8 + 1)) by (apply lxor_range; lia).
  do 5 (split; [assumption|]).
  assert (Bd := lane_testbit 8 ltac:(lia) d Hd). assert (Be := lane_testbit 8 ltac:(lia) e He).
  assert (Md := lane_mod 8 ltac:(lia) d Hd). assert (Me := lane_mod 8 ltac:(lia) e He).
  change (2 ^ 8) with 256 in *.
  unfold uleq9_digit. change 256 with (2 ^ 8) at 2. rewrite (lane_land_bit 8) by (auto; lia).
  change (2 ^ 8) with 256. f_equal.
  rewrite Z.lxor_spec, Z.lor_spec, Z.lxor_spec, B1, B2, Bd, Be. rewrite Md, Me. clear - Hd He.
  destruct (Z.leb_spec 256 d), (Z.leb_spec 256 e);
      try lia; cbn [orb xorb andb negb];
      repeat match goal with |- context [?a <=? ?b] => destruct (Z.leb_spec a b) end;
      cbn [orb xorb Z.b2z]; lia.
Qed.

Lemma dval9_range ds : Forall (digit 9) ds -> length ds = 7%nat -> 0 <= dval 9 ds < 2 ^ 63.
Proof.
  intros H L. pose proof (dval_range 9 ltac:(lia) ds H). unfold zlen in *. rewrite L in *. exact H0.
Qed.

Lemma digits9 w : 0 <= w < 2 ^ 63 -> w = dval 9 (digits 9 7 w).
Proof. intros H. symmetry. apply dval_digits; [lia|exact H]. Qed.

Lemma land_mask63 x m : 0 <= x < 2 ^ 63 -> Z.land x m = Z.land x (Z.land m (2 ^ 63 - 1)).
Proof.
  intros Hx. rewrite (Z.land_comm m), Z.land_assoc. f_equal.
  change (2 ^ 63 - 1) with (Z.ones 63). rewrite Z.land_ones by lia. rewrite Z.mod_small; auto.
Qed.

Lemma digits_dval9 ds : length ds = 7%nat -> Forall (digit 9) ds -> digits 9 7 (dval 9 ds) = ds.
Proof. intros L H. rewrite <- L. apply digits_dval; [lia | exact H]. Qed.

Lemma digit9_map2 ds es f : Forall (digit 9) ds -> Forall (digit 9) es ->
  (forall d e, digit 9 d -> digit 9 e -> digit 9 (f d e)) -> Forall (digit 9) (map2 f ds es).
Proof. intros. eapply map2_forall; eauto. Qed.

Lemma uleq_step_9_dval ds es : length ds = 7%nat -> length es = 7%nat ->
  Forall (digit 9) ds -> Forall (digit 9) es ->
  uleq_step_9 (dval 9 ds) (dval 9 es) =
  dval 9 (map2 (fun d e => if d <=? e then 1 else 0) ds es).
Proof.
  intros Ld Le Hd He. unfold uleq_step_9. assert (S := uleq9_sweep).
  pose proof (dval9_range ds Hd Ld) as Rd. pose proof (dval9_range es He Le) as Re.
  rewrite (land_mask63 (dval 9 ds) (not64 msbs_step_9)) by auto.
  rewrite (dval_land_c 9 ltac:(lia) ds 255) by (first [rewrite Ld; reflexivity|assumption|unfold digit; lia]).
  rewrite (land_mask63 (dval 9 ds) (not64 (dval 9 es))) by auto.
  replace (Z.land (not64 (dval 9 es)) (2 ^ 63 - 1)) with (dval 9 (map (fun e => 511 - e) es)).
  2:{ change (2 ^ 63 - 1) with (Z.ones 63). rewrite Z.land_ones, not64_eq by lia.
      replace (2 ^ 64 - 1 - dval 9 es) with (dval 9 (map (fun e => 511 - e) es) + 1 * 2 ^ 63).
      - rewrite Z.mod_add by lia. symmetry. apply Z.mod_small.
        apply dval9_range; [|rewrite map_length; auto]. eapply Forall_map; [|exact He].
        unfold digit. change (2 ^ 9) with 512. intros; lia.
      - clear - Le. do 7 (destruct es as [|? es]; [discriminate Le|]). destruct es; [|discriminate Le].
        cbn [map dval]. change (2 ^ 9) with 512. change (2 ^ 64) with 18446744073709551616.
        change (2 ^ 63) with 9223372036854775808. ring. }
  rewrite (dval_land 9 ltac:(lia) ds (map (fun e => 511 - e) es)).
  2:{ rewrite map_length; lia. }
  2:{ auto. }
  2:{ eapply Forall_map; [|exact He]. unfold digit. change (2 ^ 9) with 512. intros; lia. }
  rewrite (dval_lor_c 9 ltac:(lia) es 256) by (first [rewrite Le; reflexivity|assumption|unfold digit; lia]).
  rewrite dval_sub by (rewrite !map_length; lia).
  rewrite dval_lxor by (try lia; auto).
  rewrite map2_map, map2_flip.
  rewrite u64_small.
  2:{ enough (0 <= dval 9 (map2 (fun y x => Z.lor x 256 - Z.land y 255) ds es) < 2 ^ 63) by lia.
      apply dval9_range; [apply digit9_map2; auto; intros; apply S; auto|].
      rewrite map2_length; lia. }
  rewrite dval_lor; [|lia|rewrite !map2_length; lia|apply digit9_map2; auto; intros; apply S; auto|
     apply digit9_map2; auto; intros; apply S; auto].
  rewrite map2_map2_same.
  replace (map2 Z.land ds (map (fun e => 511 - e) es)) with (map2 (fun d e => Z.land d (511 - e)) ds es).
  2:{ rewrite <- (map_id ds) at 2. rewrite map2_map. reflexivity. }
  rewrite dval_lxor; [|lia|rewrite !map2_length; lia|apply digit9_map2; auto; intros; apply S; auto|
     apply digit9_map2; auto; intros; apply S; auto].
  rewrite map2_map2_same.
  rewrite (dval_land_c 9 ltac:(lia) _ 256);
   [|rewrite map2_length, Ld by lia; reflexivity|unfold digit; lia|apply digit9_map2; auto; intros; apply S; auto].
  rewrite map_map2.
  rewrite (map2_ext_forall (digit 9) (digit 9) _ (fun d e => 2 ^ 8 * (if d <=? e then 1 else 0))) by
    (auto; intros; apply S; auto).
  rewrite <- (map_map2 (fun x => 2 ^ 8 * x)).
  apply shiftr_lanes. lia.
Qed.

Lemma uleq_step_9_correct x y i : 0 <= x < 2 ^ 63 -> 0 <= y < 2 ^ 63 -> (i < 7)%nat ->
  lane 9 (uleq_step_9 x y) i = if lane 9 x i <=? lane 9 y i then 1 else 0.
Proof.
  intros Hx Hy Hi.
  rewrite (lane_digits 9 7 x), (lane_digits 9 7 y), (lane_digits 9 7 _ i) by lia.
  rewrite (digits9 x Hx) at 1. rewrite (digits9 y Hy) at 1.
  assert (Dx : Forall (digit 9) (digits 9 7 x)) by (apply digits_range; lia).
  assert (Dy : Forall (digit 9) (digits 9 7 y)) by (apply digits_range; lia).
  rewrite uleq_step_9_dval by (auto using digits_length).
  rewrite digits_dval9.
  - rewrite nth_map2 by (rewrite !digits_length; lia). reflexivity.
  - rewrite map2_length; rewrite !digits_length; auto.
  - apply digit9_map2; auto. intros. unfold digit. destruct (_ <=? _); lia.
Qed.

Lemma lane_comparisons x y i : is_u64 x -> is_u64 y ->
  ((i < 8)%nat -> (128 <= byte x i <-> 128 <= byte y i) ->
   byte (leq_step_8 x y) i = if byte x i <=? byte y i then 1 else 0) /\
  ((i < 8)%nat -> byte (zcompare_step_8 x) i = if byte x i =? 0 then 0 else 1) /\
  (x < 2 ^ 63 -> y < 2 ^ 63 -> (i < 7)%nat ->
   lane 9 (uleq_step_9 x y) i = if lane 9 x i <=? lane 9 y i then 1 else 0).
Proof.
  intros X Y. split; [|split].
  - intros; apply leq_step_8_correct; assumption.
  - intros; apply zcompare_step_8_correct; assumption.
  - intros. apply uleq_step_9_correct; [destruct X; lia|destruct Y; lia|assumption].
Qed.
