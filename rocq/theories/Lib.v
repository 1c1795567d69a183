(** General lemmas: outcomes, arrays, bits, digits. *)
From Verif Require Import Base Spec.
From Coq Require Import ZifyBool ZifyNat.

Global Arguments zlen {A} l : simpl never.
Global Arguments bits_of : simpl never.
Global Arguments count : simpl never.
Global Arguments rank : simpl never.
Global Arguments Z.mul : simpl never.
Global Arguments Z.pow : simpl never.
Global Arguments Z.add : simpl never.
Global Arguments Z.sub : simpl never.
Global Arguments Z.of_nat : simpl never.
Global Arguments Z.to_nat : simpl never.

Ltac dlia := zify; Z.div_mod_to_equations; lia.

Lemma bind_ok {A B} (a : A) (f : A -> res B) : bind (Ok a) f = f a.
Proof. reflexivity. Qed.

Lemma bind_inv {A B} (m : res A) (f : A -> res B) b :
  bind m f = Ok b -> exists a, m = Ok a /\ f a = Ok b.
Proof. destruct m; simpl; [eauto | discriminate]. Qed.

Lemma assert_true {A} c (k : res A) : c = true -> assert_ c k = k.
Proof. intros ->; reflexivity. Qed.

Lemma assert_inv {A} c (k : res A) a : assert_ c k = Ok a -> c = true /\ k = Ok a.
Proof. destruct c; simpl; [auto | discriminate]. Qed.

Lemma zlen_nonneg {A} (l : list A) : 0 <= zlen l.
Proof. unfold zlen; lia. Qed.
Lemma zlen_app {A} (l m : list A) : zlen (l ++ m) = zlen l + zlen m.
Proof. unfold zlen; rewrite app_length; lia. Qed.
Lemma zlen_cons {A} (x : A) l : zlen (x :: l) = zlen l + 1.
Proof. unfold zlen; simpl length; lia. Qed.
Lemma zlen_nil {A} : zlen (@nil A) = 0.
Proof. reflexivity. Qed.

Lemma rd_ok {A} (d : A) (l : list A) i :
  0 <= i < zlen l -> rd l i = Ok (nth (Z.to_nat i) l d).
Proof.
  intros H. unfold rd.
  replace ((0 <=? i) && (i <? zlen l)) with true by lia.
  unfold zlen in H.
  destruct (nth_error l (Z.to_nat i)) eqn:E.
  - f_equal. symmetry. apply nth_error_nth with (1 := E).
  - apply nth_error_None in E. lia.
Qed.

Lemma rd_inv {A} (d : A) (l : list A) i x :
  rd l i = Ok x -> 0 <= i < zlen l /\ x = nth (Z.to_nat i) l d.
Proof.
  unfold rd. destruct ((0 <=? i) && (i <? zlen l)) eqn:E; [|discriminate].
  intros H. split; [lia|].
  destruct (nth_error l (Z.to_nat i)) eqn:F; [|discriminate].
  injection H as <-. symmetry. apply nth_error_nth with (1 := F).
Qed.

Lemma rd_oob {A} (l : list A) i : ~ (0 <= i < zlen l) -> rd l i = Ub OutOfBounds.
Proof.
  intros H. unfold rd.
  destruct ((0 <=? i) && (i <? zlen l)) eqn:E; [lia | reflexivity].
Qed.

Lemma rd_map {A B} (f : A -> B) (l : list A) i :
  rd (map f l) i = do x <- rd l i; Ok (f x).
Proof.
  unfold rd, zlen. rewrite map_length.
  destruct ((0 <=? i) && (i <? Z.of_nat (length l))); [|reflexivity].
  rewrite nth_error_map. destruct (nth_error l (Z.to_nat i)); reflexivity.
Qed.

Lemma upd_length {A} (l : list A) n x : length (upd l n x) = length l.
Proof. revert n; induction l as [|h t IH]; intros [|n]; simpl; auto. Qed.

Lemma upd_nth {A} (d : A) (l : list A) n x m :
  nth m (upd l n x) d = if (Nat.eqb m n && Nat.ltb n (length l))%bool then x else nth m l d.
Proof.
  revert n m; induction l as [|h t IH]; intros [|n] [|m]; simpl; auto.
  - destruct (Nat.eqb m n); reflexivity.
  - rewrite IH. reflexivity.
Qed.

Lemma wr_ok {A} (l : list A) i x : 0 <= i < zlen l -> wr l i x = Ok (upd l (Z.to_nat i) x).
Proof.
  intros H. unfold wr. replace ((0 <=? i) && (i <? zlen l)) with true by lia. reflexivity.
Qed.

Lemma split_nth {A} (d : A) n l : (n < length l)%nat ->
  l = firstn n l ++ nth n l d :: skipn (S n) l.
Proof.
  revert n; induction l as [|x l IH]; intros [|n] H; simpl in *; try lia; auto.
  f_equal. apply IH. lia.
Qed.

(** ** Finite sweeps *)
Lemma sweep (n : nat) (P : Z -> bool) :
  forallb P (map Z.of_nat (seq 0 n)) = true ->
  forall x, 0 <= x < Z.of_nat n -> P x = true.
Proof.
  intros H x Hx. rewrite forallb_forall in H. apply H.
  apply in_map_iff. exists (Z.to_nat x). split; [lia|]. apply in_seq. lia.
Qed.

Lemma sweep2 (n m : nat) (P : Z -> Z -> bool) :
  forallb (fun x => forallb (P x) (map Z.of_nat (seq 0 m))) (map Z.of_nat (seq 0 n)) = true ->
  forall x y, 0 <= x < Z.of_nat n -> 0 <= y < Z.of_nat m -> P x y = true.
Proof.
  intros H x y Hx Hy.
  exact (sweep m (P x) (sweep n _ H x Hx) y Hy).
Qed.

(** ** Fixed-width integers *)
Lemma u64_small x : 0 <= x < 2 ^ 64 -> u64 x = x.
Proof. intros; unfold u64; apply Z.mod_small; lia. Qed.
Lemma u64_le x : 0 <= x -> u64 x <= x.
Proof. intros. apply Z.mod_le; lia. Qed.
Lemma u64_range x : 0 <= u64 x < 2 ^ 64.
Proof. unfold u64. apply Z.mod_pos_bound. lia. Qed.
Lemma u8_small x : 0 <= x < 2 ^ 8 -> u8 x = x.
Proof. intros; unfold u8; apply Z.mod_small; lia. Qed.
Lemma u16_small x : 0 <= x < 2 ^ 16 -> u16 x = x.
Proof. intros; unfold u16; apply Z.mod_small; lia. Qed.
Lemma i32_small x : - 2 ^ 31 <= x < 2 ^ 31 -> i32 x = x.
Proof. intros; unfold i32; rewrite Z.mod_small; lia. Qed.
Lemma i16_small x : - 2 ^ 15 <= x < 2 ^ 15 -> i16 x = x.
Proof. intros; unfold i16; rewrite Z.mod_small; lia. Qed.
Lemma i8_small x : - 2 ^ 7 <= x < 2 ^ 7 -> i8 x = x.
Proof. intros; unfold i8; rewrite Z.mod_small; lia. Qed.
Lemma i64_small x : - 2 ^ 63 <= x < 2 ^ 63 -> i64 x = x.
Proof. intros; unfold i64; rewrite Z.mod_small; lia. Qed.

Lemma not64_eq x : 0 <= x < 2 ^ 64 -> not64 x = 2 ^ 64 - 1 - x.
Proof.
  intros H. unfold not64, u64, Z.lnot.
  replace (Z.pred (- x)) with ((2 ^ 64 - 1 - x) + (-1) * 2 ^ 64) by lia.
  rewrite Z.mod_add by lia. apply Z.mod_small. lia.
Qed.

Lemma not64_range x : 0 <= not64 x < 2 ^ 64.
Proof. apply u64_range. Qed.

Lemma shl_ok x s : 0 <= s < 64 -> shl x s = Ok (u64 (Z.shiftl x s)).
Proof. intros. unfold shl. replace ((0 <=? s) && (s <? 64)) with true by lia. reflexivity. Qed.
Lemma shr_ok x s : 0 <= s < 64 -> shr x s = Ok (Z.shiftr x s).
Proof. intros. unfold shr. replace ((0 <=? s) && (s <? 64)) with true by lia. reflexivity. Qed.
Lemma shl_p_ok sp x s : 0 <= s < 64 -> shl_p sp x s = Ok (u64 (Z.shiftl x s)).
Proof. intros. unfold shl_p. replace ((0 <=? s) && (s <? 64)) with true by lia. reflexivity. Qed.
Lemma shl_p_big sp x s : ~ (0 <= s < 64) -> shl_p sp x s = sp x s.
Proof.
  intros. unfold shl_p. replace ((0 <=? s) && (s <? 64)) with false by lia. reflexivity.
Qed.

(** ** Bits *)
Lemma testbit_u64 x i : Z.testbit (u64 x) i = (i <? 64) && Z.testbit x i.
Proof.
  unfold u64. destruct (Z.ltb_spec i 64).
  - destruct (Z.ltb_spec i 0).
    + rewrite !Z.testbit_neg_r by lia. reflexivity.
    + rewrite Z.mod_pow2_bits_low by lia. reflexivity.
  - rewrite Z.mod_pow2_bits_high by lia. reflexivity.
Qed.

Lemma testbit_not64 x i : 0 <= i -> Z.testbit (not64 x) i = (i <? 64) && negb (Z.testbit x i).
Proof.
  intros. unfold not64. rewrite testbit_u64, Z.lnot_spec by lia. reflexivity.
Qed.

Lemma testbit_high x n i : 0 <= x < 2 ^ n -> n <= i -> Z.testbit x i = false.
Proof.
  intros Hx Hi.
  destruct (Z.eq_dec x 0) as [->|Hn]; [apply Z.testbit_0_l|].
  apply Z.bits_above_log2; [lia|].
  assert (Z.log2 x < n) by (apply Z.log2_lt_pow2; lia). lia.
Qed.

Lemma testbit_high64 x i : 0 <= x < 2 ^ 64 -> 64 <= i -> Z.testbit x i = false.
Proof. intros; eapply testbit_high; eauto. Qed.

Lemma bits_inj64 x y :
  0 <= x < 2 ^ 64 -> 0 <= y < 2 ^ 64 ->
  (forall i, 0 <= i < 64 -> Z.testbit x i = Z.testbit y i) -> x = y.
Proof.
  intros Hx Hy H. apply Z.bits_inj'. intros i Hi.
  destruct (Z.lt_ge_cases i 64); [auto|].
  rewrite !testbit_high64 by lia. reflexivity.
Qed.

Lemma nonneg_lt_pow2_bits x n :
  0 <= n -> 0 <= x -> (forall i, n <= i -> Z.testbit x i = false) -> x < 2 ^ n.
Proof.
  intros Hn Hx H.
  destruct (Z.eq_dec x 0) as [->|Hnz]; [apply Z.pow_pos_nonneg; lia|].
  apply Z.log2_lt_pow2; [lia|].
  destruct (Z.lt_ge_cases (Z.log2 x) n) as [|Hge]; [assumption|].
  specialize (H (Z.log2 x) Hge). rewrite Z.bit_log2 in H by lia. discriminate.
Qed.

Lemma land_range x y n : 0 <= n -> 0 <= x -> 0 <= y < 2 ^ n -> 0 <= Z.land x y < 2 ^ n.
Proof.
  intros Hn Hx Hy.
  assert (0 <= Z.land x y) by (apply Z.land_nonneg; lia).
  split; [assumption|]. apply nonneg_lt_pow2_bits; auto.
  intros i Hi. rewrite Z.land_spec, (testbit_high y n i) by lia. apply andb_false_r.
Qed.

Lemma land_range_l x y n : 0 <= n -> 0 <= y -> 0 <= x < 2 ^ n -> 0 <= Z.land x y < 2 ^ n.
Proof. intros. rewrite Z.land_comm. apply land_range; auto. Qed.

Lemma lor_range x y n : 0 <= n -> 0 <= x < 2 ^ n -> 0 <= y < 2 ^ n -> 0 <= Z.lor x y < 2 ^ n.
Proof.
  intros Hn Hx Hy.
  assert (0 <= Z.lor x y) by (apply Z.lor_nonneg; lia).
  split; [assumption|]. apply nonneg_lt_pow2_bits; auto.
  intros i Hi. rewrite Z.lor_spec, !(testbit_high _ n i) by lia. reflexivity.
Qed.

Lemma lxor_range x y n : 0 <= n -> 0 <= x < 2 ^ n -> 0 <= y < 2 ^ n -> 0 <= Z.lxor x y < 2 ^ n.
Proof.
  intros Hn Hx Hy.
  assert (0 <= Z.lxor x y) by (apply Z.lxor_nonneg; lia).
  split; [assumption|]. apply nonneg_lt_pow2_bits; auto.
  intros i Hi. rewrite Z.lxor_spec, !(testbit_high _ n i) by lia. reflexivity.
Qed.

Lemma shiftr_range x s n : 0 <= s -> 0 <= n -> 0 <= x < 2 ^ (n + s) -> 0 <= Z.shiftr x s < 2 ^ n.
Proof.
  intros Hs Hn Hx. rewrite Z.shiftr_div_pow2 by lia.
  rewrite Z.pow_add_r in Hx by lia.
  assert (0 < 2 ^ s) by (apply Z.pow_pos_nonneg; lia).
  split; [apply Z.div_pos; lia|].
  apply Z.div_lt_upper_bound; lia.
Qed.

Lemma shiftr_range64 x s : 0 <= s -> 0 <= x < 2 ^ 64 -> 0 <= Z.shiftr x s < 2 ^ 64.
Proof.
  intros Hs Hx. rewrite Z.shiftr_div_pow2 by lia.
  assert (1 <= 2 ^ s) by (apply (Z.pow_le_mono_r 2 0 s); lia).
  split; [apply Z.div_pos; lia|].
  apply Z.div_lt_upper_bound; nia.
Qed.

Lemma testbit_split k a b i :
  0 <= k -> 0 <= a < 2 ^ k -> 0 <= i ->
  Z.testbit (a + 2 ^ k * b) i = if i <? k then Z.testbit a i else Z.testbit b (i - k).
Proof.
  intros Hk Ha Hi. assert (0 < 2 ^ k) by (apply Z.pow_pos_nonneg; lia).
  destruct (Z.ltb_spec i k).
  - rewrite <- (Z.mod_pow2_bits_low (a + 2 ^ k * b) k i) by lia.
    rewrite (Z.mul_comm (2 ^ k)), Z.mod_add by lia.
    rewrite Z.mod_small by lia. reflexivity.
  - replace i with ((i - k) + k) at 1 by lia.
    rewrite <- Z.div_pow2_bits by lia.
    rewrite (Z.mul_comm (2 ^ k)), Z.div_add by lia.
    rewrite Z.div_small by lia. reflexivity.
Qed.

Section split.
  Context (k : Z) (Hk : 0 <= k).
  Lemma split_land a b c d : 0 <= a < 2 ^ k -> 0 <= c < 2 ^ k ->
    Z.land (a + 2 ^ k * b) (c + 2 ^ k * d) = Z.land a c + 2 ^ k * Z.land b d.
  Proof.
    intros Ha Hc. apply Z.bits_inj'. intros i Hi.
    rewrite Z.land_spec, !testbit_split by (try lia; apply land_range; lia).
    destruct (i <? k); rewrite Z.land_spec; reflexivity.
  Qed.
  Lemma split_lor a b c d : 0 <= a < 2 ^ k -> 0 <= c < 2 ^ k ->
    Z.lor (a + 2 ^ k * b) (c + 2 ^ k * d) = Z.lor a c + 2 ^ k * Z.lor b d.
  Proof.
    intros Ha Hc. apply Z.bits_inj'. intros i Hi.
    rewrite Z.lor_spec, !testbit_split by (try lia; apply lor_range; lia).
    destruct (i <? k); rewrite Z.lor_spec; reflexivity.
  Qed.
  Lemma split_lxor a b c d : 0 <= a < 2 ^ k -> 0 <= c < 2 ^ k ->
    Z.lxor (a + 2 ^ k * b) (c + 2 ^ k * d) = Z.lxor a c + 2 ^ k * Z.lxor b d.
  Proof.
    intros Ha Hc. apply Z.bits_inj'. intros i Hi.
    rewrite Z.lxor_spec, !testbit_split by (try lia; apply lxor_range; lia).
    destruct (i <? k); rewrite Z.lxor_spec; reflexivity.
  Qed.
End split.

(** ** Digits in base [2 ^ k] *)
Fixpoint dval (k : Z) (ds : list Z) : Z :=
  match ds with
  | [] => 0
  | d :: ds => d + 2 ^ k * dval k ds
  end.

Definition digit (k : Z) (d : Z) : Prop := 0 <= d < 2 ^ k.

Fixpoint map2 {A B C} (f : A -> B -> C) (xs : list A) (ys : list B) : list C :=
  match xs, ys with
  | x :: xs, y :: ys => f x y :: map2 f xs ys
  | _, _ => []
  end.

Lemma map2_length {A B C} (f : A -> B -> C) xs ys :
  length xs = length ys -> length (map2 f xs ys) = length xs.
Proof.
  revert ys; induction xs as [|x xs IH]; intros [|y ys]; simpl; auto; try discriminate.
Qed.

Section digits.
  Context (k : Z) (Hk : 0 <= k).

  Lemma dval_land xs ys : length xs = length ys -> Forall (digit k) xs -> Forall (digit k) ys ->
    Z.land (dval k xs) (dval k ys) = dval k (map2 Z.land xs ys).
  Proof.
    revert ys; induction xs as [|x xs IH]; intros [|y ys]; simpl; try discriminate; auto.
    intros L Hx Hy. inversion_clear Hx; inversion_clear Hy.
    rewrite split_land, IH by auto. reflexivity.
  Qed.
  Lemma dval_lor xs ys : length xs = length ys -> Forall (digit k) xs -> Forall (digit k) ys ->
    Z.lor (dval k xs) (dval k ys) = dval k (map2 Z.lor xs ys).
  Proof.
    revert ys; induction xs as [|x xs IH]; intros [|y ys]; simpl; try discriminate; auto.
    intros L Hx Hy. inversion_clear Hx; inversion_clear Hy.
    rewrite split_lor, IH by auto. reflexivity.
  Qed.
  Lemma dval_lxor xs ys : length xs = length ys -> Forall (digit k) xs -> Forall (digit k) ys ->
    Z.lxor (dval k xs) (dval k ys) = dval k (map2 Z.lxor xs ys).
  Proof.
    revert ys; induction xs as [|x xs IH]; intros [|y ys]; simpl; try discriminate; auto.
    intros L Hx Hy. inversion_clear Hx; inversion_clear Hy.
    rewrite split_lxor, IH by auto. reflexivity.
  Qed.
  Lemma dval_add xs ys : length xs = length ys ->
    dval k xs + dval k ys = dval k (map2 Z.add xs ys).
  Proof.
    revert ys; induction xs as [|x xs IH]; intros [|y ys]; simpl; try discriminate; auto.
    intros L. rewrite <- IH by auto. ring.
  Qed.
  Lemma dval_sub xs ys : length xs = length ys ->
    dval k xs - dval k ys = dval k (map2 Z.sub xs ys).
  Proof.
    revert ys; induction xs as [|x xs IH]; intros [|y ys]; simpl; try discriminate; auto.
    intros L. rewrite <- IH by auto. ring.
  Qed.
  Lemma dval_range xs : Forall (digit k) xs -> 0 <= dval k xs < 2 ^ (k * zlen xs).
  Proof.
    induction 1 as [|x xs Hx Hxs IH]; simpl.
    - change (zlen (@nil Z)) with 0; rewrite Z.mul_0_r. simpl. lia.
    - rewrite zlen_cons. replace (k * (zlen xs + 1)) with (k + k * zlen xs) by ring.
      pose proof (zlen_nonneg xs). rewrite Z.pow_add_r by nia.
      unfold digit in Hx. nia.
  Qed.
  Lemma dval_mult s xs : Forall (fun d => (2 ^ s | d)) xs -> 0 <= s -> (2 ^ s | dval k xs).
  Proof.
    induction 1 as [|x xs Hx Hxs IH]; simpl; intros.
    - apply Z.divide_0_r.
    - apply Z.divide_add_r; auto. apply Z.divide_mul_r. auto.
  Qed.
  (** a right shift that crosses no digit boundary *)
  Lemma dval_shiftr s xs : 0 <= s -> Forall (fun d => (2 ^ s | d)) xs ->
    Z.shiftr (dval k xs) s = dval k (map (fun d => Z.shiftr d s) xs).
  Proof.
    intros Hs. induction 1 as [|x xs Hx Hxs IH]; simpl.
    - apply Z.shiftr_0_l.
    - rewrite <- IH, !Z.shiftr_div_pow2 by lia.
      destruct Hx as [q ->].
      destruct (dval_mult s xs Hxs Hs) as [r ->].
      assert (2 ^ s <> 0) by (apply Z.pow_nonzero; lia).
      replace (q * 2 ^ s + 2 ^ k * (r * 2 ^ s)) with ((q + 2 ^ k * r) * 2 ^ s) by ring.
      rewrite !Z.div_mul by auto. reflexivity.
  Qed.
  Lemma dval_app xs ys : dval k (xs ++ ys) = dval k xs + 2 ^ (k * zlen xs) * dval k ys.
  Proof.
    induction xs as [|x xs IH]; simpl.
    - change (zlen (@nil Z)) with 0; rewrite Z.mul_0_r. simpl. destruct (dval k ys); reflexivity.
    - rewrite IH, zlen_cons. replace (k * (zlen xs + 1)) with (k + k * zlen xs) by ring.
      pose proof (zlen_nonneg xs). rewrite Z.pow_add_r by nia. ring.
  Qed.
End digits.

(** canonical digits of a number *)
Fixpoint digits (k : Z) (n : nat) (w : Z) : list Z :=
  match n with
  | O => []
  | S n => w mod 2 ^ k :: digits k n (w / 2 ^ k)
  end.

Lemma digits_length k n w : length (digits k n w) = n.
Proof. revert w; induction n; simpl; auto. Qed.

Lemma digits_range k n w : 0 <= k -> Forall (digit k) (digits k n w).
Proof.
  intros Hk. revert w; induction n; simpl; constructor; auto.
  apply Z.mod_pos_bound. apply Z.pow_pos_nonneg; lia.
Qed.

Lemma dval_digits k n w : 0 <= k -> 0 <= w < 2 ^ (k * Z.of_nat n) -> dval k (digits k n w) = w.
Proof.
  intros Hk. revert w; induction n as [|n IH]; intros w Hw.
  - rewrite Z.mul_0_r in Hw. simpl in *. lia.
  - simpl digits. cbn [dval].
    assert (0 < 2 ^ k) by (apply Z.pow_pos_nonneg; lia).
    rewrite IH.
    + pose proof (Z.div_mod w (2 ^ k)). lia.
    + rewrite Nat2Z.inj_succ in Hw.
      replace (k * Z.succ (Z.of_nat n)) with (k + k * Z.of_nat n) in Hw by lia.
      rewrite Z.pow_add_r in Hw by nia.
      split; [apply Z.div_pos; lia|]. apply Z.div_lt_upper_bound; lia.
Qed.

Lemma nth_digits k n w i : 0 <= k -> (i < n)%nat ->
  nth i (digits k n w) 0 = (w / 2 ^ (k * Z.of_nat i)) mod 2 ^ k.
Proof.
  intros Hk. revert n w; induction i as [|i IH]; intros [|n] w Hi; try lia; simpl digits; cbn [nth].
  - rewrite Z.mul_0_r. simpl Z.pow at 2. rewrite Z.div_1_r. reflexivity.
  - rewrite IH by lia. rewrite Z.div_div; try (apply Z.pow_nonzero; lia).
    + rewrite <- Z.pow_add_r by nia. do 3 f_equal. lia.
    + apply Z.pow_pos_nonneg; nia.
Qed.

Lemma digits_dval k ds : 0 <= k -> Forall (digit k) ds -> digits k (length ds) (dval k ds) = ds.
Proof.
  intros Hk. induction 1 as [|d ds Hd Hds IH]; simpl; auto.
  unfold digit in Hd. assert (0 < 2 ^ k) by (apply Z.pow_pos_nonneg; lia).
  rewrite (Z.mul_comm (2 ^ k)), Z.mod_add, Z.div_add by lia.
  rewrite Z.mod_small, Z.div_small by lia. rewrite Z.add_0_l, IH. reflexivity.
Qed.

(** ** bits_of *)
Lemma bits_of_length n w : length (bits_of n w) = n.
Proof. unfold bits_of. rewrite map_length, seq_length. reflexivity. Qed.

Lemma nth_bits_of n w i : (i < n)%nat -> nth i (bits_of n w) false = Z.testbit w (Z.of_nat i).
Proof.
  intros H. unfold bits_of.
  rewrite nth_indep with (d' := (fun j => Z.testbit w (Z.of_nat j)) 0%nat)
    by (rewrite map_length, seq_length; lia).
  rewrite map_nth with (f := fun j => Z.testbit w (Z.of_nat j)).
  rewrite seq_nth by lia. reflexivity.
Qed.

Lemma nth_ext_bool (l m : list bool) :
  length l = length m -> (forall i, (i < length l)%nat -> nth i l false = nth i m false) -> l = m.
Proof. intros H1 H2. apply nth_ext with (d := false) (d' := false); auto. Qed.

Lemma bits_of_app n m w :
  bits_of (n + m) w = bits_of n w ++ bits_of m (w / 2 ^ Z.of_nat n).
Proof.
  apply nth_ext_bool.
  - rewrite app_length, !bits_of_length. reflexivity.
  - intros i Hi. rewrite bits_of_length in Hi. rewrite nth_bits_of by lia.
    destruct (Nat.lt_ge_cases i n).
    + rewrite app_nth1 by (rewrite bits_of_length; lia). rewrite nth_bits_of by lia. reflexivity.
    + rewrite app_nth2 by (rewrite bits_of_length; lia).
      rewrite bits_of_length, nth_bits_of by lia.
      rewrite Z.div_pow2_bits by lia. f_equal. lia.
Qed.

Lemma value_range l : 0 <= value l < 2 ^ zlen l.
Proof.
  induction l as [|b l IH]; simpl value.
  - change (zlen (@nil bool)) with 0. lia.
  - rewrite zlen_cons. pose proof (zlen_nonneg l).
    rewrite Z.pow_add_r by lia. destruct b; simpl Z.b2z; lia.
Qed.

Lemma testbit_value l i : 0 <= i -> Z.testbit (value l) i = nth (Z.to_nat i) l false.
Proof.
  revert i; induction l as [|b l IH]; intros i Hi; simpl value.
  - rewrite Z.testbit_0_l. destruct (Z.to_nat i); reflexivity.
  - destruct (Z.eq_dec i 0) as [->|Hn].
    + rewrite Z.add_comm. simpl. destruct b; cbn [Z.b2z].
      * apply Z.testbit_odd_0.
      * rewrite Z.add_0_r. apply Z.testbit_even_0.
    + replace (Z.to_nat i) with (S (Z.to_nat (i - 1))) by lia. simpl nth.
      rewrite <- IH by lia. rewrite Z.add_comm.
      replace i with (Z.succ (i - 1)) at 1 by lia.
      destruct b; cbn [Z.b2z].
      * apply Z.testbit_odd_succ. lia.
      * rewrite Z.add_0_r. apply Z.testbit_even_succ. lia.
Qed.

Lemma value_bits_of n w : 0 <= w < 2 ^ Z.of_nat n -> value (bits_of n w) = w.
Proof.
  intros Hw. apply Z.bits_inj'. intros i Hi. rewrite testbit_value by lia.
  destruct (Z.lt_ge_cases i (Z.of_nat n)).
  - rewrite nth_bits_of by lia. f_equal. lia.
  - rewrite nth_overflow by (rewrite bits_of_length; lia).
    symmetry. eapply testbit_high; eauto.
Qed.

Lemma bits_of_value l : bits_of (length l) (value l) = l.
Proof.
  apply nth_ext_bool; rewrite bits_of_length; auto.
  intros i Hi. rewrite nth_bits_of by lia. rewrite testbit_value by lia.
  f_equal. lia.
Qed.

(** ** count, rank *)
Lemma count_nil b : count b [] = 0%nat.
Proof. reflexivity. Qed.
Lemma count_cons b x l : count b (x :: l) = ((if eqb x b then 1 else 0) + count b l)%nat.
Proof.
  unfold count. simpl. destruct (bool_dec x b) as [->|H].
  - rewrite eqb_reflx. reflexivity.
  - rewrite (proj2 (eqb_false_iff x b)) by auto. reflexivity.
Qed.
Lemma count_app b l m : count b (l ++ m) = (count b l + count b m)%nat.
Proof. unfold count. apply count_occ_app. Qed.
Lemma count_le b l : (count b l <= length l)%nat.
Proof. induction l; [reflexivity|]. rewrite count_cons. simpl. destruct (eqb a b); lia. Qed.
Lemma count_compl l : (count true l + count false l)%nat = length l.
Proof. induction l as [|[] l IH]; [reflexivity| |]; rewrite !count_cons; simpl in *; lia. Qed.
Lemma count_repeat b c n : count b (repeat c n) = if eqb c b then n else 0%nat.
Proof.
  induction n; [destruct (eqb c b); reflexivity|].
  simpl repeat; rewrite count_cons, IHn; destruct (eqb c b); reflexivity.
Qed.
Lemma count_map_negb b l : count b (map negb l) = count (negb b) l.
Proof.
  induction l as [|x l IH]; auto. simpl map. rewrite !count_cons, IH. destruct x, b; reflexivity.
Qed.

Lemma rank_0 b l : rank b l 0 = 0%nat.
Proof. reflexivity. Qed.
Lemma rank_all b l p : (length l <= p)%nat -> rank b l p = count b l.
Proof. intros. unfold rank. rewrite firstn_all2 by lia. reflexivity. Qed.
Lemma rank_app1 b l m p : (p <= length l)%nat -> rank b (l ++ m) p = rank b l p.
Proof.
  intros. unfold rank. rewrite firstn_app.
  replace (p - length l)%nat with 0%nat by lia. simpl. rewrite app_nil_r. reflexivity.
Qed.
Lemma rank_app2 b l m p : (length l <= p)%nat ->
  rank b (l ++ m) p = (count b l + rank b m (p - length l))%nat.
Proof. intros. unfold rank. rewrite firstn_app, count_app, firstn_all2 by lia. reflexivity. Qed.
Lemma rank_S b l p x : nth_error l p = Some x ->
  rank b l (S p) = (rank b l p + if eqb x b then 1 else 0)%nat.
Proof.
  revert p; induction l as [|y l IH]; intros [|p] H; try discriminate.
  - injection H as ->. unfold rank. simpl firstn. rewrite count_cons, count_nil. lia.
  - simpl in H. specialize (IH p H). unfold rank in *.
    change (firstn (S (S p)) (y :: l)) with (y :: firstn (S p) l).
    change (firstn (S p) (y :: l)) with (y :: firstn p l).
    rewrite !count_cons, IH. lia.
Qed.
Lemma rank_mono b l p q : (p <= q)%nat -> (rank b l p <= rank b l q)%nat.
Proof.
  intros H. unfold rank. rewrite <- (firstn_skipn p (firstn q l)).
  rewrite firstn_firstn, count_app. replace (Nat.min p q) with p by lia. lia.
Qed.
Lemma rank_le b l p : (rank b l p <= p)%nat.
Proof.
  unfold rank. pose proof (count_le b (firstn p l)).
  pose proof (firstn_le_length p l). rewrite firstn_length in *. lia.
Qed.
Lemma rank_le_count b l p : (rank b l p <= count b l)%nat.
Proof.
  rewrite <- (firstn_skipn p l) at 2. rewrite count_app. unfold rank. lia.
Qed.
Lemma rank_compl l p : (p <= length l)%nat -> (rank true l p + rank false l p)%nat = p.
Proof.
  intros H. unfold rank. rewrite count_compl, firstn_length. lia.
Qed.

Lemma is_select_unique b l k p q : is_select b l k p -> is_select b l k q -> p = q.
Proof.
  intros [Hp Rp] [Hq Rq].
  destruct (Nat.lt_trichotomy p q) as [H|[H|H]]; auto; exfalso.
  - pose proof (rank_S b l p b Hp) as HS. rewrite eqb_reflx in HS.
    pose proof (rank_mono b l (S p) q H). lia.
  - pose proof (rank_S b l q b Hq) as HS. rewrite eqb_reflx in HS.
    pose proof (rank_mono b l (S q) p H). lia.
Qed.

Lemma select_exists b l k : (k < count b l)%nat -> exists p, is_select b l k p.
Proof.
  revert k; induction l as [|x l IH]; intros k H; [rewrite count_nil in H; lia|].
  rewrite count_cons in H. destruct (eqb x b) eqn:E.
  - destruct k as [|k].
    + exists 0%nat. split; [|reflexivity]. apply eqb_prop in E. subst. reflexivity.
    + destruct (IH k) as [p [Hp Rp]]; [lia|]. exists (S p). split; auto.
      unfold rank in *. simpl firstn. rewrite count_cons, E, Rp. reflexivity.
  - destruct (IH k) as [p [Hp Rp]]; [lia|]. exists (S p). split; auto.
    unfold rank in *. simpl firstn. rewrite count_cons, E, Rp. reflexivity.
Qed.
