(** Proofs about the model of broadword.hpp. *)
From Verif Require Import Base Spec Lib M_Tables M_Broadword.
From Coq Require Import ZifyBool ZifyNat.

(** ** Lane-wise operations on explicit digit lists *)
Section lanes.
  Context (k : Z) (Hk : 0 <= k).

  Lemma dval_land_c ds m M : M = dval k (repeat m (length ds)) -> digit k m ->
    Forall (digit k) ds ->
    Z.land (dval k ds) M = dval k (map (fun d => Z.land d m) ds).
  Proof.
    intros -> Hm H. rewrite dval_land; auto.
    - f_equal. induction ds; simpl; auto. inversion_clear H. f_equal; auto.
    - rewrite repeat_length; reflexivity.
    - apply Forall_forall. intros x Hx. apply repeat_spec in Hx. subst; auto.
  Qed.
  Lemma dval_lor_c ds m M : M = dval k (repeat m (length ds)) -> digit k m ->
    Forall (digit k) ds ->
    Z.lor (dval k ds) M = dval k (map (fun d => Z.lor d m) ds).
  Proof.
    intros -> Hm H. rewrite dval_lor; auto.
    - f_equal. induction ds; simpl; auto. inversion_clear H. f_equal; auto.
    - rewrite repeat_length; reflexivity.
    - apply Forall_forall. intros x Hx. apply repeat_spec in Hx. subst; auto.
  Qed.
  Lemma dval_sub_c ds m M : M = dval k (repeat m (length ds)) ->
    dval k ds - M = dval k (map (fun d => d - m) ds).
  Proof.
    intros ->. induction ds; simpl; auto. rewrite <- IHds. ring.
  Qed.

  Fixpoint cross (s : Z) (ds : list Z) : list Z :=
    match ds with
    | [] => []
    | d :: t => (Z.shiftr d s + 2 ^ (k - s) * (hd 0 t mod 2 ^ s)) :: cross s t
    end.

  (** a right shift of [s <= k] bits moves the low bits of each digit into the one below *)
  Lemma dval_shiftr_cross s ds : 0 <= s <= k -> Forall (digit k) ds ->
    Z.shiftr (dval k ds) s = dval k (cross s ds).
  Proof.
    intros Hs H. assert (P : 0 < 2 ^ s) by (apply Z.pow_pos_nonneg; lia).
    assert (E : 2 ^ k = 2 ^ (k - s) * 2 ^ s) by (rewrite <- Z.pow_add_r by lia; f_equal; lia).
    induction H as [|d t Hd Ht IH]; simpl; [apply Z.shiftr_0_l|].
    rewrite <- IH. rewrite !Z.shiftr_div_pow2 by lia.
    rewrite E at 1.
    replace (d + 2 ^ (k - s) * 2 ^ s * dval k t)
      with (d + (2 ^ (k - s) * dval k t) * 2 ^ s) by ring.
    rewrite Z.div_add by lia.
    assert (F : dval k t mod 2 ^ s = hd 0 t mod 2 ^ s).
    { destruct t as [|e t]; simpl; auto. rewrite E.
      replace (e + 2 ^ (k - s) * 2 ^ s * dval k t) with (e + (2 ^ (k - s) * dval k t) * 2 ^ s) by ring.
      apply Z.mod_add. lia. }
    pose proof (Z.div_mod (dval k t) (2 ^ s)). rewrite F in H.
    rewrite E. rewrite (H ltac:(lia)) at 1. ring.
  Qed.
End lanes.

Lemma land_shiftr x s m : 0 <= s -> Z.land (Z.shiftr x s) m = Z.shiftr (Z.land x (Z.shiftl m s)) s.
Proof.
  intros Hs. rewrite Z.shiftr_land, Z.shiftr_shiftl_l by lia.
  rewrite Z.sub_diag, Z.shiftl_0_r. reflexivity.
Qed.

Lemma dval8_range ds : Forall (digit 8) ds -> length ds = 8%nat -> 0 <= dval 8 ds < 2 ^ 64.
Proof.
  intros H L. pose proof (dval_range 8 ltac:(lia) ds H). unfold zlen in *. rewrite L in *. exact H0.
Qed.

Lemma digits8 w : is_u64 w -> w = dval 8 (digits 8 8 w).
Proof. intros H. symmetry. apply dval_digits; [lia|exact H]. Qed.

Lemma digits_dval8 ds : length ds = 8%nat -> Forall (digit 8) ds -> digits 8 8 (dval 8 ds) = ds.
Proof. intros L H. rewrite <- L. apply digits_dval; [lia | exact H]. Qed.

Lemma Forall_map {A B} (P : B -> Prop) (Q : A -> Prop) (f : A -> B) l :
  (forall x, Q x -> P (f x)) -> Forall Q l -> Forall P (map f l).
Proof. intros H. induction 1; simpl; constructor; auto. Qed.

Lemma word_bits_length w : length (word_bits w) = 64%nat.
Proof. apply bits_of_length. Qed.

(** ** byte_counts *)
Definition bytepop (d : Z) : Z := Z.of_nat (count true (bits_of 8 d)).

Definition bc1 (d : Z) : Z := d - Z.shiftr (Z.land d 0xAA) 1.
Definition bc2 (d : Z) : Z := Z.land (bc1 d) 0x33 + Z.shiftr (Z.land (bc1 d) 0xCC) 2.

Lemma bc_sweep1 d : digit 8 d ->
  digit 8 (bc1 d) /\ (2 ^ 1 | Z.land d 0xAA) /\ (2 ^ 2 | Z.land (bc1 d) 0xCC) /\
  digit 8 (bc2 d) /\ 0 <= bytepop d <= 8.
Proof.
  intros H.
  set (P := fun d => (0 <=? bc1 d) && (bc1 d <? 256) && (Z.land d 0xAA mod 2 ^ 1 =? 0) &&
              (Z.land (bc1 d) 0xCC mod 2 ^ 2 =? 0) && (0 <=? bc2 d) && (bc2 d <? 256)
              && (0 <=? bytepop d) && (bytepop d <=? 8)).
  assert (S : P d = true) by (apply (sweep 256); [vm_compute; reflexivity | exact H]).
  unfold P in S. repeat rewrite andb_true_iff in S.
  unfold digit. rewrite !Z.eqb_eq in S.
  assert (forall a b, 0 < b -> a mod b = 0 -> (b | a)).
  { intros a b Hb Hm. apply Z.mod_divide; lia. }
  repeat split; try lia; try (apply H0; [reflexivity|tauto]).
Qed.

Definition bc3 (d e : Z) : Z :=
  Z.land (bc2 d + (Z.shiftr (bc2 d) 4 + 2 ^ (8 - 4) * (bc2 e mod 2 ^ 4))) 0x0f.

Lemma bc_sweep2a d : digit 8 d ->
  (bc2 d + Z.shiftr (bc2 d) 4) mod 16 = bytepop d /\
  0 <= bc2 d <= 68 /\ 0 <= Z.shiftr (bc2 d) 4 <= 4 /\ 0 <= bc2 d mod 2 ^ 4 <= 4.
Proof.
  intros Hd.
  set (P := fun d => ((bc2 d + Z.shiftr (bc2 d) 4) mod 16 =? bytepop d) &&
    (0 <=? bc2 d) && (bc2 d <=? 68) && (0 <=? Z.shiftr (bc2 d) 4) && (Z.shiftr (bc2 d) 4 <=? 4) &&
    (0 <=? bc2 d mod 2 ^ 4) && (bc2 d mod 2 ^ 4 <=? 4)).
  assert (S : P d = true) by (apply (sweep 256); [vm_compute; reflexivity | exact Hd]).
  unfold P in S. repeat rewrite andb_true_iff in S.
  rewrite !Z.leb_le, !Z.eqb_eq in S. tauto.
Qed.

Lemma bc_sweep2 d e : digit 8 d -> digit 8 e ->
  bc3 d e = bytepop d /\
  0 <= bc2 d + (Z.shiftr (bc2 d) 4 + 2 ^ (8 - 4) * (bc2 e mod 2 ^ 4)) < 256.
Proof.
  intros Hd He. destruct (bc_sweep2a d Hd) as (H1 & H2 & H3 & H4).
  destruct (bc_sweep2a e He) as (_ & _ & _ & H5).
  change (2 ^ (8 - 4)) with 16. split; [|lia].
  unfold bc3. change 0x0f with (Z.ones 4). rewrite Z.land_ones by lia.
  change (2 ^ (8 - 4)) with 16. change (2 ^ 4) with 16 in *.
  rewrite <- H1.
  replace (bc2 d + (Z.shiftr (bc2 d) 4 + 16 * (bc2 e mod 16)))
    with (bc2 d + Z.shiftr (bc2 d) 4 + (bc2 e mod 16) * 16) by ring.
  apply Z.mod_add. lia.
Qed.

Lemma map2_map {A B C D E} (f : C -> D -> E) (g : A -> C) (h : B -> D) xs ys :
  map2 f (map g xs) (map h ys) = map2 (fun x y => f (g x) (h y)) xs ys.
Proof. revert ys; induction xs; intros [|y ys]; simpl; auto. f_equal; auto. Qed.
Lemma map2_same {A B} (f : A -> A -> B) xs : map2 f xs xs = map (fun x => f x x) xs.
Proof. induction xs; simpl; auto. f_equal; auto. Qed.

Lemma byte_counts_dval ds : length ds = 8%nat -> Forall (digit 8) ds ->
  byte_counts (dval 8 ds) = dval 8 (map bytepop ds).
Proof.
  intros L H. unfold byte_counts.
  rewrite (dval_land_c 8 ltac:(lia) ds 0xAA) by (first [rewrite L; reflexivity | assumption | unfold digit; lia]).
  rewrite (dval_shiftr 8 1) by
    (first [lia | eapply Forall_map; [|exact H]; intros; apply bc_sweep1; auto]).
  rewrite map_map.
  replace (dval 8 ds - dval 8 (map (fun x => Z.shiftr (Z.land x 170) 1) ds))
    with (dval 8 (map bc1 ds)).
  2:{ rewrite dval_sub by (rewrite map_length; auto). rewrite <- (map_id ds) at 2.
      rewrite map2_map, map2_same. reflexivity. }
  assert (H1 : Forall (digit 8) (map bc1 ds))
    by (eapply Forall_map; [|exact H]; intros; apply bc_sweep1; auto).
  rewrite (u64_small (dval 8 (map bc1 ds))) by (apply dval8_range; rewrite ?map_length; auto).
  rewrite (dval_land_c 8 ltac:(lia) (map bc1 ds) 0x33)
    by (first [rewrite map_length, L; reflexivity | assumption | unfold digit; lia]).
  rewrite land_shiftr by lia.
  rewrite (dval_land_c 8 ltac:(lia) (map bc1 ds) 0xCC)
    by (first [rewrite map_length, L; reflexivity | assumption | unfold digit; lia]).
  rewrite !map_map.
  rewrite (dval_shiftr 8 2) by
    (first [lia | eapply Forall_map; [|exact H]; intros; apply bc_sweep1; auto]).
  rewrite map_map.
  rewrite dval_add by (rewrite !map_length; auto).
  rewrite map2_map, map2_same.
  change (map (fun x => Z.land (bc1 x) 51 + Z.shiftr (Z.land (bc1 x) 204) 2) ds) with (map bc2 ds).
  assert (H2 : Forall (digit 8) (map bc2 ds))
    by (eapply Forall_map; [|exact H]; intros; apply bc_sweep1; auto).
  rewrite (u64_small (dval 8 (map bc2 ds))) by (apply dval8_range; rewrite ?map_length; auto).
  rewrite (dval_shiftr_cross 8 4) by (auto; lia).
  do 8 (destruct ds as [|? ds]; [discriminate L|]). destruct ds; [|discriminate L].
  repeat match goal with H : Forall _ (_ :: _) |- _ => inversion_clear H end.
  simpl map. unfold cross. simpl hd.
  rewrite dval_add by reflexivity. simpl map2.
  assert (Z0 : digit 8 0) by (unfold digit; lia).
  change (0 mod 2 ^ 4) with (bc2 0 mod 2 ^ 4).
  assert (B : forall d e, digit 8 d -> digit 8 e ->
     digit 8 (bc2 d + (Z.shiftr (bc2 d) 4 + 2 ^ (8 - 4) * (bc2 e mod 2 ^ 4))))
    by (intros; apply bc_sweep2; auto).
  rewrite u64_small.
  2:{ apply dval8_range; [|reflexivity]. repeat constructor; apply B; auto. }
  rewrite (dval_land_c 8 ltac:(lia) _ 0x0f);
    [|reflexivity|unfold digit; lia|repeat constructor; apply B; auto].
  simpl map. unfold bc3 in *.
  assert (C : forall d e, digit 8 d -> digit 8 e -> bc3 d e = bytepop d)
    by (intros; apply bc_sweep2; auto).
  unfold bc3 in C.
  rewrite !C by auto. reflexivity.
Qed.

Fixpoint zsum (l : list Z) : Z := match l with [] => 0 | x :: l => x + zsum l end.

Fixpoint prefix_sums (a : Z) (l : list Z) : list Z :=
  match l with [] => [] | x :: l => (a + x) :: prefix_sums (a + x) l end.

(** multiplication by 0x0101..01 computes prefix sums of the bytes *)
Lemma mul_ones_8 cs : length cs = 8%nat -> Forall (fun c => 0 <= c) cs -> zsum cs < 256 ->
  u64 (dval 8 cs * ones_step_8) = dval 8 (prefix_sums 0 cs).
Proof.
  intros L H S.
  do 8 (destruct cs as [|? cs]; [discriminate L|]). destruct cs; [|discriminate L].
  repeat match goal with H : Forall _ (_ :: _) |- _ => inversion_clear H end.
  simpl zsum in S. simpl prefix_sums. unfold dval, ones_step_8.
  change (2 ^ 8) with 256. unfold u64. change (2 ^ 64) with 18446744073709551616.
  symmetry. apply Z.mod_unique_pos with
    (q := (z0 + z1 + z2 + z3 + z4 + z5 + z6) + 256 * ((z1 + z2 + z3 + z4 + z5 + z6) +
      256 * ((z2 + z3 + z4 + z5 + z6) + 256 * ((z3 + z4 + z5 + z6) + 256 *
      ((z4 + z5 + z6) + 256 * ((z5 + z6) + 256 * z6)))))); lia.
Qed.

Lemma bytes_sum_spec cs : length cs = 8%nat -> Forall (fun c => 0 <= c) cs -> zsum cs < 256 ->
  bytes_sum (dval 8 cs) = zsum cs.
Proof.
  intros L H S. unfold bytes_sum. rewrite mul_ones_8 by auto.
  do 8 (destruct cs as [|? cs]; [discriminate L|]). destruct cs; [|discriminate L].
  repeat match goal with H : Forall _ (_ :: _) |- _ => inversion_clear H end.
  rewrite Z.shiftr_div_pow2 by lia.
  simpl zsum in *. simpl prefix_sums. unfold dval.
  change (2 ^ 8) with 256. change (2 ^ 56) with 72057594037927936.
  symmetry. apply Z.div_unique_pos with
    (r := (0 + z) + 256 * ((0 + z + z0) + 256 * ((0 + z + z0 + z1) + 256 * ((0 + z + z0 + z1 + z2) +
      256 * ((0 + z + z0 + z1 + z2 + z3) + 256 * ((0 + z + z0 + z1 + z2 + z3 + z4) +
      256 * (0 + z + z0 + z1 + z2 + z3 + z4 + z5))))))); lia.
Qed.

(** ** bits of a word, byte by byte *)
Lemma bits_of_mod n w : bits_of n (w mod 2 ^ Z.of_nat n) = bits_of n w.
Proof.
  apply nth_ext_bool; rewrite ?bits_of_length; auto. intros i Hi.
  rewrite !nth_bits_of by lia. apply Z.mod_pow2_bits_low. lia.
Qed.

Lemma bits_of_digits k n w : bits_of (n * k) w = flat_map (bits_of k) (digits (Z.of_nat k) n w).
Proof.
  revert w; induction n as [|n IH]; intros w; simpl; auto.
  rewrite bits_of_app, bits_of_mod, IH. reflexivity.
Qed.

Lemma word_bits_digits w : word_bits w = flat_map (bits_of 8) (digits 8 8 w).
Proof. exact (bits_of_digits 8 8 w). Qed.

Lemma flat_map_bits_length k ds : length (flat_map (bits_of k) ds) = (k * length ds)%nat.
Proof.
  induction ds as [|d ds IH]; cbn [flat_map length]; [lia|].
  rewrite app_length, bits_of_length, IH. lia.
Qed.

Lemma count_flat_map_bits ds :
  Z.of_nat (count true (flat_map (bits_of 8) ds)) = zsum (map bytepop ds).
Proof.
  induction ds as [|d ds IH]; [reflexivity|]; cbn [flat_map map zsum].
  rewrite count_app, Nat2Z.inj_add, IH. reflexivity.
Qed.

Lemma zsum_bytepop ds : length ds = 8%nat -> Forall (digit 8) ds ->
  0 <= zsum (map bytepop ds) <= 64.
Proof.
  intros L H. rewrite <- count_flat_map_bits.
  pose proof (count_le true (flat_map (bits_of 8) ds)).
  do 8 (destruct ds as [|? ds]; [discriminate L|]). destruct ds; [|discriminate L].
  split; [lia|]. cbn [flat_map] in *. rewrite !app_length, !bits_of_length in H0. cbn [length] in H0. lia.
Qed.

Lemma bytepop_nonneg ds : Forall (fun c => 0 <= c) (map bytepop ds).
Proof. induction ds; simpl; constructor; auto. unfold bytepop. lia. Qed.

Lemma popcount_correct w : is_u64 w -> popcount w = Z.of_nat (count true (word_bits w)).
Proof.
  intros H. unfold popcount. rewrite word_bits_digits, count_flat_map_bits.
  rewrite (digits8 w H) at 1.
  assert (D : Forall (digit 8) (digits 8 8 w)) by (apply digits_range; lia).
  assert (L : length (digits 8 8 w) = 8%nat) by apply digits_length.
  pose proof (zsum_bytepop _ L D).
  rewrite byte_counts_dval by auto.
  apply bytes_sum_spec; [rewrite map_length; auto | apply bytepop_nonneg | lia].
Qed.

Lemma fold_b2z (f : nat -> bool) l :
  fold_right Z.add 0 (map (fun i => Z.b2z (f i)) l) = Z.of_nat (count true (map f l)).
Proof.
  induction l as [|i l IH]; simpl; auto. rewrite IH, count_cons.
  destruct (f i); simpl; lia.
Qed.

Lemma popcount_intrinsic_correct w :
  popcount_intrinsic w = Z.of_nat (count true (word_bits w)).
Proof.
  unfold popcount_intrinsic, word_bits, bits_of.
  exact (fold_b2z (fun i => Z.testbit w (Z.of_nat i)) (seq 0 64)).
Qed.

Lemma popcount_le w : is_u64 w -> 0 <= popcount w <= 64.
Proof.
  intros H. rewrite popcount_correct by auto.
  pose proof (count_le true (word_bits w)). rewrite word_bits_length in *. lia.
Qed.

(** ** select_in_word *)
Lemma is_select_app1 b l m k p : is_select b l k p -> is_select b (l ++ m) k p.
Proof.
  intros [H1 H2]. assert (p < length l)%nat by (apply nth_error_Some; congruence).
  split.
  - rewrite nth_error_app1; auto.
  - rewrite rank_app1 by lia. auto.
Qed.
Lemma is_select_app2 b l m k p : is_select b m k p ->
  is_select b (l ++ m) (count b l + k) (length l + p).
Proof.
  intros [H1 H2]. split.
  - rewrite nth_error_app2 by lia. rewrite <- H1. f_equal. lia.
  - rewrite rank_app2 by lia. rewrite <- H2. do 2 f_equal. lia.
Qed.

Lemma select_in_byte_spec d r : digit 8 d -> 0 <= r < bytepop d ->
  exists p, rd select_in_byte (Z.lor d (Z.shiftl r 8)) = Ok (Z.of_nat p) /\
            is_select true (bits_of 8 d) (Z.to_nat r) p.
Proof.
  intros Hd Hr.
  assert (B : bytepop d <= 8) by (apply bc_sweep1; auto).
  set (P := fun d r => if r <? bytepop d then
     match rd select_in_byte (Z.lor d (Z.shiftl r 8)) with
     | Ok p => (0 <=? p) && (p <? 8) && nth (Z.to_nat p) (bits_of 8 d) false &&
               (Z.of_nat (rank true (bits_of 8 d) (Z.to_nat p)) =? r)
     | Ub _ => false
     end else true).
  assert (S : P d r = true)
    by (apply (sweep2 256 8); [vm_compute; reflexivity | exact Hd | lia]).
  unfold P in S. replace (r <? bytepop d) with true in S by lia.
  destruct (rd select_in_byte (Z.lor d (Z.shiftl r 8))) as [p|]; [|discriminate].
  repeat rewrite andb_true_iff in S. destruct S as [[[S1 S2] S3] S4].
  exists (Z.to_nat p). split; [f_equal; lia|]. split; [|lia].
  rewrite (nth_error_nth' _ false) by (rewrite bits_of_length; lia). f_equal; auto.
Qed.

Lemma lor_disjoint a b s : 0 <= s -> 0 <= a < 2 ^ s -> Z.lor a (Z.shiftl b s) = a + 2 ^ s * b.
Proof.
  intros Hs Ha.
  replace (Z.shiftl b s) with (0 + 2 ^ s * b) by (rewrite Z.shiftl_mul_pow2 by lia; ring).
  replace a with (a + 2 ^ s * 0) at 1 by ring.
  rewrite split_lor by lia. rewrite Z.lor_0_r. reflexivity.
Qed.

Definition leb2z (a b : Z) : Z := if a <=? b then 1 else 0.

Lemma geq_digit k p : 0 <= k < 64 -> 0 <= p <= 64 ->
  Z.lor k 128 = k + 128 /\ digit 8 (k + 128 - p) /\ Z.land (k + 128 - p) 128 = 128 * leb2z p k.
Proof.
  intros Hk Hp.
  set (P := fun k p => (Z.lor k 128 =? k + 128) && (0 <=? k + 128 - p) && (k + 128 - p <? 256) &&
    (Z.land (k + 128 - p) 128 =? 128 * leb2z p k)).
  assert (S : P k p = true)
    by (apply (sweep2 64 65); [vm_compute; reflexivity | lia | lia]).
  unfold P in S. unfold digit. change (2 ^ 8) with 256. lia.
Qed.

(** the shape of [select_in_word] once the byte holding the answer is known *)
Lemma select_in_word_step popcnt ds k :
  length ds = 8%nat -> Forall (digit 8) ds ->
  let ps := prefix_sums 0 (map bytepop ds) in
  let j := zsum (map (fun p => leb2z p k) ps) in
  0 <= k < zsum (map bytepop ds) ->
  select_in_word_gen popcnt (dval 8 ds) k =
   (do s <- shr (u64 (Z.shiftl (dval 8 ps) 8)) (8 * j);
    let byte_rank := u64 (k - Z.land s 0xFF) in
    do b <- shr (dval 8 ds) (8 * j);
    do t <- rd select_in_byte (Z.lor (Z.land b 0xFF) (u64 (Z.shiftl byte_rank 8)));
    Ok (u64 (8 * j + t))).
Proof.
  intros L H ps j Hk. unfold select_in_word_gen.
  pose proof (zsum_bytepop ds L H) as HS.
  rewrite assert_true.
  2:{ unfold popcount. rewrite byte_counts_dval, bytes_sum_spec;
      rewrite ?map_length; auto using bytepop_nonneg; lia. }
  rewrite byte_counts_dval by auto.
  rewrite mul_ones_8 by (rewrite ?map_length; auto using bytepop_nonneg; lia).
  fold ps. unfold select_in_word_gen.
  assert (Lp : length ps = 8%nat).
  { unfold ps. do 8 (destruct ds as [|? ds]; [discriminate L|]). destruct ds; [|discriminate L]. reflexivity. }
  assert (Hp : Forall (fun p => 0 <= p <= 64) ps).
  { unfold ps. clear ps j Lp.
    do 8 (destruct ds as [|? ds]; [discriminate L|]). destruct ds; [|discriminate L].
    repeat match goal with H : Forall _ (_ :: _) |- _ => inversion_clear H end.
    simpl in HS |- *. unfold bytepop in *.
    repeat constructor; lia. }
  assert (Hj : 0 <= j <= 7).
  { unfold j, ps. clear Hp Lp. clear j ps.
    do 8 (destruct ds as [|? ds]; [discriminate L|]). destruct ds; [|discriminate L].
    cbn [map prefix_sums zsum] in Hk |- *. unfold leb2z.
    repeat match goal with |- context [if ?c <=? ?d then _ else _] => destruct (Z.leb_spec c d) end;
    lia. }
  replace (u64 (k * ones_step_8)) with (dval 8 (map (fun _ => k) ps)).
  2:{ do 8 (destruct ps as [|? ps]; [discriminate Lp|]). destruct ps; [|discriminate Lp].
      simpl map. unfold dval, ones_step_8. change (2 ^ 8) with 256.
      rewrite u64_small; [ring|]. change (2 ^ 64) with 18446744073709551616. lia. }
  assert (D128 : digit 8 128) by (unfold digit; lia).
  rewrite (dval_lor_c 8 ltac:(lia) (map (fun _ => k) ps) 128);
    [|rewrite map_length, Lp; reflexivity | auto |].
  2:{ eapply Forall_map; [|exact Hp]. intros; unfold digit; change (2 ^ 8) with 256; lia. }
  rewrite map_map.
  rewrite dval_sub by (rewrite map_length; auto).
  replace (map2 Z.sub (map (fun _ => Z.lor k 128) ps) ps) with (map (fun p => k + 128 - p) ps).
  2:{ rewrite <- (map_id ps) at 3. rewrite map2_map, map2_same. apply map_ext_Forall.
      eapply Forall_impl; [|exact Hp]. cbn beta. intros p Hpp.
      destruct (geq_digit k p) as [-> _]; lia. }
  assert (HD : Forall (digit 8) (map (fun p => k + 128 - p) ps)).
  { eapply Forall_map; [|exact Hp]. intros p Hpp; cbn beta in Hpp. apply geq_digit; lia. }
  rewrite (u64_small (dval 8 (map (fun p => k + 128 - p) ps))) by (apply dval8_range; rewrite ?map_length; auto).
  rewrite (dval_land_c 8 ltac:(lia) _ 128); [|rewrite map_length, Lp; reflexivity|auto|auto].
  rewrite map_map.
  replace (map (fun x => Z.land (k + 128 - x) 128) ps) with (map (fun p => 128 * leb2z p k) ps).
  2:{ apply map_ext_Forall. eapply Forall_impl; [|exact Hp]. cbn beta. intros p Hpp.
      symmetry. apply geq_digit; lia. }
  set (g := dval 8 (map (fun p => 128 * leb2z p k) ps)).
  assert (E7 : Z.shiftr g 7 = dval 8 (map (fun p => leb2z p k) ps)).
  { unfold g. rewrite dval_shiftr.
    - rewrite map_map. f_equal. apply map_ext. intros p. unfold leb2z. destruct (p <=? k); reflexivity.
    - lia.
    - clear. induction ps; simpl; constructor; auto. exists (leb2z a k). change (2 ^ 7) with 128. lia. }
  assert (P1 : Z.land (Z.shiftr (u64 (Z.shiftr g 7 * ones_step_8)) 53) (not64 7) = 8 * j).
  { rewrite E7.
    assert (Forall (fun c => 0 <= c <= 1) (map (fun p => leb2z p k) ps)).
    { clear. induction ps; simpl; constructor; auto. unfold leb2z; destruct (a <=? k); lia. }
    assert (length (map (fun p => leb2z p k) ps) = 8%nat) by (rewrite map_length; auto).
    unfold j in *. revert H0 H1 Hj. generalize (map (fun p => leb2z p k) ps). clear.
    intros cs H L Hj.
    rewrite mul_ones_8; [|auto|eapply Forall_impl; [|exact H]; cbn beta; lia|lia].
    do 8 (destruct cs as [|? cs]; [discriminate L|]). destruct cs; [|discriminate L].
    repeat match goal with H : Forall _ (_ :: _) |- _ => inversion_clear H end.
    simpl zsum in *. simpl prefix_sums. unfold dval. change (2 ^ 8) with 256.
    rewrite Z.shiftr_div_pow2 by lia. change (2 ^ 53) with 9007199254740992.
    set (s := z + (z0 + (z1 + (z2 + (z3 + (z4 + (z5 + (z6 + 0)))))))) in *.
    match goal with |- Z.land (?X / ?Y) _ = _ => assert (E : X / Y = 8 * s) end.
    { symmetry. apply Z.div_unique_pos with
        (r := (0 + z) + 256 * ((0 + z + z0) + 256 * ((0 + z + z0 + z1) + 256 * ((0 + z + z0 + z1 + z2) +
          256 * ((0 + z + z0 + z1 + z2 + z3) + 256 * ((0 + z + z0 + z1 + z2 + z3 + z4) +
          256 * (0 + z + z0 + z1 + z2 + z3 + z4 + z5))))))); unfold s; lia. }
    rewrite E. clear E. clearbody s. assert (HI : In s [0;1;2;3;4;5;6;7]) by (simpl; lia).
    clear - HI. simpl in HI. intuition (subst; reflexivity). }
  assert (P2 : u64 (popcount_intrinsic g * 8) = 8 * j).
  { rewrite popcount_intrinsic_correct.
    assert (HG : Forall (digit 8) (map (fun p => 128 * leb2z p k) ps)).
    { clear. induction ps; simpl; constructor; auto. unfold digit, leb2z.
      destruct (a <=? k); lia. }
    rewrite word_bits_digits. unfold g.
    rewrite digits_dval8 by (rewrite ?map_length; auto).
    rewrite count_flat_map_bits, map_map.
    replace (map (fun x => bytepop (128 * leb2z x k)) ps) with (map (fun p => leb2z p k) ps).
    2:{ apply map_ext. intros p. unfold leb2z; destruct (p <=? k); reflexivity. }
    fold j. rewrite u64_small by lia. lia. }
  replace (if popcnt then u64 (popcount_intrinsic g * 8)
    else Z.land (Z.shiftr (u64 (Z.shiftr g 7 * ones_step_8)) 53) (not64 7)) with (8 * j)
    by (destruct popcnt; congruence).
  reflexivity.
Qed.

Lemma u64_shl8 ds : length ds = 8%nat -> Forall (digit 8) ds ->
  u64 (Z.shiftl (dval 8 ds) 8) = dval 8 (0 :: removelast ds).
Proof.
  intros L H.
  do 8 (destruct ds as [|? ds]; [discriminate L|]). destruct ds; [|discriminate L].
  repeat match goal with H : Forall _ (_ :: _) |- _ => inversion_clear H end.
  unfold digit in *. rewrite Z.shiftl_mul_pow2 by lia.
  simpl removelast. unfold dval. change (2 ^ 8) with 256 in *.
  unfold u64. change (2 ^ 64) with 18446744073709551616.
  symmetry. apply Z.mod_unique_pos with (q := z6); lia.
Qed.

Lemma dval_byte ds j : Forall (digit 8) ds -> (j < length ds)%nat ->
  Z.land (Z.shiftr (dval 8 ds) (8 * Z.of_nat j)) 0xFF = nth j ds 0.
Proof.
  intros H Hj. change 0xFF with (Z.ones 8). rewrite Z.land_ones by lia.
  rewrite Z.shiftr_div_pow2 by lia.
  rewrite <- (nth_digits 8 (length ds)) by lia.
  rewrite digits_dval by (auto; lia). reflexivity.
Qed.

Lemma prefix_sums_above cs a k : Forall (fun c => 0 <= c) cs -> k < a ->
  zsum (map (fun p => leb2z p k) (prefix_sums a cs)) = 0.
Proof.
  revert a; induction cs as [|c cs IH]; intros a H Hk; [reflexivity|].
  inversion_clear H. cbn [prefix_sums map zsum]. rewrite IH by (auto; lia).
  unfold leb2z. destruct (Z.leb_spec (a + c) k); lia.
Qed.

Lemma locate cs a k : Forall (fun c => 0 <= c) cs -> a <= k < a + zsum cs ->
  exists n, (n < length cs)%nat /\
    zsum (map (fun p => leb2z p k) (prefix_sums a cs)) = Z.of_nat n /\
    a + zsum (firstn n cs) <= k < a + zsum (firstn n cs) + nth n cs 0 /\
    nth n (a :: removelast (prefix_sums a cs)) 0 = a + zsum (firstn n cs).
Proof.
  revert a; induction cs as [|c cs IH]; intros a H Hk; cbn [zsum] in Hk; [lia|].
  inversion_clear H. destruct (Z.lt_ge_cases k (a + c)).
  - exists 0%nat. cbn [prefix_sums map zsum length firstn nth].
    rewrite prefix_sums_above by (auto; lia).
    unfold leb2z. destruct (Z.leb_spec (a + c) k); lia.
  - destruct (IH (a + c)) as [n [Hn [E1 [E2 E3]]]]; [auto|lia|].
    exists (S n). split; [simpl; lia|]. cbn [prefix_sums map zsum firstn].
    rewrite E1. split; [unfold leb2z; destruct (Z.leb_spec (a + c) k); lia|].
    split; [cbn [nth]; lia|].
    destruct cs as [|c' cs]; [simpl in Hn; lia|].
    change (removelast ((a + c) :: prefix_sums (a + c) (c' :: cs)))
      with ((a + c) :: removelast (prefix_sums (a + c) (c' :: cs))).
    change (nth (S n) (a :: ?l) 0) with (nth n l 0). cbn [nth] in *. rewrite E3. lia.
Qed.

Lemma nth_map_Z (f : Z -> Z) l n : (n < length l)%nat -> nth n (map f l) 0 = f (nth n l 0).
Proof.
  intros H. rewrite nth_indep with (d' := f 0) by (rewrite map_length; auto). apply map_nth.
Qed.

Lemma locate_byte ds k : 0 <= k < zsum (map bytepop ds) ->
  let ps := prefix_sums 0 (map bytepop ds) in
  exists n, (n < length ds)%nat /\ zsum (map (fun p => leb2z p k) ps) = Z.of_nat n /\
     nth n (0 :: removelast ps) 0 <= k < nth n (0 :: removelast ps) 0 + bytepop (nth n ds 0) /\
     nth n (0 :: removelast ps) 0 = Z.of_nat (count true (flat_map (bits_of 8) (firstn n ds))).
Proof.
  intros Hk ps. unfold ps.
  destruct (locate (map bytepop ds) 0 k (bytepop_nonneg ds) ltac:(lia)) as [n [Hn [E1 [E2 E3]]]].
  rewrite map_length in Hn. exists n. split; [auto|]. split; [auto|].
  rewrite E3, count_flat_map_bits, <- firstn_map. rewrite nth_map_Z in E2 by auto. lia.
Qed.

Lemma select_in_word_gen_correct popcnt w k :
  is_u64 w -> 0 <= k < Z.of_nat (count true (word_bits w)) ->
  exists p, select_in_word_gen popcnt w k = Ok (Z.of_nat p) /\
            is_select true (word_bits w) (Z.to_nat k) p.
Proof.
  intros Hw Hk. rewrite word_bits_digits in *. rewrite count_flat_map_bits in Hk.
  assert (E := digits8 w Hw).
  assert (H : Forall (digit 8) (digits 8 8 w)) by (apply digits_range; lia).
  assert (L : length (digits 8 8 w) = 8%nat) by apply digits_length.
  set (ds := digits 8 8 w) in *. clearbody ds. subst w. clear Hw.
  rewrite select_in_word_step by auto.
  pose proof (zsum_bytepop ds L H) as HS.
  set (ps := prefix_sums 0 (map bytepop ds)).
  assert (Lp : length ps = 8%nat).
  { unfold ps. do 8 (destruct ds as [|? ds]; [discriminate L|]). destruct ds; [|discriminate L]. reflexivity. }
  assert (Hp : Forall (digit 8) ps).
  { unfold ps. do 8 (destruct ds as [|? ds]; [discriminate L|]). destruct ds; [|discriminate L].
    simpl in HS |- *. unfold bytepop, digit in *. change (2 ^ 8) with 256.
    repeat constructor; lia. }
  rewrite (u64_shl8 ps) by auto.
  destruct (locate_byte ds k Hk) as [n [Hn [Hz [Hr Hc]]]]. fold ps in Hz, Hr, Hc. rewrite Hz.
  rewrite L in Hn.
  assert (HF : Forall (digit 8) (0 :: removelast ps)).
  { constructor; [unfold digit; lia|].
    do 8 (destruct ps as [|? ps]; [discriminate Lp|]). destruct ps; [|discriminate Lp].
    repeat match goal with H : Forall _ (_ :: _) |- _ => inversion_clear H end.
    simpl removelast. repeat (apply Forall_cons; [assumption|]); apply Forall_nil. }
  assert (LF : length (0 :: removelast ps) = 8%nat).
  { do 8 (destruct ps as [|? ps]; [discriminate Lp|]). destruct ps; [|discriminate Lp]. reflexivity. }
  rewrite shr_ok by lia. rewrite bind_ok.
  rewrite (dval_byte (0 :: removelast ps)) by (auto; lia).
  rewrite shr_ok by lia. cbv zeta. rewrite bind_ok.
  rewrite (dval_byte ds) by (auto; lia).
  set (d := nth n ds 0) in *. set (q := nth n (0 :: removelast ps) 0) in *.
  assert (Hd : digit 8 d). { apply Forall_nth; [auto|lia]. }
  assert (0 <= bytepop d <= 8) by (apply bc_sweep1; auto).
  rewrite (u64_small (k - q)) by lia.
  rewrite (u64_small (Z.shiftl (k - q) 8)) by (rewrite Z.shiftl_mul_pow2 by lia; lia).
  destruct (select_in_byte_spec d (k - q) Hd) as [p [Hrd Hsel]]; [lia|].
  rewrite Hrd, bind_ok.
  assert (Hp8 : (p < 8)%nat).
  { destruct Hsel as [Hs _]. assert (p < length (bits_of 8 d))%nat by (apply nth_error_Some; congruence).
    rewrite bits_of_length in *; auto. }
  exists (8 * n + p)%nat. split.
  - f_equal. rewrite u64_small; lia.
  - assert (E : ds = firstn n ds ++ d :: skipn (S n) ds).
    { apply split_nth. lia. }
    rewrite E. rewrite flat_map_app.
    assert (LL : length (flat_map (bits_of 8) (firstn n ds)) = (8 * n)%nat).
    { rewrite flat_map_bits_length, firstn_length. lia. }
    replace (Z.to_nat k) with (count true (flat_map (bits_of 8) (firstn n ds)) + Z.to_nat (k - q))%nat by lia.
    rewrite <- LL. apply is_select_app2. cbn [flat_map]. apply is_select_app1. exact Hsel.
Qed.

Lemma select_in_word_correct w k :
  is_u64 w -> 0 <= k < Z.of_nat (count true (word_bits w)) ->
  exists p, select_in_word w k = Ok (Z.of_nat p) /\
            is_select true (word_bits w) (Z.to_nat k) p.
Proof. apply select_in_word_gen_correct. Qed.
