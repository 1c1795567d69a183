(** Which bytes vbyte decoding accepts. *)
From Verif Require Import Base Spec Lib M_Broadword P_Broadword P_Broadword2 P_BvLib P_RsBuild P_Darray M_Util S_Util P_Util S_Vbyte.

Lemma lor128 x : 0 <= x < 128 -> Z.lor x 128 = x + 128.
Proof. intros H. change 128 with (Z.shiftl 1 7) at 1. rewrite lor_disjoint; [|lia|change (2 ^ 7) with 128; lia]. lia. Qed.
Lemma bit7 c : 0 <= c < 256 -> (Z.land c 128 =? 0) = (c <? 128).
Proof.
  intros H. destruct (Z.ltb_spec c 128).
  - destruct (land128_lor c) as (_ & _ & -> & _); [lia|]. reflexivity.
  - destruct (land128_lor (c - 128)) as (E & _ & E0 & _); [lia|]. replace c with (Z.lor (c - 128) 128); [rewrite E; reflexivity|].
    rewrite lor128; lia.
Qed.
Lemma shift_in acc c : is_u64 acc -> 0 <= c < 256 -> Z.lor (u64 (Z.shiftl acc 7)) (Z.land c 127) = u64 (128 * acc + c mod 128).
Proof.
  intros Ha Hc. unfold is_u64 in Ha. set (y := u64 (128 * acc + c mod 128)). pose proof (u64_range (128 * acc + c mod 128)) as Hy. fold y in Hy.
  rewrite <- (shift7 y Hy) at 1. rewrite !land127, !Z.shiftl_mul_pow2, !Z.shiftr_div_pow2 by lia.
  assert (E : y = 128 * acc + c mod 128 - 2 ^ 64 * ((128 * acc + c mod 128) / 2 ^ 64)) by (unfold y, u64; rewrite Z.mod_eq; lia).
  set (q := (128 * acc + c mod 128) / 2 ^ 64) in *. clearbody q y. pose proof (Z.mod_pos_bound c 128 ltac:(lia)).
  change (2 ^ 7) with 128 in *. replace (y / 128) with (acc - 2 ^ 57 * q).
  - f_equal.
    + unfold u64. replace ((acc - 2 ^ 57 * q) * 128) with (acc * 128 + (- q) * 2 ^ 64) by lia. rewrite Z.mod_add by lia. reflexivity.
    + rewrite E. replace (128 * acc + c mod 128 - 2 ^ 64 * q) with (c mod 128 + (acc - 2 ^ 57 * q) * 128) by lia. rewrite Z.mod_add by lia. rewrite Z.mod_mod by lia. reflexivity.
  - apply (Z.div_unique_pos y 128 (acc - 2 ^ 57 * q) (c mod 128)); lia.
Qed.
Lemma fold_u64 bs : forall a, u64 (fold_left (fun a b => 128 * a + b mod 128) bs (u64 a)) = u64 (fold_left (fun a b => 128 * a + b mod 128) bs a).
Proof.
  induction bs as [|b bs IH]; intros a; cbn [fold_left]; [unfold u64; apply Z.mod_mod; lia|].
  rewrite <- IH. rewrite <- (IH (128 * a + b mod 128)). do 2 f_equal. unfold u64. rewrite (Z.add_mod _ (b mod 128)), Z.mul_mod, Z.mod_mod, <- Z.mul_mod, <- Z.add_mod by lia. reflexivity.
Qed.
Lemma rd_mid (pre : list Z) c suf : rd (pre ++ c :: suf) (zlen pre) = Ok c.
Proof.
  rewrite W_rd by (rewrite zlen_app, zlen_cons; pose proof (zlen_nonneg pre); pose proof (zlen_nonneg suf); lia).
  f_equal. rewrite W_app. rewrite Z.ltb_irrefl, Z.sub_diag. reflexivity.
Qed.
Lemma decode_bytes last suf : final last -> forall enc fuel pre acc, Forall more enc -> (length enc < fuel)%nat -> is_u64 acc ->
  decode_vbyte_loop fuel (pre ++ enc ++ last :: suf) (zlen pre) acc =
  Ok (zlen pre + zlen enc + 1, u64 (fold_left (fun a b => 128 * a + b mod 128) (enc ++ [last]) acc)).
Proof.
  intros Hl. induction enc as [|c enc IH]; intros [|fuel] pre acc He Hf Ha; cbn [length] in Hf; try lia; cbn [decode_vbyte_loop app].
  - rewrite rd_mid. cbn [bind]. rewrite shl_ok by lia. cbn [bind]. unfold final in Hl. rewrite bit7 by lia. replace (last <? 128) with true by lia. cbn [negb fold_left].
    rewrite shift_in by (auto; lia). change (zlen (@nil Z)) with 0. do 2 f_equal. lia.
  - inversion He as [|? ? Hc He']; subst. unfold more in Hc. rewrite rd_mid. cbn [bind]. rewrite shl_ok by lia. cbn [bind]. rewrite bit7 by lia. replace (c <? 128) with false by lia. cbn [negb].
    rewrite shift_in by (auto; lia). change (pre ++ c :: enc ++ last :: suf) with (pre ++ [c] ++ enc ++ last :: suf). rewrite app_assoc.
    replace (zlen pre + 1) with (zlen (pre ++ [c])) by (rewrite zlen_app; reflexivity). rewrite IH; [|auto|lia|apply u64_range].
    cbn [fold_left]. rewrite fold_u64. rewrite zlen_app, (zlen_cons c enc). change (zlen [c]) with 1. do 2 f_equal. lia.
Qed.
Lemma decode_exact pre enc last suf : zlen pre + zlen enc < 2 ^ 64 - 1 -> Forall more enc -> final last ->
  decode_vbyte (pre ++ enc ++ last :: suf) (zlen pre) = Ok (zlen enc + 1, base128 (enc ++ [last]) mod 2 ^ 64).
Proof.
  intros Hz He Hl. unfold decode_vbyte. rewrite decode_bytes; auto; [|rewrite !app_length; cbn; lia|unfold is_u64; lia]. cbn [bind].
  pose proof (zlen_nonneg pre). pose proof (zlen_nonneg enc). rewrite sub64_ok by lia. unfold base128, u64. do 2 f_equal. lia.
Qed.
Lemma decode_open : forall enc fuel pre acc, Forall more enc -> (length enc < fuel)%nat -> is_u64 acc ->
  decode_vbyte_loop fuel (pre ++ enc) (zlen pre) acc = Ub OutOfBounds.
Proof.
  induction enc as [|c enc IH]; intros [|fuel] pre acc He Hf Ha; cbn [length] in Hf; try lia; cbn [decode_vbyte_loop].
  - rewrite app_nil_r. unfold rd. replace ((0 <=? zlen pre) && (zlen pre <? zlen pre)) with false by lia. reflexivity.
  - inversion He as [|? ? Hc He']; subst. unfold more in Hc. rewrite rd_mid. cbn [bind]. rewrite shl_ok by lia. cbn [bind]. rewrite bit7 by lia. replace (c <? 128) with false by lia. cbn [negb].
    rewrite shift_in by (auto; lia). change (pre ++ c :: enc) with (pre ++ [c] ++ enc). rewrite app_assoc.
    replace (zlen pre + 1) with (zlen (pre ++ [c])) by (rewrite zlen_app; reflexivity). apply IH; [auto|lia|apply u64_range].
Qed.
Lemma decode_unterminated pre enc : Forall more enc -> decode_vbyte (pre ++ enc) (zlen pre) = Ub OutOfBounds.
Proof. intros He. unfold decode_vbyte. rewrite decode_open; auto; [rewrite app_length; lia|unfold is_u64; lia]. Qed.

Lemma base128_cons b bs : base128 (b :: bs) = (b mod 128) * 128 ^ zlen bs + base128 bs.
Proof.
  assert (X : forall bs a, fold_left (fun a b => 128 * a + b mod 128) bs a = a * 128 ^ zlen bs + base128 bs).
  { clear. induction bs as [|b bs IH]; intros a; cbn [fold_left]; [unfold base128; cbn [fold_left]; change (zlen (@nil Z)) with 0; rewrite Z.pow_0_r; lia|]. unfold base128. cbn [fold_left]. rewrite IH, (IH (128 * 0 + _)).
    rewrite zlen_cons, Z.pow_add_r by (pose proof (zlen_nonneg bs); lia). lia. }
  unfold base128 at 1. cbn [fold_left]. rewrite X. lia.
Qed.
Lemma base128_range bs : 0 <= base128 bs < 128 ^ zlen bs.
Proof.
  induction bs as [|b bs IH]; [change (0 <= 0 < 1); lia|]. rewrite base128_cons, zlen_cons, Z.pow_add_r by (pose proof (zlen_nonneg bs); lia). pose proof (Z.mod_pos_bound b 128 ltac:(lia)). nia.
Qed.
Lemma venc_digits last : final last -> forall enc val, Forall more enc -> 0 <= val -> val mod 128 ^ (zlen enc + 1) = base128 (enc ++ [last]) ->
  venc (S (length enc)) val = enc ++ [last].
Proof.
  intros Hl. induction enc as [|c enc IH]; intros val He Hv E.
  - cbn [length venc app]. f_equal. unfold chunk_of. cbn [Z.of_nat Z.mul]. rewrite Z.shiftr_0_r, Z.lor_0_r, land127. unfold final in Hl.
    change (128 ^ (zlen (@nil Z) + 1)) with 128 in E. unfold base128 in E. cbn [app fold_left] in E. rewrite Z.mod_small with (a := last) in E by lia. change (2 ^ 7) with 128. lia.
  - inversion He as [|? ? Hc He']; subst. unfold more in Hc. cbn [length app]. change (venc (S (S (length enc))) val) with (chunk_of (S (length enc)) val :: venc (S (length enc)) val).
    cbn [app] in E. rewrite base128_cons, zlen_cons, zlen_app in E. change (zlen [last]) with 1 in E. pose proof (base128_range (enc ++ [last])) as R. rewrite zlen_app in R. change (zlen [last]) with 1 in R.
    set (k := zlen enc + 1) in *. assert (Hk : 0 < k) by (unfold k; pose proof (zlen_nonneg enc); lia).
    assert (P : 0 < 128 ^ k) by (apply Z.pow_pos_nonneg; lia). replace (1 + zlen enc + 1) with (k + 1) in E by (unfold k; lia). rewrite Z.pow_add_r in E by lia. change (128 ^ 1) with 128 in E.
    assert (V : val = (val / (128 ^ k * 128) * 128 + c mod 128) * 128 ^ k + base128 (enc ++ [last])).
    { rewrite (Z.div_mod val (128 ^ k * 128)) at 1 by lia. rewrite E. ring. }
    assert (Q : val / 128 ^ k = val / (128 ^ k * 128) * 128 + c mod 128) by (symmetry; apply (Z.div_unique_pos val (128 ^ k) _ (base128 (enc ++ [last]))); lia).
    f_equal.
    + unfold chunk_of. replace (Z.of_nat (S (length enc)) * 7) with (k * 7) by (unfold k, zlen; lia). rewrite Z.shiftr_div_pow2 by lia. rewrite (Z.mul_comm k 7), Z.pow_mul_r by lia. change (2 ^ 7) with 128.
      rewrite Q, land127. change (2 ^ 7) with 128. rewrite Z.add_comm, Z.mod_add, Z.mod_mod by lia. rewrite (Z.mod_eq c) by lia. replace (c / 128) with 1 by (apply (Z.div_unique_pos c 128 1 (c - 128)); lia).
      rewrite lor128; lia.
    + apply IH; auto. rewrite V, Z.add_comm, Z.mod_add by lia. apply Z.mod_small. exact R.
Qed.
Lemma encode_canonical v enc last : Forall more enc -> final last -> no_leading_zero enc -> base128 (enc ++ [last]) < 2 ^ 64 ->
  append_vbyte v (base128 (enc ++ [last])) = Ok (v ++ enc ++ [last], zlen enc + 1).
Proof.
  intros He Hl Hz Hb. set (val := base128 (enc ++ [last])) in *. pose proof (base128_range (enc ++ [last])) as R. fold val in R. rewrite zlen_app in R. change (zlen [last]) with 1 in R.
  assert (U : is_u64 val) by (unfold is_u64; lia). destruct (vbyte_size_ok val U) as [E Hn].
  assert (N : vbytes_spec val = zlen enc + 1).
  { pose proof (zlen_nonneg enc) as Z0. unfold vbytes_spec. destruct enc as [|c enc].
    - change (zlen (@nil Z)) with 0 in *. destruct (Z.eqb_spec val 0); [lia|]. change (128 ^ (0 + 1)) with (2 ^ 7) in R. assert (Z.log2 val < 7) by (apply Z.log2_lt_pow2; lia). pose proof (Z.log2_nonneg val).
      symmetry. apply (Z.div_unique_pos (Z.log2 val + 1 + 6) 7 1 (Z.log2 val)); lia.
    - cbn in Hz. inversion He as [|? ? Hc He']; subst. unfold more in Hc. set (k := zlen (c :: enc)) in *.
      assert (L : 128 ^ k <= val).
      { unfold val. cbn [app]. rewrite base128_cons, zlen_app. change (zlen [last]) with 1. replace (zlen enc + 1) with k by (unfold k; rewrite zlen_cons; lia).
        pose proof (base128_range (enc ++ [last])). assert (1 <= c mod 128) by (rewrite Z.mod_eq by lia; replace (c / 128) with 1 by (apply (Z.div_unique_pos c 128 1 (c - 128)); lia); lia).
        assert (0 < 128 ^ k) by (apply Z.pow_pos_nonneg; lia). nia. }
      assert (P : 0 < 128 ^ k) by (apply Z.pow_pos_nonneg; lia). destruct (Z.eqb_spec val 0); [lia|]. change 128 with (2 ^ 7) in L, R. rewrite <- Z.pow_mul_r in L, R by lia.
      apply Z.log2_le_pow2 in L; [|lia]. assert (Z.log2 val < 7 * (k + 1)) by (apply Z.log2_lt_pow2; lia).
      symmetry. apply (Z.div_unique_pos (Z.log2 val + 1 + 6) 7 (k + 1) (Z.log2 val - 7 * k)); lia. }
  unfold append_vbyte. rewrite E. cbn [bind]. rewrite append_loop_ok by (auto; lia). cbn [bind]. rewrite N. do 3 f_equal.
  replace (Z.to_nat (zlen enc + 1)) with (S (length enc)) by (unfold zlen; lia). apply venc_digits; auto; [lia|]. apply Z.mod_small. exact R.
Qed.
Lemma decode_overlong pre enc last suf k : zlen pre + Z.of_nat k + zlen enc < 2 ^ 64 - 1 -> Forall more enc -> final last ->
  decode_vbyte (pre ++ repeat 128 k ++ enc ++ last :: suf) (zlen pre) = Ok (Z.of_nat k + zlen enc + 1, base128 (enc ++ [last]) mod 2 ^ 64).
Proof.
  intros Hz He Hl. rewrite (app_assoc (repeat 128 k)). rewrite decode_exact; [|rewrite zlen_app, zlen_repeat; lia| |auto].
  - rewrite zlen_app, zlen_repeat. replace (base128 ((repeat 128 k ++ enc) ++ [last])) with (base128 (enc ++ [last])); [reflexivity|]. rewrite <- app_assoc. clear Hz. induction k as [|k IH]; [reflexivity|]. cbn [repeat app]. rewrite base128_cons. change (128 mod 128) with 0. rewrite <- IH. lia.
  - apply Forall_app. split; auto. apply Forall_forall. intros x Hx. apply repeat_spec in Hx. subst. unfold more. lia.
Qed.
