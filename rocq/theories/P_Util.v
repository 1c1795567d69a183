From Verif Require Import Base Spec Lib M_Broadword P_Broadword P_Broadword2 P_BvLib P_RsBuild P_Darray M_Util S_Util.
From Coq Require Import Lia.

Lemma rd_nth {A} (l : list A) n x : nth_error l n = Some x -> rd l (Z.of_nat n) = Ok x.
Proof.
  intros H. assert (n < length l)%nat by (apply nth_error_Some; congruence).
  unfold rd. replace ((0 <=? Z.of_nat n) && (Z.of_nat n <? zlen l)) with true.
  - rewrite Nat2Z.id, H. reflexivity.
  - symmetry. apply andb_true_intro. unfold zlen. split; lia.
Qed.

(** ** vbyte *)
Definition chunk_of (b : nat) (val : Z) : Z :=
  Z.lor (Z.land (Z.shiftr val (Z.of_nat b * 7)) 127) (match b with O => 0 | S _ => 128 end).
Fixpoint venc (n : nat) (val : Z) : list Z :=
  match n with O => [] | S b => chunk_of b val :: venc b val end.

Lemma zlen_venc n val : zlen (venc n val) = Z.of_nat n.
Proof. induction n as [|n IH]; [reflexivity|]. cbn [venc]. rewrite zlen_cons, IH. lia. Qed.

Lemma land127 x : Z.land x 127 = x mod 2 ^ 7.
Proof. change 127 with (Z.ones 7). apply Z.land_ones; lia. Qed.

Lemma append_loop_ok val : is_u64 val -> forall n v, (n <= 10)%nat ->
  append_vbyte_loop n v val = Ok (v ++ venc n val).
Proof.
  intros Hv. induction n as [|n IH]; intros v Hn.
  - cbn. rewrite app_nil_r. reflexivity.
  - cbn [append_vbyte_loop]. unfold shr.
    replace ((0 <=? Z.of_nat n * 7) && (Z.of_nat n * 7 <? 64)) with true by (symmetry; apply andb_true_intro; split; lia).
    cbn [bind]. rewrite IH by lia. rewrite <- app_assoc. cbn [venc app].
    unfold chunk_of. rewrite u8_small; [reflexivity|].
    rewrite land127. pose proof (Z.mod_pos_bound (Z.shiftr val (Z.of_nat n * 7)) (2 ^ 7)). lia.
Qed.

Lemma land128_lor a : 0 <= a < 128 -> Z.land (Z.lor a 128) 128 = 128 /\ Z.land (Z.lor a 128) 127 = a /\
  Z.land a 128 = 0 /\ Z.land a 127 = a.
Proof.
  intros Ha.
  assert (E0 : Z.land a 128 = 0).
  { change 128 with (2 ^ 7). apply Z.bits_inj'. intros i Hi. rewrite Z.land_spec, Z.bits_0.
    destruct (Z.eq_dec i 7) as [->|Ne].
    - rewrite (Z.bits_above_log2 a 7); [reflexivity|lia|]. destruct (Z.eq_dec a 0) as [->|]; [cbn; lia|].
      apply Z.log2_lt_pow2; lia.
    - rewrite Z.pow2_bits_false by congruence. apply andb_false_r. }
  assert (E1 : Z.land a 127 = a) by (rewrite land127; apply Z.mod_small; lia).
  rewrite !Z.land_lor_distr_l, E0, E1. cbn. rewrite Z.lor_0_r. auto.
Qed.

Lemma shift7 y : is_u64 y -> Z.lor (u64 (Z.shiftl (Z.shiftr y 7) 7)) (Z.land y 127) = y.
Proof.
  intros Hy. unfold is_u64 in Hy. rewrite land127, Z.shiftr_div_pow2 by lia.
  pose proof (Z.div_mod y (2 ^ 7)). pose proof (Z.mod_pos_bound y (2 ^ 7)).
  rewrite u64_small by (rewrite Z.shiftl_mul_pow2 by lia; lia).
  rewrite Z.lor_comm, lor_disjoint by lia. lia.
Qed.

Lemma venc_rd pre n val suf : rd (pre ++ venc (S n) val ++ suf) (zlen pre) = Ok (chunk_of n val).
Proof.
  rewrite W_rd by (rewrite !zlen_app, zlen_venc; pose proof (zlen_nonneg pre); pose proof (zlen_nonneg suf); lia).
  f_equal. rewrite W_app. rewrite Z.ltb_irrefl, Z.sub_diag. reflexivity.
Qed.

Lemma decode_loop_ok suf val : is_u64 val -> forall n fuel pre acc, (S n <= 10)%nat -> (n < fuel)%nat ->
  acc = Z.shiftr val (Z.of_nat (S n) * 7) ->
  decode_vbyte_loop fuel (pre ++ venc (S n) val ++ suf) (zlen pre) acc = Ok (zlen pre + Z.of_nat (S n), val).
Proof.
  intros Hv. induction n as [|n IH]; intros fuel pre acc Hn Hf Ha; (destruct fuel as [|fuel]; [lia|]);
    cbn [decode_vbyte_loop]; rewrite venc_rd; cbn [bind]; unfold shl; change ((0 <=? 7) && (7 <? 64)) with true;
    cbv iota; cbn [bind]; unfold chunk_of.
  - rewrite Z.lor_0_r, Z.shiftr_0_r.
    assert (Hc : 0 <= Z.land val 127 < 128) by (rewrite land127; apply Z.mod_pos_bound; lia).
    destruct (land128_lor _ Hc) as (_ & _ & E2 & E3). rewrite E2, E3. change (negb (0 =? 0)) with false.
    cbv iota. subst acc. change (Z.of_nat 1 * 7) with 7. rewrite shift7 by exact Hv. reflexivity.
  - set (y := Z.shiftr val (Z.of_nat (S n) * 7)).
    assert (Hy : is_u64 y).
    { unfold is_u64, y in *. rewrite Z.shiftr_div_pow2 by lia. split; [apply Z.div_pos; lia|].
      apply Z.le_lt_trans with val; [|lia]. apply Z.div_le_upper_bound; nia. }
    assert (Hc : 0 <= Z.land y 127 < 128) by (rewrite land127; apply Z.mod_pos_bound; lia).
    destruct (land128_lor _ Hc) as (E1 & E4 & _ & _). rewrite E1, E4. change (negb (128 =? 0)) with true.
    cbv iota.
    replace acc with (Z.shiftr y 7) by (unfold y; rewrite Z.shiftr_shiftr by lia; subst acc; f_equal; lia).
    rewrite shift7 by exact Hy.
    change (venc (S (S n)) val) with (chunk_of (S n) val :: venc (S n) val).
    replace (pre ++ (chunk_of (S n) val :: venc (S n) val) ++ suf)
      with ((pre ++ [chunk_of (S n) val]) ++ venc (S n) val ++ suf) by (rewrite <- app_assoc; reflexivity).
    replace (zlen pre + 1) with (zlen (pre ++ [chunk_of (S n) val])) by (rewrite zlen_app; reflexivity).
    rewrite IH; [|lia|lia|reflexivity].
    f_equal. f_equal. rewrite zlen_app. change (zlen [chunk_of (S n) val]) with 1. lia.
Qed.

Lemma log2_u64 x : is_u64 x -> 0 <= Z.log2 x < 64.
Proof.
  intros [H0 H1]. split; [apply Z.log2_nonneg|]. destruct (Z.eq_dec x 0) as [->|]; [cbn; lia|].
  apply Z.log2_lt_pow2; lia.
Qed.

Lemma vbyte_size_ok val : is_u64 val -> vbyte_size val = Ok (vbytes_spec val) /\ 1 <= vbytes_spec val <= 10.
Proof.
  intros Hv. unfold vbyte_size, vbytes_spec. pose proof (log2_u64 _ Hv).
  destruct (Z.eqb_spec val 0) as [->|Ne].
  - split; [reflexivity|lia].
  - rewrite msb_opt_correct by assumption. cbn [bind]. unfold ceil_div64.
    rewrite (u64_small (Z.log2 val + 1 + 7)) by lia. rewrite sub64_ok by lia.
    replace (Z.log2 val + 1 + 7 - 1) with (Z.log2 val + 1 + 6) by lia.
    split; [reflexivity|].
    split; [apply Z.div_le_lower_bound; lia|apply Z.lt_succ_r, Z.div_lt_upper_bound; lia].
Qed.

Lemma venc_bytes n val : Forall (fun x => 0 <= x < 256) (venc n val).
Proof.
  induction n as [|n IH]; [constructor|]. cbn [venc]. constructor; [|exact IH].
  unfold chunk_of. apply (lor_range _ _ 8); [lia| |destruct n; lia].
  rewrite land127. pose proof (Z.mod_pos_bound (Z.shiftr val (Z.of_nat n * 7)) (2 ^ 7)). lia.
Qed.

Lemma vbyte_ok v val : is_u64 val -> exists enc,
  append_vbyte v val = Ok (v ++ enc, zlen enc) /\ Forall (fun x => 0 <= x < 256) enc /\
  vbyte_size val = Ok (zlen enc) /\
  zlen enc = vbytes_spec val /\
  forall suf, decode_vbyte (v ++ enc ++ suf) (zlen v) = Ok (zlen enc, val).
Proof.
  intros Hv. destruct (vbyte_size_ok val Hv) as [E Hn]. unfold append_vbyte. rewrite E. cbn [bind].
  rewrite append_loop_ok by (try assumption; lia). cbn [bind].
  set (n := vbytes_spec val) in *.
  exists (venc (Z.to_nat n) val). rewrite zlen_venc, Z2Nat.id by lia.
  split; [reflexivity|]. split; [apply venc_bytes|]. split; [reflexivity|]. split; [reflexivity|].
  intros suf. unfold decode_vbyte.
  destruct (Z.to_nat n) as [|m] eqn:Em; [lia|].
  rewrite decode_loop_ok with (n := m).
  - cbn [bind]. rewrite sub64_ok by (pose proof (zlen_nonneg v); lia). f_equal. f_equal. lia.
  - exact Hv.
  - lia.
  - rewrite !app_length. assert (length (venc (S m) val) = S m).
    { pose proof (zlen_venc (S m) val). unfold zlen in *. lia. } lia.
  - symmetry. rewrite Z.shiftr_div_pow2 by lia. apply Z.div_small. split; [apply Hv|].
    assert (Hn7 : Z.log2 val < Z.of_nat (S m) * 7 \/ val = 0).
    { destruct (Z.eq_dec val 0) as [|Ne]; [right; assumption|left].
      assert (Hd : n = (Z.log2 val + 1 + 6) / 7) by (unfold n, vbytes_spec; destruct (Z.eqb_spec val 0); [contradiction|reflexivity]).
      pose proof (Z.div_mod (Z.log2 val + 1 + 6) 7). pose proof (Z.mod_pos_bound (Z.log2 val + 1 + 6) 7). lia. }
    destruct Hn7 as [H7| ->]; [|lia]. destruct (Z.eq_dec val 0) as [->|Ne]; [apply Z.pow_pos_nonneg; lia|].
    apply Z.log2_lt_pow2; [destruct Hv; lia|exact H7].
Qed.

(** ** nibbles *)
Fixpoint packn (l : list Z) : list Z :=
  match l with
  | [] => []
  | [x] => [x]
  | x :: y :: l => (x + 16 * y) :: packn l
  end.

Definition nibbles_ok (l : list Z) : Prop := Forall (fun x => 0 <= x < 16) l.

Lemma pair_ind (P : list Z -> Prop) : P [] -> (forall x, P [x]) -> (forall x y l, P l -> P (x :: y :: l)) -> forall l, P l.
Proof.
  intros H0 H1 H2 l. assert (H : P l /\ forall x, P (x :: l)); [|apply H].
  induction l as [|y l [IH1 IH2]]; split; auto.
Qed.

Lemma nv_loop_ok l : forall nibbles size, nibbles_ok l ->
  nv_loop l nibbles false 0 size = Ok (mk_nv (size + zlen l) (nibbles ++ packn l)).
Proof.
  induction l as [|x|x y l IH] using pair_ind; intros nibbles size Hl.
  - cbn [nv_loop packn]. rewrite app_nil_r. change (zlen (@nil Z)) with 0. rewrite Z.add_0_r. reflexivity.
  - inversion Hl as [|? ? Hx _]; subst. cbn [nv_loop packn negb Z.b2z]. change (0 * 4) with 0.
    replace (x <? 16) with true by lia. cbv iota. rewrite Z.shiftl_0_r, Z.lor_0_l, u8_small by lia.
    reflexivity.
  - inversion Hl as [|? ? Hx Hl']; subst. inversion Hl' as [|? ? Hy Hl'']; subst.
    cbn [nv_loop packn negb Z.b2z]. change (0 * 4) with 0. change (1 * 4) with 4.
    replace (x <? 16) with true by lia. replace (y <? 16) with true by lia. cbv iota.
    rewrite Z.shiftl_0_r, Z.lor_0_l, (u8_small x) by lia.
    rewrite lor_disjoint by lia. rewrite u8_small by lia.
    rewrite IH by assumption. rewrite <- app_assoc. change (2 ^ 4) with 16.
    rewrite !zlen_cons. replace (size + 1 + 1 + zlen l) with (size + (zlen l + 1 + 1)) by lia. reflexivity.
Qed.

Lemma packn_get l : nibbles_ok l -> forall i x, nth_error l i = Some x ->
  exists b, nth_error (packn l) (i / 2) = Some b /\ Z.land (Z.shiftr b (Z.of_nat (i mod 2) * 4)) 15 = x.
Proof.
  assert (L : forall x, Z.land x 15 = x mod 16).
  { intros x. change 15 with (Z.ones 4). rewrite Z.land_ones by lia. reflexivity. }
  induction l as [|z|z y l IH] using pair_ind; intros Hl i x Hi.
  - destruct i; discriminate.
  - destruct i as [|[|i]]; cbn in Hi; try discriminate. injection Hi as <-. exists z. split; [reflexivity|].
    rewrite L. change (Z.of_nat (0 mod 2) * 4) with 0. rewrite Z.shiftr_0_r. apply Z.mod_small.
    inversion Hl; subst. lia.
  - inversion Hl as [|? ? Hx Hl']; subst. inversion Hl' as [|? ? Hy Hl'']; subst.
    destruct i as [|[|i]].
    + cbn in Hi. injection Hi as <-. eexists. split; [reflexivity|]. rewrite L. change (Z.of_nat (0 mod 2) * 4) with 0.
      rewrite Z.shiftr_0_r. symmetry. apply Z.mod_unique with y; lia.
    + cbn in Hi. injection Hi as <-. eexists. split; [reflexivity|]. rewrite L. change (Z.of_nat (1 mod 2) * 4) with 4.
      rewrite Z.shiftr_div_pow2 by lia. change (2 ^ 4) with 16.
      replace ((z + 16 * y) / 16) with y by (apply Z.div_unique with z; lia). apply Z.mod_small. lia.
    + cbn [nth_error] in Hi. destruct (IH Hl'' i x Hi) as (b & Hb & E). exists b.
      replace (S (S i)) with (i + 1 * 2)%nat by lia. rewrite Nat.div_add, Nat.mod_add by lia.
      rewrite Nat.add_1_r. split; [exact Hb|exact E].
Qed.

Lemma nv_ok l : nibbles_ok l -> exists n, nv_build l = Ok n /\ nv_size n = zlen l /\
  zlen (nv_nibbles n) = (zlen l + 1) / 2 /\
  forall i x, nth_error l i = Some x -> nv_get n (Z.of_nat i) = Ok x.
Proof.
  intros Hl. unfold nv_build. rewrite nv_loop_ok by assumption. eexists. split; [reflexivity|].
  cbn [nv_size nv_nibbles]. rewrite app_nil_l, Z.add_0_l. split; [reflexivity|]. split.
  - clear. induction l as [|x|x y l IH] using pair_ind; [reflexivity|reflexivity|].
    cbn [packn]. rewrite !zlen_cons, IH. replace (zlen l + 1 + 1 + 1) with (zlen l + 1 + 1 * 2) by lia.
    rewrite Z.div_add by lia. reflexivity.
  - intros i x Hi. unfold nv_get. cbn [nv_size nv_nibbles].
    assert (Hlt : (i < length l)%nat) by (apply nth_error_Some; congruence).
    replace (Z.of_nat i <? zlen l) with true by (unfold zlen; lia). cbv iota.
    destruct (packn_get l Hl i x Hi) as (b & Hb & E).
    assert (Er : rd (packn l) (Z.of_nat i / 2) = Ok b).
    { change 2 with (Z.of_nat 2). rewrite <- Nat2Z.inj_div. apply rd_nth, Hb. }
    rewrite Er. cbn [bind]. rewrite <- E. f_equal. f_equal. f_equal. f_equal.
    change 2 with (Z.of_nat 2). rewrite <- Nat2Z.inj_mod. reflexivity.
Qed.

(** ** int2nat, nat2int *)
Lemma int64_ok x : - 2 ^ 63 <= x < 2 ^ 63 -> int64 x = Ok x.
Proof.
  intros H. unfold int64. replace ((- 2 ^ 63 <=? x) && (x <? 2 ^ 63)) with true; [reflexivity|].
  symmetry. apply andb_true_intro. split; [apply Z.leb_le|apply Z.ltb_lt]; lia.
Qed.

Lemma int2nat_ok x : - 2 ^ 62 < x < 2 ^ 62 ->
  int2nat x = Ok (if x <? 0 then -2 * x - 1 else 2 * x).
Proof.
  intros H. unfold int2nat. destruct (Z.ltb_spec x 0).
  - rewrite int64_ok by lia. cbn [bind]. rewrite int64_ok by lia. cbn [bind]. rewrite u64_small by lia. reflexivity.
  - rewrite int64_ok by lia. cbn [bind]. rewrite u64_small by lia. reflexivity.
Qed.

Lemma nat2int_ok n : 0 <= n < 2 ^ 64 - 1 ->
  nat2int n = Ok (if n mod 2 =? 0 then n / 2 else - ((n + 1) / 2)).
Proof.
  intros H. unfold nat2int. pose proof (Z.div_mod n 2). pose proof (Z.mod_pos_bound n 2).
  destruct (Z.eqb_spec (n mod 2) 0); cbn [negb].
  - rewrite i64_small by lia. reflexivity.
  - rewrite u64_small by lia. pose proof (Z.div_mod (n + 1) 2). pose proof (Z.mod_pos_bound (n + 1) 2).
    rewrite i64_small by lia. rewrite int64_ok by lia. reflexivity.
Qed.

Lemma int_nat_int x : - 2 ^ 62 < x < 2 ^ 62 -> exists n, int2nat x = Ok n /\ is_u64 n /\ nat2int n = Ok x.
Proof.
  intros H. rewrite int2nat_ok by assumption. eexists. split; [reflexivity|].
  unfold is_u64. destruct (Z.ltb_spec x 0).
  - split; [lia|]. rewrite nat2int_ok by lia.
    replace ((-2 * x - 1) mod 2) with 1 by (apply Z.mod_unique with (-x - 1); lia).
    change (1 =? 0) with false. cbv iota. f_equal.
    replace ((-2 * x - 1 + 1) / 2) with (- x) by (apply Z.div_unique with 0; lia). lia.
  - split; [lia|]. rewrite nat2int_ok by lia.
    replace ((2 * x) mod 2) with 0 by (apply Z.mod_unique with x; lia).
    change (0 =? 0) with true. cbv iota. f_equal. symmetry. apply Z.div_unique with 0; lia.
Qed.

Lemma nat_int_nat n : 0 <= n < 2 ^ 63 - 1 -> exists x, nat2int n = Ok x /\ int2nat x = Ok n.
Proof.
  intros H. rewrite nat2int_ok by lia. eexists. split; [reflexivity|].
  pose proof (Z.div_mod n 2). pose proof (Z.mod_pos_bound n 2).
  destruct (Z.eqb_spec (n mod 2) 0).
  - rewrite int2nat_ok by lia. destruct (Z.ltb_spec (n / 2) 0); f_equal; lia.
  - pose proof (Z.div_mod (n + 1) 2). pose proof (Z.mod_pos_bound (n + 1) 2).
    assert ((n + 1) mod 2 = 0) by (symmetry; apply Z.mod_unique with (n / 2 + 1); lia).
    rewrite int2nat_ok by lia. destruct (Z.ltb_spec (- ((n + 1) / 2)) 0); f_equal; lia.
Qed.

(** outside those ranges: undefined, or the wrong value *)
Lemma int2nat_ub x : - 2 ^ 63 <= x < 2 ^ 63 -> ~ (- 2 ^ 62 < x < 2 ^ 62) -> int2nat x = Ub SignedOverflow.
Proof.
  intros H N. unfold int2nat, int64. destruct (Z.ltb_spec x 0).
  - replace (-2 * x <? 2 ^ 63) with false by lia. rewrite andb_false_r. reflexivity.
  - replace (2 * x <? 2 ^ 63) with false by lia. rewrite andb_false_r. reflexivity.
Qed.

(** ** buffer_line_iterator *)
Lemma without_cr_firstn p : exists q, without_cr p q /\
  forall n, length p = n ->
  (do cr <- (match n with O => Ok false | S n => do c <- rd p (Z.of_nat n); Ok (c =? CR) end);
   Ok (if (cr : bool) then firstn (n - 1) p else p)) = Ok q.
Proof.
  destruct (rev p) as [|c r] eqn:E.
  - apply (f_equal (@rev Z)) in E. rewrite rev_involutive in E. cbn in E. subst p. exists []. split.
    + right. split; [reflexivity|]. intros r. destruct r; discriminate.
    + intros n <-. reflexivity.
  - apply (f_equal (@rev Z)) in E. rewrite rev_involutive in E. cbn in E.
    assert (Hr : forall n, length p = n -> n = S (length (rev r)) /\ rd p (Z.of_nat (length (rev r))) = Ok c).
    { intros n <-. rewrite E, app_length. cbn [length]. split; [lia|].
      apply rd_nth. rewrite nth_error_app2 by lia. rewrite Nat.sub_diag. reflexivity. }
    destruct (Z.eq_dec c 13) as [->|Ne].
    + exists (rev r). split; [left; exact E|]. intros n Hn. destruct (Hr n Hn) as [-> E1].
      rewrite E1. cbn [bind]. change (13 =? CR) with true. cbv iota. rewrite E.
      replace (S (length (rev r)) - 1)%nat with (length (rev r) + 0)%nat by lia.
      rewrite firstn_app_2. cbn [firstn]. rewrite app_nil_r. reflexivity.
    + exists p. split.
      * right. split; [reflexivity|]. intros r' E'. rewrite E in E'. apply app_inj_tail in E'. destruct E'; contradiction.
      * intros n Hn. destruct (Hr n Hn) as [-> E1]. rewrite E1. cbn [bind]. unfold CR.
        replace (c =? 13) with false by lia. reflexivity.
Qed.

Lemma line_len_split l : l <> [] ->
  split_lines l = firstn (line_len l) l :: split_lines (skipn (S (line_len l)) l) /\ (line_len l <= length l)%nat.
Proof.
  induction l as [|c l IH]; intros N; [contradiction|]. cbn [split_lines line_len]. unfold LF.
  destruct (c =? 10) eqn:E; cbn [firstn skipn length].
  - split; [reflexivity|lia].
  - destruct l as [|d l].
    + cbn. auto.
    + destruct IH as [IH1 IH2]; [discriminate|]. rewrite IH1. split; [reflexivity|cbn [length] in *; lia].
Qed.

Lemma bl_incr_ok buf pos v : 0 <= pos < zlen buf -> exists q,
  let rest := skipn (Z.to_nat pos) buf in
  without_cr (firstn (line_len rest) rest) q /\
  bl_increment buf (mk_bl (Some pos) v) = Ok (mk_bl (Some (pos + Z.of_nat (line_len rest) + 1)) q).
Proof.
  intros Hp. unfold bl_increment. cbn [bl_pos bl_value].
  replace (zlen buf <=? pos) with false by lia. cbv zeta.
  set (rest := skipn (Z.to_nat pos) buf).
  destruct (without_cr_firstn (firstn (line_len rest) rest)) as (q & Hq & E). exists q. split; [exact Hq|].
  assert (Hl : length (firstn (line_len rest) rest) = line_len rest).
  { rewrite firstn_length. destruct (list_eq_dec Z.eq_dec rest []) as [->|N]; [reflexivity|].
    destruct (line_len_split rest N). lia. }
  specialize (E _ Hl).
  destruct (line_len rest) as [|n]; cbn [bind] in *.
  - injection E as <-. reflexivity.
  - destruct (rd (firstn (S n) rest) (Z.of_nat n)); cbn [bind] in *; [|discriminate].
    injection E as <-. reflexivity.
Qed.

Lemma bl_visit_ok buf : forall n fuel pos v, 0 <= pos -> (Z.to_nat (zlen buf - pos) <= n)%nat -> (n < fuel)%nat ->
  (exists qs, Forall2 without_cr (split_lines (skipn (Z.to_nat pos) buf)) qs /\
  bl_visit fuel buf (mk_bl (Some pos) v) = Ok (v :: qs)).
Proof.
  induction n as [n IHn] using (well_founded_induction lt_wf). intros fuel pos v Hp Hn Hf.
  destruct fuel as [|fuel]; [lia|].
  cbn [bl_visit]. unfold bl_at_end at 1. cbn [bl_pos bl_value].
  destruct (Z_lt_le_dec pos (zlen buf)) as [Hlt|Hge].
  - destruct (bl_incr_ok buf pos v) as (q & Hq & E); [lia|]. rewrite E. cbn [bind].
    set (rest := skipn (Z.to_nat pos) buf) in *.
    assert (Nr : rest <> []).
    { unfold rest. intros E0. apply (f_equal zlen) in E0. rewrite zlen_skipn in E0. change (zlen (@nil Z)) with 0 in E0. lia. }
    destruct (line_len_split rest Nr) as [Es Hll].
    destruct n as [|n]; [lia|].
    destruct (IHn n ltac:(lia) fuel (pos + Z.of_nat (line_len rest) + 1) q) as (qs & Hqs & Ev); [lia|lia|lia|].
    rewrite Ev. cbn [bind]. exists (q :: qs). split; [|reflexivity].
    rewrite Es. constructor; [exact Hq|].
    replace (skipn (S (line_len rest)) rest) with (skipn (Z.to_nat (pos + Z.of_nat (line_len rest) + 1)) buf); [exact Hqs|].
    symmetry. unfold rest. rewrite skipn_plus. f_equal. lia.
  - unfold bl_increment. cbn [bl_pos bl_value]. replace (zlen buf <=? pos) with true by lia. cbn [bind].
    exists []. split.
    + rewrite skipn_all2 by (unfold zlen in Hge; lia). constructor.
    + destruct fuel; reflexivity.
Qed.

Lemma bl_lines_ok buf : exists ls, bl_lines buf = Ok ls /\ Forall2 without_cr (split_lines buf) ls.
Proof.
  unfold bl_lines, bl_new. destruct buf as [|c buf'] eqn:Eb.
  - exists []. split; [reflexivity|constructor].
  - rewrite <- Eb. assert (Hz : 0 < zlen buf) by (rewrite Eb, zlen_cons; pose proof (zlen_nonneg buf'); lia).
    destruct (bl_incr_ok buf 0 []) as (q & Hq & E); [lia|]. rewrite E. cbn [bind].
    cbn [Z.to_nat skipn] in *.
    assert (Nr : buf <> []) by (rewrite Eb; discriminate).
    destruct (line_len_split buf Nr) as [Es Hll].
    destruct (bl_visit_ok buf (length buf) (S (S (length buf))) (0 + Z.of_nat (line_len buf) + 1) q) as (qs & Hqs & Ev);
      [lia|unfold zlen; lia|lia|].
    exists (q :: qs). split; [exact Ev|]. rewrite Es. constructor; [exact Hq|].
    replace (skipn (S (line_len buf)) buf) with (skipn (Z.to_nat (0 + Z.of_nat (line_len buf) + 1)) buf); [exact Hqs|].
    f_equal. lia.
Qed.

(** ** trim_newline_chars *)
Lemma trim_rev_ok s : exists tail, s = tail ++ trim_rev s /\ Forall newline_char tail /\
  forall c t, trim_rev s = c :: t -> ~ newline_char c.
Proof.
  induction s as [|c s (tail & E & Hf & Hn)].
  - exists []. split; [reflexivity|]. split; [constructor|]. discriminate.
  - cbn [trim_rev]. unfold CR, LF, newline_char in *. destruct (Z.eqb_spec c 13); destruct (Z.eqb_spec c 10); cbn [orb].
    + lia.
    + exists (c :: tail). split; [cbn; f_equal; exact E|]. split; [constructor; auto|exact Hn].
    + exists (c :: tail). split; [cbn; f_equal; exact E|]. split; [constructor; auto|exact Hn].
    + exists []. split; [reflexivity|]. split; [constructor|]. intros d t E'. injection E' as <- _. lia.
Qed.

Lemma trim_ok s : trimmed s (trim_newline_chars s).
Proof.
  unfold trim_newline_chars. destruct (trim_rev_ok (rev s)) as (tail & E & Hf & Hn).
  exists (rev tail). split; [|split].
  - rewrite <- rev_app_distr, <- E, rev_involutive. reflexivity.
  - apply Forall_rev, Hf.
  - intros t' c E'. apply (Hn c (rev t')). apply (f_equal (@rev Z)) in E'.
    rewrite rev_involutive, rev_app_distr in E'. exact E'.
Qed.

(** ** fast_getline *)
Lemma cstr_id l : no_nul l -> cstr l = l.
Proof.
  unfold no_nul. induction l as [|c l IH]; intros H; [reflexivity|]. cbn [cstr].
  destruct (Z.eqb_spec c 0) as [->|]; [exfalso; apply H; left; reflexivity|].
  rewrite IH; [reflexivity|]. intros Hi. apply H. right. exact Hi.
Qed.

Lemma next_after l : l = next_line l ++ after_line l.
Proof.
  unfold after_line. assert (E : next_line l = firstn (length (next_line l)) l).
  { induction l as [|c l IH]; [reflexivity|]. cbn [next_line]. destruct (c =? 10); [reflexivity|].
    cbn [length firstn]. f_equal. exact IH. }
  rewrite E at 1. rewrite firstn_skipn. reflexivity.
Qed.

Lemma fgets_chars_ok input : forall n, exists a b, fgets_chars n input = (a, b) /\ input = a ++ b /\
  (0 < n -> input <> [] -> a <> []) /\
  (In 10 input -> (a = next_line input /\ b = after_line input /\ exists q, a = q ++ [10]) \/
     (~ In 10 a /\ In 10 b /\ next_line input = a ++ next_line b /\ after_line input = after_line b)) /\
  (~ In 10 input -> zlen input <= n -> a = input).
Proof.
  induction input as [|c input IH]; intros n.
  - exists [], []. cbn. repeat split; try congruence; try tauto.
  - cbn [fgets_chars next_line]. unfold LF. destruct (Z.leb_spec n 0) as [Hn|Hn].
    + exists [], (c :: input). split; [reflexivity|]. split; [reflexivity|]. split; [lia|].
      split; [intros Hi; right; repeat split; auto|].
      intros _ Hz. rewrite zlen_cons in Hz. pose proof (zlen_nonneg input). lia.
    + destruct (Z.eqb_spec c 10) as [->|Nc].
      * exists [10], input. repeat split; try congruence.
        -- intros _. left. repeat split. exists []. reflexivity.
        -- intros Hi _. exfalso. apply Hi. left. reflexivity.
      * destruct (IH (n - 1)) as (a & b & E & Eab & Hne & Hin & Hnin). rewrite E.
        exists (c :: a), b. split; [reflexivity|]. split; [cbn; f_equal; exact Eab|]. split; [congruence|]. split.
        -- intros Hi. assert (Hi' : In 10 input) by (destruct Hi as [?|?]; [congruence|assumption]).
           unfold after_line. cbn [next_line]. replace (c =? 10) with false by lia. cbn [length skipn].
           destruct (Hin Hi') as [(E1 & E2 & q & Eq)|(N1 & I2 & E3 & E4)].
           ++ left. split; [f_equal; exact E1|]. split; [exact E2|]. exists (c :: q). cbn. f_equal. exact Eq.
           ++ right. split; [intros [?|?]; [congruence|contradiction]|]. split; [exact I2|].
              split; [cbn; f_equal; exact E3|exact E4].
        -- intros Hi Hz. f_equal. apply Hnin; [intros ?; apply Hi; right; assumption|rewrite zlen_cons in Hz; lia].
Qed.

Lemma last_char_app l c : last_char (l ++ [c]) = Ok c.
Proof.
  unfold last_char. rewrite zlen_app. change (zlen [c]) with 1.
  replace (zlen l + 1 - 1) with (Z.of_nat (length l)) by (unfold zlen; lia).
  apply rd_nth. rewrite nth_error_app2 by lia. rewrite Nat.sub_diag. reflexivity.
Qed.

Lemma snoc {A} (l : list A) : l <> [] -> exists q c, l = q ++ [c].
Proof. intros H. destruct (exists_last H) as (q & c & E). eauto. Qed.

Lemma getline_ok : forall fuel line buffer input, (length input < fuel)%nat -> no_nul input -> In 10 input ->
  getline_loop fuel line buffer input = Ok (Some (line ++ next_line input), after_line input).
Proof.
  induction fuel as [|fuel IH]; intros line buffer input Hf H0 Hi; [lia|].
  cbn [getline_loop]. unfold fgets. destruct input as [|c0 input0] eqn:Ei; [destruct Hi|].
  rewrite <- Ei in *.
  destruct (fgets_chars_ok input (max_buffer - 1)) as (a & b & E & Eab & Hne & Hin & _).
  rewrite E. cbn [negb andb orb].
  assert (Na : a <> []) by (apply Hne; [reflexivity|rewrite Ei; discriminate]).
  assert (H0a : no_nul a).
  { intros ?. apply H0. rewrite Eab. apply in_or_app. left. assumption. }
  rewrite cstr_id by exact H0a.
  destruct (Hin Hi) as [(E1 & E2 & q & Eq)|(N1 & I2 & E3 & E4)].
  - rewrite Eq at 1. rewrite app_assoc, last_char_app. cbn [bind]. unfold LF. rewrite Z.eqb_refl.
    subst a b. reflexivity.
  - destruct (snoc a Na) as (q & c & Eq). rewrite Eq at 1. rewrite app_assoc, last_char_app. cbn [bind].
    assert (c <> 10). { intros ->. apply N1. rewrite Eq. apply in_or_app. right. left. reflexivity. }
    unfold LF. replace (c =? 10) with false by lia. rewrite IH.
    + rewrite E3, E4, app_assoc. reflexivity.
    + assert (length input = length a + length b)%nat by (rewrite Eab, app_length; reflexivity).
      destruct a; [contradiction|]. cbn [length] in *. lia.
    + intros ?. apply H0. rewrite Eab. apply in_or_app. right. assumption.
    + exact I2.
Qed.

Lemma fast_getline_ok input trim : no_nul input -> In 10 input -> exists line,
  fast_getline input trim = Ok (Some line, after_line input) /\
  if trim then trimmed (next_line input) line else line = next_line input.
Proof.
  intros H0 Hi. unfold fast_getline. rewrite getline_ok by (try assumption; lia). cbn [bind option_map app].
  eexists. split; [reflexivity|]. destruct trim; [apply trim_ok|reflexivity].
Qed.

Lemma fast_getline_eof trim : fast_getline [] trim = Ok (None, []).
Proof. reflexivity. Qed.

(** the last line without a newline comes back doubled *)
Lemma fast_getline_tail input : no_nul input -> ~ In 10 input -> input <> [] -> zlen input < 65536 ->
  fast_getline input false = Ok (Some (input ++ input), []).
Proof.
  intros H0 Hi Hn Hz. unfold fast_getline. cbn [getline_loop]. unfold fgets at 1.
  destruct input as [|c0 input0] eqn:Ei; [contradiction|]. rewrite <- Ei in *.
  destruct (fgets_chars_ok input (max_buffer - 1)) as (a & b & E & Eab & _ & _ & Ha).
  rewrite E. specialize (Ha Hi). rewrite Ha in * by (unfold max_buffer; lia). 
  assert (b = []). { apply (f_equal (@length Z)) in Eab. rewrite app_length in Eab. destruct b; [reflexivity|cbn in Eab; lia]. }
  subst b. cbn [negb andb orb app]. rewrite cstr_id by assumption.
  destruct (snoc input Hn) as (q & c & Eq). rewrite Eq at 1. rewrite last_char_app. cbn [bind].
  assert (c <> 10). { intros ->. apply Hi. rewrite Eq. apply in_or_app. right. left. reflexivity. }
  unfold LF. replace (c =? 10) with false by lia. cbn [fgets negb andb].
  destruct (length input) as [|n] eqn:El; [destruct input; [contradiction|discriminate]|].
  cbn [getline_loop fgets negb andb orb].
  replace (zlen input =? 0) with false by (unfold zlen; lia).
  rewrite cstr_id by assumption. rewrite Eq at 2. rewrite app_assoc, last_char_app. reflexivity.
Qed.

Lemma getline_false :
  ~ (forall input, no_nul input -> input <> [] ->
     fast_getline input false = Ok (Some (next_line input), after_line input)).
Proof.
  intros H. specialize (H [97]). assert (X : no_nul [97]) by (intros [E|[]]; discriminate).
  specialize (H X ltac:(discriminate)). vm_compute in H. discriminate.
Qed.

(** ** lines() *)
Lemma terminated_in l : terminated l -> l <> [] -> In 10 l.
Proof. intros [->|(q & ->)] N; [contradiction|]. apply in_or_app. right. left. reflexivity. Qed.

Lemma split_next l : In 10 l -> exists p, next_line l = p ++ [10] /\ split_lines l = p :: split_lines (after_line l).
Proof.
  induction l as [|c l IH]; intros H; [destruct H|]. unfold after_line. cbn [next_line split_lines].
  destruct (Z.eqb_spec c 10) as [->|N].
  - exists []. split; reflexivity.
  - destruct H as [?|H]; [congruence|]. destruct (IH H) as (p & E1 & E2). exists (c :: p).
    split; [rewrite E1; reflexivity|]. rewrite E2. reflexivity.
Qed.

Lemma terminated_after l : terminated l -> terminated (after_line l).
Proof.
  intros [->|(q & E)]; [left; reflexivity|].
  destruct (list_eq_dec Z.eq_dec (after_line l) []) as [->|N]; [left; reflexivity|right].
  destruct (snoc _ N) as (r & c & Er). exists r. rewrite Er. f_equal. f_equal.
  rewrite (next_after l), Er, app_assoc in E. apply app_inj_tail in E. apply E.
Qed.

Lemma li_visit_ok trim : forall n fuel file line, (length file <= n)%nat -> (n < fuel)%nat -> no_nul file -> terminated file ->
  exists rs, li_visit fuel (mk_li line (Some file) trim) = Ok (line :: rs) /\
    Forall2 (line_result trim) (split_lines file) rs.
Proof.
  induction n as [n IHn] using (well_founded_induction lt_wf). intros fuel file line Hn Hf H0 Ht.
  destruct fuel as [|fuel]; [lia|]. cbn [li_visit li_file li_line]. unfold li_increment. cbn [li_file li_trim].
  destruct file as [|c file'] eqn:Ef.
  - rewrite fast_getline_eof. cbn [bind]. destruct fuel; cbn; eexists; (split; [reflexivity|constructor]).
  - rewrite <- Ef in *. assert (Nf : file <> []) by (rewrite Ef; discriminate).
    pose proof (terminated_in _ Ht Nf) as Hi.
    destruct (fast_getline_ok file trim H0 Hi) as (l & E & Hl). rewrite E. cbn [bind].
    destruct (split_next file Hi) as (p & E1 & E2).
    assert (Hlen : (length (after_line file) < length file)%nat).
    { rewrite (next_after file) at 2. rewrite E1, !app_length. cbn [length]. lia. }
    destruct (IHn (length (after_line file)) ltac:(lia) fuel (after_line file) l) as (rs & Ev & Hrs); [lia|lia| | |].
    + intros ?. apply H0. rewrite (next_after file). apply in_or_app. right. assumption.
    + apply terminated_after, Ht.
    + rewrite Ev. cbn [bind]. exists (l :: rs). split; [reflexivity|]. rewrite E2. constructor; [|exact Hrs].
      unfold line_result. rewrite <- E1. exact Hl.
Qed.

Lemma lines_visited_ok file trim : no_nul file -> terminated file -> exists rs,
  lines_visited file trim = Ok ([] :: rs) /\ Forall2 (line_result trim) (split_lines file) rs.
Proof. intros H0 Ht. unfold lines_visited, li_new. apply li_visit_ok with (n := length file); auto. Qed.

Lemma lines_false :
  ~ (forall file, no_nul file -> terminated file ->
     exists rs, lines_visited file false = Ok rs /\ Forall2 (line_result false) (split_lines file) rs).
Proof.
  intros H. destruct (H []) as (rs & E & F); [intros []|left; reflexivity|].
  vm_compute in E. injection E as <-. inversion F.
Qed.

Lemma nat2int_wrap : nat2int (2 ^ 64 - 1) = Ok 0 /\ int2nat 0 = Ok 0.
Proof. split; reflexivity. Qed.

Lemma vbyte_space val : is_u64 val -> vbyte_size val = Ok (vbytes_spec val).
Proof. intros H. apply vbyte_size_ok, H. Qed.
