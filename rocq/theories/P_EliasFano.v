(** Proofs about elias_fano. *)
From Coq Require Import Sorted.
From Verif Require Import Base Spec Lib M_Broadword P_Broadword P_Broadword2 P_BvLib P_Builder P_BitVector P_BvRank
  M_BitVector S_BitVector P_BvEnum P_RsBuild M_Darray P_Darray M_EliasFano P_BvGen.

(** ** Words *)

Lemma land_mask x l : 0 <= x -> 0 <= l < 64 ->
  Z.land x (u64 (u64 (Z.shiftl 1 l) - 1)) = x mod 2 ^ l.
Proof.
  intros Hx Hl. apply Z.bits_inj'. intros i Hi. rewrite Z.land_spec, testbit_mask by lia.
  destruct (Z.ltb_spec i l).
  - rewrite Z.mod_pow2_bits_low, andb_true_r by lia. auto.
  - rewrite Z.mod_pow2_bits_high, andb_false_r by lia. auto.
Qed.

Lemma u64_mask_pow l : 0 <= l < 64 -> u64 (u64 (Z.shiftl 1 l) - 1) = 2 ^ l - 1.
Proof.
  intros H. assert (1 <= 2 ^ l <= 2 ^ 63).
  { split; [change 1 with (2 ^ 0); apply Z.pow_le_mono_r; lia|apply Z.pow_le_mono_r; lia]. }
  rewrite Z.shiftl_1_l, (u64_small (2 ^ l)) by lia. apply u64_small. lia.
Qed.

Lemma split_value v l : 0 <= v < 2 ^ 64 -> 0 <= l < 64 ->
  Z.lor (u64 (Z.shiftl (Z.shiftr v l) l)) (v mod 2 ^ l) = v.
Proof.
  intros Hv Hl. apply Z.bits_inj'. intros i Hi. rewrite Z.lor_spec.
  destruct (Z.lt_ge_cases i 64).
  - rewrite testbit_shl64 by lia. destruct (Z.ltb_spec i l).
    + rewrite Z.testbit_neg_r, Z.mod_pow2_bits_low by lia. auto.
    + rewrite Z.shiftr_spec, Z.mod_pow2_bits_high by lia. rewrite orb_false_r. f_equal. lia.
  - rewrite testbit_u64, Z.mod_pow2_bits_high by lia. replace (i <? 64) with false by lia.
    rewrite (testbit_high64 v) by lia. auto.
Qed.

Lemma shiftl_value v l : 0 <= v < 2 ^ 64 -> 0 <= l ->
  u64 (Z.shiftl (Z.shiftr v l) l) = v - v mod 2 ^ l.
Proof.
  intros Hv Hl. rewrite Z.shiftl_mul_pow2, Z.shiftr_div_pow2 by lia.
  assert (0 < 2 ^ l) by (apply Z.pow_pos_nonneg; lia).
  pose proof (Z.div_mod v (2 ^ l) ltac:(lia)). pose proof (Z.mod_pos_bound v (2 ^ l) ltac:(lia)).
  pose proof (Z.mod_le v (2 ^ l) ltac:(lia) ltac:(lia)). rewrite u64_small; lia.
Qed.

Lemma value_bits_mod n v : value (bits_of n v) = v mod 2 ^ Z.of_nat n.
Proof.
  apply Z.bits_inj'. intros i Hi. rewrite testbit_value_z, zbit_bits_of.
  destruct (Z.ltb_spec i (Z.of_nat n)).
  - rewrite Z.mod_pow2_bits_low by lia. auto.
  - rewrite Z.mod_pow2_bits_high by lia. auto.
Qed.

Lemma bits_of_ext n v w : (forall i, 0 <= i < Z.of_nat n -> Z.testbit v i = Z.testbit w i) ->
  bits_of n v = bits_of n w.
Proof.
  intros H. apply nth_ext_bool; rewrite !bits_of_length; auto. intros i Hi.
  rewrite !nth_bits_of by auto. apply H. lia.
Qed.

Lemma bits_of_mod n v : bits_of n (v mod 2 ^ Z.of_nat n) = bits_of n v.
Proof. apply bits_of_ext. intros. apply Z.mod_pow2_bits_low. lia. Qed.

Lemma bits_of_modz l v : 0 <= l -> bits_of (Z.to_nat l) (v mod 2 ^ l) = bits_of (Z.to_nat l) v.
Proof. intros. rewrite <- (bits_of_mod (Z.to_nat l) v), Z2Nat.id by auto. auto. Qed.

(** equal-sized pieces *)
Definition pieces (l : Z) (vs : list Z) : list bool := flat_map (bits_of (Z.to_nat l)) vs.

Lemma zlen_pieces l vs : 0 <= l -> zlen (pieces l vs) = l * zlen vs.
Proof.
  intros H. induction vs as [|v vs IH]; [rewrite Z.mul_0_r; reflexivity|]. unfold pieces in *. cbn [flat_map].
  rewrite zlen_app, zlen_bits_of, zlen_cons, IH. rewrite Z2Nat.id by auto. ring.
Qed.

Lemma pieces_app l vs ws : pieces l (vs ++ ws) = pieces l vs ++ pieces l ws.
Proof. unfold pieces. apply flat_map_app. Qed.

Lemma zbit_pieces l vs i j : 0 <= i < zlen vs -> 0 <= j < l ->
  zbit (pieces l vs) (i * l + j) = Z.testbit (W vs i) j.
Proof.
  revert i; induction vs as [|v vs IH]; intros i Hi Hj; [change (zlen (@nil Z)) with 0 in Hi; lia|].
  rewrite zlen_cons in Hi. unfold pieces in *. cbn [flat_map].
  rewrite zbit_app, zlen_bits_of, W_cons. destruct (Z.eqb_spec i 0) as [->|].
  - replace (0 * l + j <? Z.of_nat (Z.to_nat l)) with true by lia. rewrite zbit_bits_of.
    replace (0 * l + j <? Z.of_nat (Z.to_nat l)) with true by lia. reflexivity.
  - assert (l <= i * l) by nia. replace (i * l + j <? Z.of_nat (Z.to_nat l)) with false by lia.
    rewrite <- (IH (i - 1)) by lia. f_equal. lia.
Qed.

Lemma window_pieces l vs i : 0 <= l -> 0 <= i < zlen vs ->
  window (pieces l vs) (Z.to_nat (i * l)) (Z.to_nat l) = bits_of (Z.to_nat l) (W vs i).
Proof.
  intros Hl Hi. apply zbit_ext.
  - unfold window. rewrite zlen_firstn, zlen_skipn, zlen_pieces, zlen_bits_of by auto. nia.
  - intros p Hp. assert (p < l).
    { unfold window in Hp. rewrite zlen_firstn in Hp. lia. }
    rewrite zbit_window, zbit_bits_of by lia. f_equal. rewrite Z2Nat.id by nia.
    apply zbit_pieces; lia.
Qed.

(** ** Positions of the ones *)

Lemma positions_In l i p : In p (positions l i) <-> i <= p /\ zbit l (p - i) = true.
Proof.
  revert i; induction l as [|b l IH]; intros i; simpl.
  - rewrite zbit_nil. intuition discriminate.
  - assert (Z0 : forall q, zbit (b :: l) q = if q =? 0 then b else zbit l (q - 1)).
    { intros q. change (b :: l) with ([b] ++ l). rewrite zbit_app, zbit_single.
      change (zlen [b]) with 1. destruct (Z.eqb_spec q 0) as [->|]; [reflexivity|].
      destruct (Z.ltb_spec q 1); auto. rewrite zbit_out by lia. reflexivity. }
    rewrite Z0. destruct b; simpl; rewrite IH.
    + destruct (Z.eqb_spec (p - i) 0).
      * split; [intros; split; auto; lia|]. intros; left; lia.
      * replace (p - i - 1) with (p - (i + 1)) by lia.
        split; [intros [H|[H1 H2]]; [lia|]; split; auto; lia|]. intros [H1 H2]. right. split; auto; lia.
    + destruct (Z.eqb_spec (p - i) 0).
      * split; [intros [H1 H2]; lia|]. intros [_ H]; discriminate.
      * replace (p - i - 1) with (p - (i + 1)) by lia.
        split; intros [H1 H2]; split; auto; lia.
Qed.

Lemma positions_sorted l i : StronglySorted Z.lt (positions l i).
Proof.
  revert i; induction l as [|b l IH]; intros i; simpl; [constructor|].
  destruct b; auto. constructor; auto.
  eapply Forall_impl; [|apply positions_range]. cbv beta. intros; lia.
Qed.

Lemma sorted_unique (l m : list Z) : StronglySorted Z.lt l -> StronglySorted Z.lt m ->
  (forall x, In x l <-> In x m) -> l = m.
Proof.
  revert m; induction l as [|a l IH]; intros [|b m] Hl Hm E; auto.
  - exfalso. apply (proj2 (E b)). left; auto.
  - exfalso. apply (proj1 (E a)). left; auto.
  - inversion Hl; inversion Hm; subst. rewrite Forall_forall in *.
    assert (Eab : a = b).
    { destruct (proj1 (E a) (or_introl eq_refl)) as [|H]; auto.
      destruct (proj2 (E b) (or_introl eq_refl)) as [|G]; auto.
      specialize (H2 _ G). specialize (H6 _ H). lia. }
    subst b. f_equal. apply IH; auto. intros x. split; intros Hx.
    + destruct (proj1 (E x) (or_intror Hx)) as [->|]; auto. specialize (H2 _ Hx). lia.
    + destruct (proj2 (E x) (or_intror Hx)) as [->|]; auto. specialize (H6 _ Hx). lia.
Qed.

Lemma sorted_snoc l x : StronglySorted Z.lt l -> Forall (fun y => y < x) l -> StronglySorted Z.lt (l ++ [x]).
Proof.
  induction 1; intros F; simpl; [constructor; constructor|]. inversion F; subst.
  constructor; auto. apply Forall_app. split; auto.
Qed.

Lemma positions_set l p : 0 <= p < zlen l -> Forall (fun q => q < p) (positions l 0) ->
  positions (firstn (Z.to_nat p) l ++ [true] ++ skipn (Z.to_nat p + 1) l) 0 = positions l 0 ++ [p].
Proof.
  intros Hp F. apply sorted_unique; [apply positions_sorted|apply sorted_snoc; auto using positions_sorted|].
  intros x. rewrite in_app_iff, !positions_In, Z.sub_0_r. change (Z.to_nat p + 1)%nat with (Z.to_nat p + Z.to_nat 1)%nat.
  destruct (Z.lt_ge_cases x 0).
  { split; [intros [H1 H2]; lia|]. intros [[H1 H2]|[H1|[]]]; lia. }
  rewrite (zbit_splice l p 1 [true]) by (reflexivity || lia).
  destruct (Z.eq_dec x p) as [->|].
  - replace ((p <=? p) && (p <? p + 1)) with true by lia. rewrite Z.sub_diag. change (zbit [true] 0) with true.
    split; [intros; right; left; auto|]. intros; split; auto; lia.
  - replace ((p <=? x) && (x <? p + 1)) with false by lia.
    split; [intros; left; auto|]. intros [H1|[H1|[]]]; auto; lia.
Qed.

Lemma sel_of_pos l i : 0 <= i < zlen (positions l 0) ->
  0 <= W (positions l 0) i /\ is_select true l (Z.to_nat i) (Z.to_nat (W (positions l 0) i)).
Proof.
  intros H. destruct (positions_select l 0 i H) as (q & -> & S). split; [lia|].
  rewrite Z.add_0_l, Nat2Z.id. auto.
Qed.

(** a one of the sequence is one of the listed positions *)
Lemma pos_of_zbit l p : zbit l p = true -> exists i, 0 <= i < zlen (positions l 0) /\ W (positions l 0) i = p.
Proof.
  intros H. assert (I : In p (positions l 0)).
  { apply positions_In. pose proof (zbit_pos l p true H eq_refl). rewrite Z.sub_0_r. split; auto; lia. }
  destruct (In_nth _ _ 0 I) as (k & Hk & E). exists (Z.of_nat k). unfold zlen, W.
  split; [lia|]. replace (Z.of_nat k <? 0) with false by lia. rewrite Nat2Z.id. auto.
Qed.

Lemma zbit_of_pos l i : 0 <= i < zlen (positions l 0) -> zbit l (W (positions l 0) i) = true.
Proof.
  intros H. destruct (sel_of_pos l i H) as [H1 [H2 _]].
  unfold zbit. replace (W (positions l 0) i <? 0) with false by lia. apply nth_error_nth with (d := false) in H2. auto.
Qed.

(** ** The representation *)

Fixpoint highs (l : Z) (vs : list Z) (i : Z) : list Z :=
  match vs with
  | [] => []
  | v :: vs => Z.shiftr v l + i :: highs l vs (i + 1)
  end.

Lemma zlen_highs l vs i : zlen (highs l vs i) = zlen vs.
Proof. revert i; induction vs as [|v vs IH]; intros i; [reflexivity|]. simpl. rewrite !zlen_cons, IH. auto. Qed.
Lemma highs_app l vs ws i : highs l (vs ++ ws) i = highs l vs i ++ highs l ws (i + zlen vs).
Proof.
  revert i; induction vs as [|v vs IH]; intros i; simpl.
  - f_equal. change (zlen (@nil Z)) with 0. lia.
  - rewrite IH, zlen_cons. do 3 f_equal. lia.
Qed.
Lemma W_highs l vs i k : 0 <= k < zlen vs -> W (highs l vs i) k = Z.shiftr (W vs k) l + i + k.
Proof.
  revert i k; induction vs as [|v vs IH]; intros i k Hk; [change (zlen (@nil Z)) with 0 in Hk; lia|].
  rewrite zlen_cons in Hk. simpl. rewrite !W_cons. destruct (Z.eqb_spec k 0) as [->|]; [lia|].
  rewrite IH by lia. lia.
Qed.

Definition mono (vs : list Z) : Prop := forall i j, 0 <= i <= j -> j < zlen vs -> W vs i <= W vs j.

Definition rep (vs : list Z) (n m l : Z) (H : list bool) : Prop :=
  0 <= l < 64 /\ 0 <= n < 2 ^ 64 /\ (forall i, 0 <= i < zlen vs -> 0 <= W vs i <= n) /\ mono vs /\
  zlen vs <= m /\
  zlen H = m + 1 + Z.shiftr n l + 1 /\ zlen H < 2 ^ 63 /\ positions H 0 = highs l vs 0.

Definition ebinv (b : ef_builder) (vs : list Z) (n m l : Z) (H : list bool) : Prop :=
  rep vs n m l H /\ eb_n b = n /\ eb_m b = m /\ eb_pos b = zlen vs /\ eb_l b = l /\
  eb_last b = (if zlen vs =? 0 then 0 else W vs (zlen vs - 1)) /\
  binv (eb_high b) H /\ binv (eb_low b) (pieces l vs).

(** the number of low bits *)
Definition low_len (n m : Z) : Z := if (m =? 0) || (n / m =? 0) then 0 else Z.log2 (n / m).

(** the high bits must fit in a bit vector; [2 ^ 63] because positions are stored as int64_t *)
Definition ef_fits (n m : Z) : Prop :=
  0 <= n < 2 ^ 64 /\ 0 <= m /\ m + n / 2 ^ low_len n m + 2 < 2 ^ 63.

Lemma low_len_range n m : 0 <= n < 2 ^ 64 -> 0 <= m -> 0 <= low_len n m < 64.
Proof.
  intros Hn Hm. unfold low_len. destruct (Z.eqb_spec m 0); cbn [orb]; [lia|].
  destruct (Z.eqb_spec (n / m) 0) as [|D]; [lia|].
  assert (0 <= n / m) by (apply Z.div_pos; lia).
  assert (n / m <= n) by (apply Z.div_le_upper_bound; nia).
  split; [apply Z.log2_nonneg|]. apply Z.log2_lt_pow2; lia.
Qed.

Lemma positions_none n : positions (repeat false n) 0 = [].
Proof. apply positions_false. Qed.

Lemma ef_builder_new_ok gr n m : ef_fits n m -> exists b H,
  ef_builder_new gr n m = Ok b /\ ebinv b [] n m (low_len n m) H.
Proof.
  intros (Hn & Hm & Hf). pose proof (low_len_range n m Hn Hm) as Hl.
  set (l := low_len n m) in *. unfold ef_builder_new.
  assert (El : (if negb (m =? 0) && negb (n / m =? 0) then do r <- msb (n / m); Ok (u8 r) else Ok 0) = Ok l).
  { unfold l, low_len in *. destruct (Z.eqb_spec m 0); cbn [orb andb negb]; auto.
    destruct (Z.eqb_spec (n / m) 0) as [|D]; cbn [orb andb negb] in *; auto.
    assert (0 <= n / m) by (apply Z.div_pos; lia).
    assert (n / m <= n) by (apply Z.div_le_upper_bound; nia).
    rewrite msb_correct by (unfold is_u64; lia). cbn [bind]. rewrite u8_small by lia. auto. }
  rewrite El. cbn [bind]. rewrite shr_ok by lia. cbn [bind].
  assert (Sh : 0 <= Z.shiftr n l /\ Z.shiftr n l = n / 2 ^ l).
  { rewrite Z.shiftr_div_pow2 by lia. split; [|auto]. apply Z.div_pos; [lia|]. apply Z.pow_pos_nonneg; lia. }
  rewrite u64_small by lia.
  destruct (new_builder_ok (m + 1 + Z.shiftr n l + 1) false ltac:(lia)) as (bh & -> & Bh). cbn [bind].
  destruct (new_builder_ok 0 false ltac:(lia)) as (bl & -> & Bl). cbn [bind].
  rewrite assert_true by lia. eexists. exists (repeat false (Z.to_nat (m + 1 + Z.shiftr n l + 1))).
  split; [reflexivity|]. split; [|split; [|split; [|split; [|split; [|split]]]]]; try reflexivity; auto.
  - split; [auto|]. split; [auto|]. change (zlen (@nil Z)) with 0. split; [intros; lia|].
    split; [intros i j; change (zlen (@nil Z)) with 0; lia|]. split; [lia|].
    rewrite zlen_repeat. split; [lia|]. split; [lia|]. apply positions_none.
  - split; [exact Bh|]. cbn [eb_low]. apply reserve_ok; auto.
Qed.

Lemma sorted_pos_lt l i j : 0 <= i < j -> j < zlen (positions l 0) -> W (positions l 0) i < W (positions l 0) j.
Proof.
  intros H1 H2. destruct (positions_select l 0 i ltac:(lia)) as (p & -> & Hp).
  destruct (positions_select l 0 j ltac:(lia)) as (q & -> & Hq).
  pose proof (is_select_lt _ _ _ _ _ _ Hp Hq ltac:(lia)). lia.
Qed.

Lemma shiftr_mono x y l : 0 <= l -> x <= y -> Z.shiftr x l <= Z.shiftr y l.
Proof. intros. rewrite !Z.shiftr_div_pow2 by lia. apply Z.div_le_mono; auto. apply Z.pow_pos_nonneg; lia. Qed.

Lemma ef_push_ok gr b vs n m l H v : ebinv b vs n m l H -> zlen vs < m ->
  0 <= v <= n -> (forall i, 0 <= i < zlen vs -> W vs i <= v) ->
  exists b' H', ef_push gr b v = Ok b' /\ ebinv b' (vs ++ [v]) n m l H'.
Proof.
  intros ((Hl & Hn & Hv & Hm & Hk & LH & BH & PH) & E1 & E2 & E3 & E4 & E5 & B1 & B2) Hroom Hvn Hmax.
  unfold ef_push. pose proof (zlen_nonneg vs) as N.
  rewrite assert_true.
  2:{ rewrite E5, E1. destruct (Z.eqb_spec (zlen vs) 0); [lia|]. specialize (Hmax (zlen vs - 1) ltac:(lia)). lia. }
  rewrite E4, shl_ok by lia. cbn [bind]. rewrite land_mask by lia.
  assert (LB : exists low, (if l =? 0 then Ok (eb_low b) else append_bits gr (eb_low b) (v mod 2 ^ l) l) = Ok low /\
                 binv low (pieces l (vs ++ [v]))).
  { rewrite pieces_app. unfold pieces at 2. cbn [flat_map]. rewrite app_nil_r.
    destruct (Z.eqb_spec l 0) as [->|].
    - exists (eb_low b). split; auto. change (bits_of (Z.to_nat 0) v) with (@nil bool). rewrite app_nil_r. auto.
    - destruct (append_bits_ok gr (eb_low b) _ (v mod 2 ^ l) l B2 ltac:(lia)) as (low & E & B).
      { apply Z.mod_pos_bound. apply Z.pow_pos_nonneg; lia. }
      exists low. split; auto. rewrite bits_of_modz in B by lia. auto. }
  destruct LB as (low & -> & Bl). cbn [bind]. rewrite shr_ok by lia. cbn [bind]. rewrite E3.
  set (p := Z.shiftr v l + zlen vs).
  assert (S0 : 0 <= Z.shiftr v l) by (apply Z.shiftr_nonneg; lia).
  assert (Sn : Z.shiftr v l <= Z.shiftr n l) by (apply shiftr_mono; lia).
  assert (Hp : 0 <= p < zlen H) by (unfold p; lia).
  destruct (bset_ok (eb_high b) H p true B1 Hp) as (high & -> & Bh). cbn [bind].
  rewrite assert_true by lia. eexists. exists (firstn (Z.to_nat p) H ++ [true] ++ skipn (Z.to_nat p + 1) H).
  split; [reflexivity|].
  assert (Lv : zlen (vs ++ [v]) = zlen vs + 1) by (rewrite zlen_app; reflexivity).
  split; [|split; [|split; [|split; [|split; [|split; [|split]]]]]]; try reflexivity; auto; cbn [eb_pos eb_last].
  - split; [auto|]. split; [auto|]. rewrite Lv.
    split; [|split; [|split; [|split; [|split]]]]; try lia.
    + intros i Hi. rewrite W_app. destruct (Z.ltb_spec i (zlen vs)); [apply Hv; lia|].
      replace (i - zlen vs) with 0 by lia. change (W [v] 0) with v. lia.
    + intros i j Hij Hj. rewrite Lv in Hj. rewrite !W_app.
      destruct (Z.ltb_spec j (zlen vs)).
      * replace (i <? zlen vs) with true by lia. apply Hm; lia.
      * replace (j - zlen vs) with 0 by lia. change (W [v] 0) with v.
        destruct (Z.ltb_spec i (zlen vs)); [apply Hmax; lia|].
        replace (i - zlen vs) with 0 by lia. change (W [v] 0) with v. lia.
    + change (Z.to_nat p + 1)%nat with (Z.to_nat p + Z.to_nat 1)%nat.
      rewrite (zlen_splice H p 1 [true]) by (reflexivity || lia). auto.
    + change (Z.to_nat p + 1)%nat with (Z.to_nat p + Z.to_nat 1)%nat.
      rewrite (zlen_splice H p 1 [true]) by (reflexivity || lia). auto.
    + rewrite positions_set; auto.
      * rewrite PH, highs_app. cbn [highs]. rewrite Z.add_0_l. reflexivity.
      * rewrite PH. apply Forall_forall. intros x Hx. destruct (In_nth _ _ 0 Hx) as (k & Hkk & E).
        assert (Hkz : 0 <= Z.of_nat k < zlen vs) by (rewrite <- (zlen_highs l vs 0); unfold zlen; lia).
        assert (E' : W (highs l vs 0) (Z.of_nat k) = x).
        { unfold W. replace (Z.of_nat k <? 0) with false by lia. rewrite Nat2Z.id. auto. }
        rewrite W_highs in E' by auto. specialize (Hmax _ Hkz).
        pose proof (shiftr_mono _ _ l ltac:(lia) Hmax). unfold p. lia.
  - rewrite Lv. replace (zlen vs + 1 =? 0) with false by lia. rewrite W_app.
    replace (zlen vs + 1 - 1 <? zlen vs) with false by lia.
    replace (zlen vs + 1 - 1 - zlen vs) with 0 by lia. reflexivity.
Qed.

(** the finished structure *)
Definition ef_ok (ef : elias_fano) (vs : list Z) (n m l : Z) (H : list bool) (idx : bool) : Prop :=
  rep vs n m l H /\ ef_size ef = n /\ ef_l ef = l /\ ef_high ef = canonical H /\
  ef_low ef = canonical (pieces l vs) /\ darray_ok false H (ef_d1 ef) /\
  (idx = true -> darray_ok true H (ef_d0 ef)).

Lemma ef_build_ok b vs n m l H idx : ebinv b vs n m l H ->
  exists ef, ef_build b idx = Ok ef /\ ef_ok ef vs n m l H idx.
Proof.
  intros (R & E1 & E2 & E3 & E4 & E5 & B1 & B2). unfold ef_build.
  rewrite (binv_bv _ _ B1). cbn [bind].
  assert (BH : zlen H < 2 ^ 63) by apply R.
  destruct (darray_build_ok false H BH) as (d1 & -> & D1). cbn [bind].
  assert (D0 : exists d0, (if idx then darray_build true (canonical H) else Ok darray_empty) = Ok d0 /\
                 (idx = true -> darray_ok true H d0)).
  { destruct idx; [|eexists; split; [reflexivity|discriminate]].
    destruct (darray_build_ok true H BH) as (d0 & -> & D0). exists d0. auto. }
  destruct D0 as (d0 & -> & D0). cbn [bind]. rewrite (binv_bv _ _ B2). cbn [bind].
  eexists. split; [reflexivity|]. unfold ef_ok. cbn. auto 10.
Qed.

(** ** Queries *)
Section Queries.
Variables (ef : elias_fano) (vs : list Z) (n m l : Z) (H : list bool) (idx : bool).
Hypothesis OK : ef_ok ef vs n m l H idx.

Let Hl : 0 <= l < 64. Proof. apply OK. Qed.
Let Hn : 0 <= n < 2 ^ 64. Proof. apply OK. Qed.
Let Hv i : 0 <= i < zlen vs -> 0 <= W vs i <= n.
Proof. apply OK. Qed.
Let Hm : mono vs. Proof. apply OK. Qed.
Let PH : positions H 0 = highs l vs 0. Proof. apply OK. Qed.
Let LP : zlen (positions H 0) = zlen vs. Proof. rewrite PH. apply zlen_highs. Qed.

Definition hp (i : Z) : Z := Z.shiftr (W vs i) l + i.

Lemma W_pos i : 0 <= i < zlen vs -> W (positions H 0) i = hp i.
Proof. intros. rewrite PH, W_highs by auto. unfold hp. lia. Qed.

Lemma hp_range i : 0 <= i < zlen vs -> i <= hp i < zlen H.
Proof.
  intros Hi. unfold hp. assert (0 <= Z.shiftr (W vs i) l) by (apply Z.shiftr_nonneg, Hv; auto).
  split; [lia|]. pose proof (Hv i Hi). pose proof (shiftr_mono (W vs i) n l ltac:(lia) ltac:(lia)).
  destruct OK as ((_ & _ & _ & _ & K & LH & _) & _). lia.
Qed.

Lemma hp_select i : 0 <= i < zlen vs -> is_select true H (Z.to_nat i) (Z.to_nat (hp i)).
Proof. intros Hi. rewrite <- W_pos by auto. apply sel_of_pos. lia. Qed.

Lemma hp_lt i j : 0 <= i < j -> j < zlen vs -> hp i < hp j.
Proof. intros. rewrite <- !W_pos by lia. apply sorted_pos_lt; lia. Qed.

Lemma count_ones : Z.of_nat (count true H) = zlen vs.
Proof. rewrite <- (zlen_positions H 0). apply LP. Qed.

Lemma num_ones_ok : ef_num_ones ef = zlen vs.
Proof.
  destruct OK as (_ & _ & _ & _ & _ & (D & _) & _). unfold ef_num_ones. rewrite D, pos_count. apply count_ones.
Qed.

Lemma d1_select i : 0 <= i < zlen vs -> darray1_select (ef_d1 ef) (ef_high ef) i = Ok (hp i).
Proof.
  intros Hi. destruct OK as (_ & _ & _ & -> & _ & D & _).
  destruct (darray_select_ok false H (ef_d1 ef) i D) as (q & E & S).
  { cbn [negb]. rewrite count_ones. auto. }
  unfold darray1_select. rewrite E. cbn [negb] in S.
  rewrite (is_select_unique _ _ _ _ _ S (hp_select i Hi)). rewrite Z2Nat.id; auto.
  pose proof (hp_range i Hi). lia.
Qed.

Lemma low_ok i : 0 <= i < zlen vs -> get_bits strict_shift (ef_low ef) (i * l) l = Ok (W vs i mod 2 ^ l).
Proof.
  intros Hi. destruct OK as (_ & _ & _ & _ & -> & _ & _).
  rewrite get_bits_ok; try lia.
  - rewrite window_pieces by lia. rewrite value_bits_mod. do 3 f_equal. lia.
  - rewrite zlen_pieces by lia. nia.
Qed.

Lemma shl_high i : 0 <= i < zlen vs -> shl (hp i - i) l = Ok (u64 (Z.shiftl (Z.shiftr (W vs i) l) l)).
Proof. intros. rewrite shl_ok by lia. unfold hp. do 3 f_equal. lia. Qed.

Lemma ef_l_eq : ef_l ef = l. Proof. apply OK. Qed.

Lemma ef_select_ok i : 0 <= i < zlen vs -> ef_select ef i = Ok (W vs i).
Proof.
  intros Hi. unfold ef_select. rewrite d1_select by auto. cbn [bind]. rewrite ef_l_eq.
  pose proof (hp_range i Hi). pose proof (Hv i Hi). rewrite sub64_ok by lia. rewrite shl_high by auto. cbn [bind].
  rewrite low_ok by auto. cbn [bind]. rewrite split_value by lia. reflexivity.
Qed.

(** *** delta and select_range *)

Lemma between_zero i p : 0 <= i -> i + 1 < zlen vs -> hp i < p < hp (i + 1) -> zbit H p = false.
Proof.
  intros Hi Hi1 Hp. destruct (zbit H p) eqn:E; auto. exfalso.
  destruct (pos_of_zbit H p E) as (j & Hj & <-). rewrite LP in Hj. rewrite W_pos in Hp by auto.
  destruct (Z.lt_trichotomy j i) as [C|[->|C]]; [pose proof (hp_lt j i); lia|lia|].
  destruct (Z.eq_dec j (i + 1)) as [->|]; [lia|]. pose proof (hp_lt (i + 1) j); lia.
Qed.

Lemma zbit_hp i : 0 <= i < zlen vs -> zbit H (hp i) = true.
Proof. intros. rewrite <- W_pos by auto. apply zbit_of_pos. lia. Qed.

Lemma ef_delta_ok i : 0 <= i < zlen vs ->
  ef_delta ef i = Ok (if i =? 0 then W vs 0 else W vs i - W vs (i - 1)).
Proof.
  intros Hi. unfold ef_delta. rewrite d1_select by auto. cbn [bind]. rewrite ef_l_eq, low_ok by auto.
  cbn [bind]. pose proof (hp_range i Hi). pose proof (Hv i Hi).
  destruct (Z.eqb_spec i 0) as [->|Hi0]; cbn [negb].
  - rewrite sub64_ok by lia. rewrite shl_high by auto. cbn [bind]. rewrite split_value by lia. reflexivity.
  - pose proof (hp_lt (i - 1) i ltac:(lia) ltac:(lia)) as Lt. pose proof (hp_range (i - 1) ltac:(lia)) as R1.
    rewrite sub64_ok by lia.
    destruct OK as (_ & _ & _ & Eh & _ & _ & _). rewrite Eh. rewrite predecessor1_eq.
    rewrite (predecessor_ok false H (hp i - 1) (hp (i - 1))); try lia.
    + cbn [bind]. rewrite low_ok by lia. unfold hp.
      set (a := W vs i) in *. set (b := W vs (i - 1)).
      assert (Hb : 0 <= b <= n) by (apply Hv; lia).
      assert (Hab : b <= a) by (apply Hm; lia).
      replace (Z.shiftr a l + i - (Z.shiftr b l + (i - 1)) - 1) with (Z.shiftr a l - Z.shiftr b l) by lia.
      pose proof (shiftr_mono b a l ltac:(lia) Hab) as Sm.
      assert (Sb : 0 <= Z.shiftr b l) by (apply Z.shiftr_nonneg; lia).
      pose proof (shiftr_range64 a l ltac:(lia) ltac:(lia)) as Sa.
      rewrite (u64_small (Z.shiftr a l - Z.shiftr b l)) by lia. rewrite shl_ok by lia. cbn [bind]. f_equal.
      assert (P : 0 < 2 ^ l) by (apply Z.pow_pos_nonneg; lia).
      rewrite Z.shiftl_mul_pow2 by lia. rewrite !Z.shiftr_div_pow2 in * by lia.
      pose proof (Z.mod_pos_bound a (2 ^ l) P). pose proof (Z.mod_pos_bound b (2 ^ l) P).
      pose proof (Z.div_mod a (2 ^ l) ltac:(lia)). pose proof (Z.div_mod b (2 ^ l) ltac:(lia)).
      pose proof (Z.mod_le a (2 ^ l) ltac:(lia) P).
      set (r := a mod 2 ^ l) in *. set (s := b mod 2 ^ l) in *.
      set (qa := a / 2 ^ l) in *. set (qb := b / 2 ^ l) in *. set (w := 2 ^ l) in *.
      clearbody r s qa qb w. rewrite (u64_small ((qa - qb) * w)) by nia.
      replace ((qa - qb) * w + r - s) with (a - b) by lia. apply u64_small. lia.
    + cbn [negb]. apply zbit_hp. lia.
    + intros p Hp. apply (between_zero (i - 1)); try lia. replace (i - 1 + 1) with i by lia. lia.
Qed.

Lemma ef_select_range_ok i : 0 <= i -> i + 1 < zlen vs ->
  ef_select_range ef i = Ok (W vs i, W vs (i + 1)).
Proof.
  intros Hi Hi1. unfold ef_select_range. rewrite num_ones_ok, assert_true by (pose proof (u64_le (i + 1)); lia).
  rewrite d1_select by lia. cbn [bind]. rewrite ef_l_eq, low_ok by lia. cbn [bind].
  pose proof (hp_range i ltac:(lia)). pose proof (hp_range (i + 1) ltac:(lia)).
  pose proof (hp_lt i (i + 1) ltac:(lia) ltac:(lia)).
  pose proof (Hv i ltac:(lia)). pose proof (Hv (i + 1) ltac:(lia)).
  destruct OK as (_ & _ & _ & Eh & _ & _ & _). rewrite Eh. rewrite successor1_eq.
  assert (BH : zlen H < 2 ^ 63) by apply OK.
  rewrite (successor_ok false H (hp i + 1) (hp (i + 1))); try lia.
  - cbn [bind]. rewrite low_ok by lia. cbn [bind]. rewrite sub64_ok by lia.
    rewrite shl_high by lia. cbn [bind].
    rewrite u64_small by lia. replace (hp (i + 1) - i - 1) with (hp (i + 1) - (i + 1)) by lia.
    rewrite shl_high by lia. cbn [bind]. rewrite !split_value by lia. reflexivity.
  - cbn [negb]. apply zbit_hp. lia.
  - intros p Hp. apply (between_zero i); lia.
Qed.

(** *** rank and membership *)

Lemma val_cmp v pos : 0 <= v -> 0 <= pos ->
  (pos <= v <-> Z.shiftr pos l < Z.shiftr v l \/
                Z.shiftr pos l = Z.shiftr v l /\ pos mod 2 ^ l <= v mod 2 ^ l).
Proof.
  intros. rewrite !Z.shiftr_div_pow2 by lia. assert (P : 0 < 2 ^ l) by (apply Z.pow_pos_nonneg; lia).
  pose proof (Z.div_mod v (2 ^ l) ltac:(lia)). pose proof (Z.div_mod pos (2 ^ l) ltac:(lia)).
  pose proof (Z.mod_pos_bound v (2 ^ l) P). pose proof (Z.mod_pos_bound pos (2 ^ l) P). nia.
Qed.

Hypothesis IDX : idx = true.

(** the loops start at [r + h], [r] the number of values whose high part is at most [h] *)
Lemma d0_start h : 0 <= h <= Z.shiftr n l ->
  exists r, darray0_select (ef_d0 ef) (ef_high ef) h = Ok (r + h) /\ 0 <= r <= zlen vs /\
    0 <= r + h < zlen H /\
    (forall i, 0 <= i < r -> Z.shiftr (W vs i) l <= h) /\
    (forall i, r <= i < zlen vs -> h < Z.shiftr (W vs i) l).
Proof.
  intros Hh. destruct OK as ((_ & _ & _ & _ & K & LH & _) & _ & _ & Eh & _ & _ & D). rewrite Eh.
  pose proof count_ones as C1. pose proof (count_compl H) as C2.
  destruct (darray_select_ok true H (ef_d0 ef) h (D IDX)) as (q & E & S).
  { cbn [negb]. unfold zlen in *. lia. }
  cbn [negb] in S. unfold darray0_select. rewrite E.
  pose proof (is_select_bound _ _ _ _ S) as Bq. destruct S as [S1 S2].
  pose proof (rank_compl H q ltac:(lia)) as RC.
  exists (Z.of_nat (rank true H q)). pose proof (rank_le_count true H q).
  assert (Eqq : Z.of_nat (rank true H q) + h = Z.of_nat q) by lia.
  rewrite Eqq. split; [auto|]. split; [lia|]. split; [unfold zlen; lia|].
  assert (Z0 : forall i, 0 <= i < zlen vs -> Z.of_nat (rank false H (Z.to_nat (hp i))) = Z.shiftr (W vs i) l).
  { intros i Hi. pose proof (hp_range i Hi). destruct (hp_select i Hi) as [_ R].
    pose proof (rank_compl H (Z.to_nat (hp i))) as RC'. unfold zlen in *. unfold hp in *. lia. }
  assert (Lt : forall i, 0 <= i < zlen vs -> (hp i < Z.of_nat q <-> i < Z.of_nat (rank true H q))).
  { intros i Hi. pose proof (hp_range i Hi). pose proof (hp_select i Hi) as Si. split; intros C.
    - pose proof (is_select_rank_lt _ _ _ _ q Si ltac:(lia)). lia.
    - destruct (Z.lt_ge_cases (hp i) (Z.of_nat q)); auto. exfalso.
      pose proof (is_select_rank_ge _ _ _ _ q Si ltac:(lia)). lia. }
  split; intros i Hi.
  - rewrite <- Z0 by lia. assert (C : hp i < Z.of_nat q) by (apply Lt; lia).
    pose proof (rank_mono false H (Z.to_nat (hp i)) q ltac:(lia)). lia.
  - rewrite <- Z0 by lia.
    assert (C : Z.of_nat q <= hp i).
    { destruct (Z.lt_ge_cases (hp i) (Z.of_nat q)) as [C|C]; auto. apply Lt in C; lia. }
    assert (C' : Z.of_nat q <> hp i).
    { intros Ec. pose proof (zbit_hp i ltac:(lia)) as Zb. rewrite <- Ec, zbit_nth in Zb.
      apply nth_error_nth with (d := false) in S1. congruence. }
    pose proof (rank_S false H q false S1) as RS. cbn [eqb] in RS.
    pose proof (rank_mono false H (S q) (Z.to_nat (hp i)) ltac:(lia)). lia.
Qed.

(** what the bit before [r + h] says *)
Lemma prev_bit r h : 0 <= r <= zlen vs -> 0 <= h ->
  (forall i, 0 <= i < r -> Z.shiftr (W vs i) l <= h) ->
  (forall i, r <= i < zlen vs -> h <= Z.shiftr (W vs i) l) ->
  zbit H (r + h - 1) = true <-> 0 < r /\ Z.shiftr (W vs (r - 1)) l = h.
Proof.
  intros Hr Hh A B. split.
  - intros E. destruct (pos_of_zbit H _ E) as (i & Hi & Ei). rewrite LP in Hi. rewrite W_pos in Ei by auto.
    unfold hp in Ei. destruct (Z.lt_ge_cases i r) as [C|C].
    + specialize (A i ltac:(lia)). assert (i = r - 1) by lia. subst i. split; lia.
    + specialize (B i ltac:(lia)). lia.
  - intros [C <-]. replace (r + Z.shiftr (W vs (r - 1)) l - 1) with (hp (r - 1)) by (unfold hp; lia).
    apply zbit_hp. lia.
Qed.

Lemma ef_rank_loop_ok pos : 0 <= pos ->
  forall fuel r, let h := Z.shiftr pos l in
  0 <= r <= zlen vs -> r + h < zlen H -> r + h <= Z.of_nat fuel ->
  (forall i, 0 <= i < r -> Z.shiftr (W vs i) l <= h) ->
  (forall i, r <= i < zlen vs -> pos <= W vs i) ->
  exists r', ef_rank_loop fuel ef (pos mod 2 ^ l) r (r + h) = Ok r' /\ 0 <= r' <= zlen vs /\
    (forall i, 0 <= i < r' -> W vs i < pos) /\ (forall i, r' <= i < zlen vs -> pos <= W vs i).
Proof.
  intros Hpos. induction fuel as [|fuel IH]; intros r h Hr Hb Hf A B.
  - assert (Hh : 0 <= h) by (apply Z.shiftr_nonneg; lia).
    cbn [ef_rank_loop]. replace (r + h <=? 0) with true by lia. exists r.
    split; [auto|]. split; [lia|]. split; [intros; lia|auto].
  - assert (Hh : 0 <= h) by (apply Z.shiftr_nonneg; lia).
    cbn [ef_rank_loop]. destruct (Z.leb_spec (r + h) 0) as [C|C].
    { exists r. split; [auto|]. split; [lia|]. split; [intros; lia|auto]. }
    destruct OK as (_ & _ & El & Eh & _ & _ & _). rewrite Eh, bv_get_ok by lia. cbn [bind].
    assert (B' : forall i, r <= i < zlen vs -> h <= Z.shiftr (W vs i) l).
    { intros i Hi. apply shiftr_mono; [lia|auto]. }
    pose proof (prev_bit r h Hr Hh A B') as PB.
    assert (Below : forall i, 0 <= i < r - 1 -> forall v, W vs (r - 1) = v -> v < pos -> W vs i < pos).
    { intros i Hi v Ev Lv. pose proof (Hm i (r - 1)). lia. }
    destruct (zbit H (r + h - 1)) eqn:Zb.
    + destruct (proj1 PB eq_refl) as [R0 Eq]. rewrite El, sub64_ok by lia. rewrite low_ok by lia. cbn [bind].
      pose proof (Hv (r - 1) ltac:(lia)) as Hv1.
      pose proof (val_cmp (W vs (r - 1)) pos ltac:(lia) Hpos) as VC. fold h in VC.
      destruct (Z.leb_spec (pos mod 2 ^ l) (W vs (r - 1) mod 2 ^ l)) as [D|D].
      * replace (r + h - 1) with (r - 1 + h) by lia. apply IH; [clear - Hr R0; lia|clear - Hb; lia|clear - Hf; lia| |].
        -- intros i Hi. apply A. clear - Hi; lia.
        -- intros i Hi. destruct (Z.eq_dec i (r - 1)) as [->|]; [|apply B; clear - Hi n0; lia].
           apply VC. right. split; [symmetry; exact Eq|exact D].
      * exists r. split; [auto|]. split; [lia|]. split; [|auto].
        assert (Lt : W vs (r - 1) < pos).
        { destruct (Z.lt_ge_cases (W vs (r - 1)) pos) as [|G]; auto. apply VC in G. lia. }
        intros i Hi. destruct (Z.eq_dec i (r - 1)) as [->|]; [auto|]. apply (Below i ltac:(lia) _ eq_refl Lt).
    + exists r. split; [auto|]. split; [lia|]. split; [|auto].
      intros i Hi. assert (Lt : W vs (r - 1) < pos).
      { assert (NE : Z.shiftr (W vs (r - 1)) l <> h).
        { intros Eq. assert (false = true) by (apply PB; split; [lia|auto]). discriminate. }
        pose proof (A (r - 1) ltac:(lia)). pose proof (Hv (r - 1) ltac:(lia)).
        pose proof (val_cmp (W vs (r - 1)) pos ltac:(lia) Hpos) as VC. fold h in VC.
        destruct (Z.lt_ge_cases (W vs (r - 1)) pos) as [|G]; auto. apply VC in G. lia. }
      destruct (Z.eq_dec i (r - 1)) as [->|]; [auto|]. apply (Below i ltac:(lia) _ eq_refl Lt).
Qed.

Lemma d0_nonzero : negb (da_positions (ef_d0 ef) =? 0) = true.
Proof.
  destruct OK as ((_ & _ & _ & _ & K & LH & _) & _ & _ & _ & _ & _ & D). destruct (D IDX) as (E & _).
  rewrite E, pos_count. cbn [negb]. pose proof count_ones. pose proof (count_compl H).
  assert (0 <= Z.shiftr n l) by (apply Z.shiftr_nonneg; lia). unfold zlen in *. lia.
Qed.

Lemma shiftr_le_n pos : 0 <= pos <= n -> 0 <= Z.shiftr pos l <= Z.shiftr n l.
Proof. intros. split; [apply Z.shiftr_nonneg; lia|apply shiftr_mono; lia]. Qed.

(** [rank] is the number of values below [pos] *)
Definition is_rank (pos r : Z) : Prop :=
  0 <= r <= zlen vs /\ (forall i, 0 <= i < r -> W vs i < pos) /\ (forall i, r <= i < zlen vs -> pos <= W vs i).

Lemma ef_rank_ok pos : 0 <= pos <= n -> (pos = n -> forall i, 0 <= i < zlen vs -> W vs i < n) ->
  exists r, ef_rank ef pos = Ok r /\ is_rank pos r.
Proof.
  intros Hp Hlast. unfold ef_rank. destruct OK as (_ & Es & El & _). rewrite Es, El.
  rewrite assert_true by lia. rewrite assert_true by apply d0_nonzero.
  destruct (Z.eqb_spec pos n) as [->|].
  - exists (zlen vs). rewrite num_ones_ok. split; [auto|]. pose proof (zlen_nonneg vs).
    split; [lia|]. split; [auto|intros; lia].
  - rewrite !shr_ok, shl_ok by lia. cbn [bind].
    destruct (d0_start (Z.shiftr pos l)) as (r & E & R1 & R2 & R3 & R4); [apply shiftr_le_n; lia|].
    rewrite E. cbn [bind]. pose proof (shiftr_le_n pos Hp).
    rewrite land_mask, sub64_ok by lia. replace (r + Z.shiftr pos l - Z.shiftr pos l) with r by lia.
    destruct (ef_rank_loop_ok pos ltac:(lia) (Z.to_nat (r + Z.shiftr pos l)) r)
      as (r' & E' & Q1 & Q2 & Q3); auto; try lia.
    + intros i Hi. pose proof (Hv i ltac:(lia)). apply val_cmp; try lia. left. apply R4; auto.
    + exists r'. split; [auto|]. split; auto.
Qed.

Lemma ef_get_loop_ok pos : 0 <= pos ->
  forall fuel r, let h := Z.shiftr pos l in
  0 <= r <= zlen vs -> r + h < zlen H -> r + h <= Z.of_nat fuel ->
  (forall i, 0 <= i < r -> Z.shiftr (W vs i) l <= h) ->
  (forall i, r <= i < zlen vs -> pos < W vs i) ->
  exists b, ef_get_loop fuel ef (pos mod 2 ^ l) r (r + h) = Ok b /\
    (b = true <-> exists i, 0 <= i < zlen vs /\ W vs i = pos).
Proof.
  intros Hpos. induction fuel as [|fuel IH]; intros r h Hr Hb Hf A B;
    assert (Hh : 0 <= h) by (apply Z.shiftr_nonneg; lia); cbn [ef_get_loop].
  - replace (r + h <=? 0) with true by lia. exists false. split; [auto|]. split; [discriminate|].
    intros (i & Hi & E). specialize (B i ltac:(lia)). lia.
  - destruct (Z.leb_spec (r + h) 0) as [C|C].
    { exists false. split; [auto|]. split; [discriminate|].
      intros (i & Hi & E). specialize (B i ltac:(lia)). lia. }
    destruct OK as (_ & _ & El & Eh & _ & _ & _). rewrite Eh, bv_get_ok by lia. cbn [bind].
    assert (B' : forall i, r <= i < zlen vs -> h <= Z.shiftr (W vs i) l).
    { intros i Hi. apply shiftr_mono; [lia|]. specialize (B i Hi). lia. }
    pose proof (prev_bit r h Hr Hh A B') as PB.
    assert (Below : W vs (r - 1) < pos -> 0 < r -> ~ exists i, 0 <= i < zlen vs /\ W vs i = pos).
    { intros Lv R0 (i & Hi & E). destruct (Z.lt_ge_cases i r) as [G|G].
      - pose proof (Hm i (r - 1)). lia.
      - specialize (B i ltac:(lia)). lia. }
    destruct (zbit H (r + h - 1)) eqn:Zb.
    + destruct (proj1 PB eq_refl) as [R0 Eq]. rewrite El, sub64_ok by lia. rewrite low_ok by lia. cbn [bind].
      pose proof (Hv (r - 1) ltac:(lia)) as Hv1.
      pose proof (val_cmp (W vs (r - 1)) pos ltac:(lia) Hpos) as VC. fold h in VC.
      pose proof (val_cmp pos (W vs (r - 1)) ltac:(lia) ltac:(lia)) as VC'. fold h in VC'.
      destruct (Z.eqb_spec (W vs (r - 1) mod 2 ^ l) (pos mod 2 ^ l)) as [D|D].
      * exists true. split; [auto|]. split; [|auto]. intros _. exists (r - 1). split; [clear - Hr R0; lia|]. clear - VC VC' D Eq; lia.
      * destruct (Z.ltb_spec (W vs (r - 1) mod 2 ^ l) (pos mod 2 ^ l)) as [D'|D'].
        -- exists false. split; [auto|]. split; [discriminate|]. intros G. exfalso. apply Below in G; auto.
           destruct (Z.lt_ge_cases (W vs (r - 1)) pos) as [|G']; auto. apply VC in G'. lia.
        -- replace (r + h - 1) with (r - 1 + h) by lia. apply IH; [clear - Hr R0; lia|clear - Hb; lia|clear - Hf; lia| |].
           ++ intros i Hi. apply A. clear - Hi; lia.
           ++ intros i Hi. destruct (Z.eq_dec i (r - 1)) as [->|]; [|apply B; clear - Hi n0; lia].
              clear - VC VC' D D' Eq; lia.
    + exists false. split; [auto|]. split; [discriminate|]. intros (i & Hi & E). exfalso.
      destruct (Z.lt_ge_cases i r) as [G|G]; [|specialize (B i ltac:(lia)); lia].
      apply Below; [|lia|eauto].
      assert (NE : Z.shiftr (W vs (r - 1)) l <> h).
      { intros Eq. assert (false = true) by (apply PB; split; [lia|auto]). discriminate. }
      pose proof (A (r - 1) ltac:(lia)). pose proof (Hv (r - 1) ltac:(lia)).
      pose proof (val_cmp (W vs (r - 1)) pos ltac:(lia) Hpos) as VC. fold h in VC.
      destruct (Z.lt_ge_cases (W vs (r - 1)) pos) as [|G']; auto. apply VC in G'. lia.
Qed.

Lemma ef_get_ok pos : 0 <= pos < n ->
  exists b, ef_get ef pos = Ok b /\ (b = true <-> exists i, 0 <= i < zlen vs /\ W vs i = pos).
Proof.
  intros Hp. unfold ef_get. destruct OK as (_ & Es & El & _). rewrite Es, El.
  rewrite assert_true by lia. rewrite assert_true by apply d0_nonzero.
  rewrite !shr_ok, shl_ok by lia. cbn [bind].
  destruct (d0_start (Z.shiftr pos l)) as (r & E & R1 & R2 & R3 & R4); [apply shiftr_le_n; lia|].
  rewrite E. cbn [bind]. pose proof (shiftr_le_n pos ltac:(lia)).
  rewrite land_mask, sub64_ok by lia. replace (r + Z.shiftr pos l - Z.shiftr pos l) with r by lia.
  apply ef_get_loop_ok; auto; try lia.
  intros i Hi. pose proof (Hv i ltac:(lia)). specialize (R4 i Hi).
  destruct (Z.lt_ge_cases pos (W vs i)) as [|G]; auto.
  pose proof (shiftr_mono (W vs i) pos l ltac:(lia) G). lia.
Qed.

Lemma ef_predecessor1_ok pos i : 0 <= pos < n -> (pos + 1 = n -> forall i, 0 <= i < zlen vs -> W vs i < n) ->
  0 <= i < zlen vs -> W vs i <= pos -> (i + 1 < zlen vs -> pos < W vs (i + 1)) ->
  ef_predecessor1 ef pos = Ok (W vs i).
Proof.
  intros Hp Hlast Hi Hle Hgt. unfold ef_predecessor1. rewrite u64_small by lia.
  destruct (ef_rank_ok (pos + 1)) as (r & E & R1 & R2 & R3); [lia|auto|].
  rewrite E. cbn [bind].
  assert (r = i + 1).
  { destruct (Z.lt_trichotomy r (i + 1)) as [C|[|C]]; auto.
    - specialize (R3 i ltac:(lia)). lia.
    - specialize (R2 (i + 1) ltac:(lia)). lia. }
  subst r. rewrite sub64_ok by lia. replace (i + 1 - 1) with i by lia. apply ef_select_ok; auto.
Qed.

Lemma ef_successor1_ok pos i : 0 <= pos <= n -> (pos = n -> forall i, 0 <= i < zlen vs -> W vs i < n) ->
  0 <= i < zlen vs -> pos <= W vs i -> (0 < i -> W vs (i - 1) < pos) ->
  ef_successor1 ef pos = Ok (W vs i).
Proof.
  intros Hp Hlast Hi Hge Hlt. unfold ef_successor1.
  destruct (ef_rank_ok pos) as (r & E & R1 & R2 & R3); [lia|auto|].
  rewrite E. cbn [bind].
  assert (r = i).
  { destruct (Z.lt_trichotomy r i) as [C|[|C]]; auto.
    - specialize (R3 (i - 1) ltac:(lia)). lia.
    - specialize (R2 i ltac:(lia)). lia. }
  subst r. apply ef_select_ok; auto.
Qed.

End Queries.
