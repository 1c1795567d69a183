(** Proofs about gamma_vector and gamma_bit_vector. *)
From Verif Require Import Base Spec Lib M_Broadword P_Broadword P_Broadword2 P_BvLib P_Builder P_BitVector P_BvRank
  M_BitVector S_BitVector P_BvEnum P_RsBuild M_Darray S_Darray P_Darray M_EliasFano S_EliasFano P_EliasFano P_EliasFano2
  M_Gamma S_Gamma.

(** ** Positions of the ones of 0^s0 1 0^s1 1 ... *)

Lemma sum_app a b : sum (a ++ b) = sum a + sum b.
Proof. unfold sum. induction a; simpl; [auto|]. rewrite IHa. lia. Qed.

Lemma d64_positions ss : Forall (fun s => 0 <= s) ss -> forall a i, 0 <= i < zlen ss ->
  W (positions (d64_seq ss) a) i = a + sum (firstn (Z.to_nat i + 1) ss) + i.
Proof.
  induction 1 as [|s ss Hs F IH]; intros a i Hi; [change (zlen (@nil Z)) with 0 in Hi; lia|].
  rewrite zlen_cons in Hi. unfold d64_seq. cbn [flat_map]. fold (d64_seq ss).
  rewrite <- app_assoc, positions_app, positions_false, zlen_repeat. cbn [app positions]. rewrite W_cons.
  destruct (Z.eqb_spec i 0) as [->|].
  - change (sum (firstn (Z.to_nat 0 + 1) (s :: ss))) with (s + 0). lia.
  - rewrite IH by lia. replace (Z.to_nat i + 1)%nat with (S (Z.to_nat (i - 1) + 1)) by lia. cbn [firstn].
    unfold sum. cbn [fold_right]. lia.
Qed.

Lemma d64_count ss : zlen (positions (d64_seq ss) 0) = zlen ss.
Proof.
  rewrite zlen_positions. unfold zlen. f_equal. unfold d64_seq.
  induction ss as [|s ss IH]; [reflexivity|]. cbn [flat_map].
  rewrite !count_app, count_repeat. cbn [eqb]. change (count true [true]) with 1%nat. rewrite IH. reflexivity.
Qed.

Lemma pos_gap l i p : 0 <= i -> i + 1 < zlen (positions l 0) ->
  W (positions l 0) i < p < W (positions l 0) (i + 1) -> zbit l p = false.
Proof.
  intros Hi Hi1 Hp. destruct (zbit l p) eqn:E; auto. exfalso.
  destruct (pos_of_zbit l p E) as (j & Hj & <-).
  destruct (Z.lt_trichotomy j i) as [C|[->|C]]; [pose proof (sorted_pos_lt l j i); lia|lia|].
  destruct (Z.eq_dec j (i + 1)) as [->|]; [lia|]. pose proof (sorted_pos_lt l (i + 1) j); lia.
Qed.

Lemma enum_take0_ok bv l e s : einv e l s ->
  exists e', enum_take bv e 0 = Ok (0, e') /\ einv e' l s.
Proof.
  intros (H1 & H2 & H3 & H4 & H5). unfold enum_take.
  replace (e_avail e <? 0) with false by lia. cbn [bind]. change (0 =? 64) with false. cbn [bind].
  rewrite shl_ok, shr_ok by lia. cbn [bind]. rewrite Z.land_0_r, Z.shiftr_0_r.
  rewrite Z.add_0_r, Z.sub_0_r, (u64_small (e_avail e)) by lia.
  eexists. split; [reflexivity|]. unfold einv. cbn [e_pos e_buf e_avail]. auto.
Qed.

(** ** The structure; [k] is 0 for gamma_vector and 1 for gamma_bit_vector *)

Definition zs_of (k : Z) (ys : list Z) : list Z := map (fun y => code_len y - k) ys.

Definition gamma_ok (k : Z) (g : gamma) (ys : list Z) : Prop :=
  Forall (fun y => 0 <= y < 2 ^ 64 - 1 /\ k <= code_len y) ys /\ zlen ys < 2 ^ 57 /\
  d64_bits (g_high g) = canonical (d64_seq (0 :: zs_of k ys)) /\
  d64_num_ones (g_high g) = zlen ys + 1 /\
  (forall i, 0 <= i < zlen ys + 1 ->
    exists q, d64_select (g_high g) i = Ok (Z.of_nat q) /\
              is_select true (d64_seq (0 :: zs_of k ys)) (Z.to_nat i) q) /\
  g_low g = canonical (codes ys).

Lemma zs_range k ys : 0 <= k -> Forall (fun y => 0 <= y < 2 ^ 64 - 1 /\ k <= code_len y) ys ->
  Forall (fun s => 0 <= s <= 64) (zs_of k ys).
Proof.
  intros Hk. induction 1 as [|y ys [Hy Hy'] F IH]; constructor; auto.
  pose proof (code_len_range y Hy). lia.
Qed.

Section Gamma.
Variables (k : Z) (g : gamma) (ys : list Z).
Hypothesis Hk : k = 0 \/ k = 1.
Hypothesis OK : gamma_ok k g ys.

Let hs := d64_seq (0 :: zs_of k ys).
Definition off (i : Z) : Z := sum (firstn (Z.to_nat i) (map code_len ys)).
Definition hpos (i : Z) : Z := off i + (1 - k) * i.

Lemma g_size : gamma_size g = zlen ys.
Proof.
  destruct OK as (_ & L & _ & E & _). unfold gamma_size. rewrite E. pose proof (zlen_nonneg ys).
  rewrite sub64_ok by lia. lia.
Qed.

Lemma g_elem i : 0 <= i < zlen ys -> 0 <= W ys i < 2 ^ 64 - 1 /\ k <= code_len (W ys i) <= 63.
Proof.
  intros Hi. destruct OK as (F & _). rewrite Forall_forall in F.
  destruct (F (W ys i)) as [A B]; [apply In_W; eauto|]. split; [auto|]. split; [auto|].
  apply code_len_range; auto.
Qed.

Lemma off_S i : 0 <= i < zlen ys -> off (i + 1) = off i + code_len (W ys i).
Proof.
  intros Hi. unfold off. replace (Z.to_nat (i + 1)) with (Z.to_nat i + 1)%nat by lia.
  rewrite sum_firstn_S by (rewrite zlen_map; auto). f_equal.
  unfold W. replace (i <? 0) with false by lia.
  rewrite nth_indep with (d' := code_len 0) by (rewrite map_length; unfold zlen in Hi; lia). apply map_nth.
Qed.

Lemma lens_nonneg : Forall (fun x => 0 <= x) (map code_len ys) /\ 0 <= sum (map code_len ys) < 2 ^ 63.
Proof.
  destruct OK as (F & L & _). destruct (code_lens_range ys) as [A B].
  - eapply Forall_impl; [|exact F]. cbv beta. tauto.
  - split; [auto|]. lia.
Qed.

Lemma off_range i : 0 <= off i <= zlen (codes ys) /\ zlen (codes ys) < 2 ^ 63.
Proof.
  rewrite zlen_codes. destruct lens_nonneg as [F R]. unfold off.
  rewrite <- (firstn_skipn (Z.to_nat i) (map code_len ys)) in F. apply Forall_app in F. destruct F as [Fa Fb].
  pose proof (sum_nonneg _ Fa). pose proof (sum_nonneg _ Fb).
  assert (E : sum (map code_len ys) = sum (firstn (Z.to_nat i) (map code_len ys)) + sum (skipn (Z.to_nat i) (map code_len ys))).
  { rewrite <- sum_app, firstn_skipn. auto. }
  lia.
Qed.

Lemma sum_zs i : 0 <= i <= zlen ys -> sum (firstn (Z.to_nat i) (zs_of k ys)) = off i - k * i.
Proof.
  intros Hi. unfold off, zs_of. rewrite !firstn_map.
  assert (G : forall l : list Z, sum (map (fun y => code_len y - k) l) = sum (map code_len l) - k * zlen l).
  { unfold sum. induction l as [|y l IH]; [change (zlen (@nil Z)) with 0; cbn [map fold_right]; lia|].
    rewrite zlen_cons. cbn [map fold_right]. rewrite IH. lia. }
  rewrite G, zlen_firstn. rewrite Z2Nat.id, Z.min_l by lia. auto.
Qed.

Lemma zlen_zs : zlen (0 :: zs_of k ys) = zlen ys + 1.
Proof. unfold zs_of. rewrite zlen_cons, zlen_map. auto. Qed.

Lemma W_hs i : 0 <= i <= zlen ys -> W (positions hs 0) i = hpos i.
Proof.
  intros Hi. unfold hs. rewrite d64_positions; [|constructor; [lia|]|rewrite zlen_zs; lia].
  - replace (Z.to_nat i + 1)%nat with (S (Z.to_nat i)) by lia. cbn [firstn].
    change (sum (0 :: firstn (Z.to_nat i) (zs_of k ys))) with (0 + sum (firstn (Z.to_nat i) (zs_of k ys))).
    rewrite sum_zs by auto. unfold hpos. lia.
  - eapply Forall_impl; [|apply zs_range; [|apply OK]]; [cbv beta; intros; lia|lia].
Qed.

Lemma hs_count : zlen (positions hs 0) = zlen ys + 1.
Proof. unfold hs. rewrite d64_count. apply zlen_zs. Qed.

Lemma hpos_nonneg i : 0 <= i -> 0 <= hpos i.
Proof. intros. pose proof (off_range i). unfold hpos. destruct Hk; subst k; lia. Qed.

Lemma hpos_lt i : 0 <= i <= zlen ys -> hpos i < zlen hs.
Proof.
  intros Hi. destruct (sel_of_pos hs i) as [_ S]; [rewrite hs_count; lia|].
  apply is_select_bound in S. rewrite W_hs in S by auto. pose proof (hpos_nonneg i). unfold zlen. lia.
Qed.

Lemma hpos_sel i : 0 <= i <= zlen ys -> is_select true hs (Z.to_nat i) (Z.to_nat (hpos i)).
Proof. intros Hi. rewrite <- W_hs by auto. apply sel_of_pos. rewrite hs_count. lia. Qed.

Lemma g_select i : 0 <= i <= zlen ys -> d64_select (g_high g) i = Ok (hpos i).
Proof.
  intros Hi. destruct OK as (_ & _ & _ & _ & S & _). destruct (S i ltac:(lia)) as (q & -> & Sq).
  rewrite (is_select_unique _ _ _ _ _ Sq (hpos_sel i Hi)). rewrite Z2Nat.id; auto. apply hpos_nonneg. lia.
Qed.

Lemma hpos_S i : 0 <= i < zlen ys -> hpos (i + 1) = hpos i + 1 + (code_len (W ys i) - k).
Proof. intros. unfold hpos. rewrite off_S by auto. lia. Qed.

Lemma hs_zero i p : 0 <= i < zlen ys -> hpos i < p < hpos (i + 1) -> zbit hs p = false.
Proof. intros Hi Hp. apply (pos_gap hs i); [lia|rewrite hs_count; lia|]. rewrite !W_hs by lia. auto. Qed.

Lemma hs_one i : 0 <= i <= zlen ys -> zbit hs (hpos i) = true.
Proof. intros. rewrite <- W_hs by auto. apply zbit_of_pos. rewrite hs_count. lia. Qed.

(** reading the length of the code after the [i]-th one *)
Lemma g_len i : 0 <= i < zlen ys ->
  bv_get (d64_bits (g_high g)) (hpos i) = Ok true /\
  exists w, get_word (d64_bits (g_high g)) (hpos i + 1) = Ok w /\ lsb w = Ok (code_len (W ys i) - k).
Proof.
  intros Hi. destruct OK as (_ & _ & E & _). fold hs in E. rewrite E.
  pose proof (hpos_nonneg i). pose proof (hpos_lt i ltac:(lia)). pose proof (hpos_lt (i + 1) ltac:(lia)).
  pose proof (hpos_S i Hi) as HS. pose proof (g_elem i Hi) as [_ R].
  split; [rewrite bv_get_ok by lia; rewrite hs_one by lia; auto|].
  rewrite get_word_bits by lia. eexists. split; [reflexivity|].
  apply lsb_correct; [apply value_window_u64|]. split; [lia|]. split.
  - rewrite testbit_value_z, zbit_window by lia.
    replace (code_len (W ys i) - k <? Z.of_nat 64) with true by lia. cbn [andb].
    replace (Z.of_nat (Z.to_nat (hpos i + 1)) + (code_len (W ys i) - k)) with (hpos (i + 1)) by lia.
    apply hs_one. lia.
  - intros j Hj. rewrite testbit_value_z, zbit_window by lia.
    rewrite (hs_zero i) by lia. apply andb_false_r.
Qed.

Lemma g_code i : 0 <= i < zlen ys ->
  value (window (codes ys) (Z.to_nat (off i)) (Z.to_nat (code_len (W ys i)))) =
  (W ys i + 1) mod 2 ^ code_len (W ys i).
Proof.
  intros Hi. unfold off. rewrite window_code by auto. unfold code.
  rewrite value_bits_mod, Z2Nat.id by apply Z.log2_nonneg. reflexivity.
Qed.

Lemma g_chunk i : 0 <= i < zlen ys ->
  get_bits strict_shift (g_low g) (off i) (code_len (W ys i)) = Ok ((W ys i + 1) mod 2 ^ code_len (W ys i)).
Proof.
  intros Hi. destruct OK as (_ & _ & _ & _ & _ & ->). pose proof (g_elem i Hi) as [_ R].
  pose proof (off_range i). pose proof (off_range (i + 1)). pose proof (off_S i Hi).
  rewrite get_bits_ok by lia. rewrite g_code by auto. reflexivity.
Qed.

Lemma g_value i : 0 <= i < zlen ys ->
  Z.lor (u64 (Z.shiftl 1 (code_len (W ys i)))) ((W ys i + 1) mod 2 ^ code_len (W ys i)) = W ys i + 1.
Proof.
  intros Hi. pose proof (g_elem i Hi) as [E R].
  assert (P : 1 <= 2 ^ code_len (W ys i) <= 2 ^ 63).
  { split; [change 1 with (2 ^ 0); apply Z.pow_le_mono_r; lia|apply Z.pow_le_mono_r; lia]. }
  rewrite Z.shiftl_1_l, u64_small by lia. unfold code_len. apply top_value. lia.
Qed.

(** *** enumerators *)
Definition geinv (e : gamma_enum) (i : Z) : Prop :=
  ge_idx e = i /\ ge_pos e = hpos i /\
  (exists u s, ge_high e = Some u /\ uinv u hs s /\ Z.of_nat (rank true hs (ustart s)) = i + 1) /\
  (exists en st, ge_low e = Some en /\ einv en (codes ys) (off i, st)).

Lemma ge_new_ok i low0 : 0 <= i < zlen ys -> low0 = off i -> exists u,
  unary_new (bv_words (d64_bits (g_high g))) (hpos i + 1) = Ok u /\
  geinv (mk_ge i (hpos i) (Some u) (Some (enum_new low0))) i.
Proof.
  intros Hi ->. destruct OK as (_ & _ & E & _). fold hs in E. rewrite E. cbn [canonical bv_words].
  pose proof (hpos_nonneg i). pose proof (hpos_lt (i + 1) ltac:(lia)). pose proof (hpos_S i Hi) as HS.
  pose proof (g_elem i Hi) as [_ R].
  destruct (unary_new_ok hs (hpos i + 1)) as (u & -> & U); [lia|apply block_lt; lia|].
  exists u. split; [auto|]. split; [auto|]. split; [auto|]. cbn [ge_high ge_low]. split.
  - exists u, (hpos i + 1, false). split; [auto|]. split; [auto|].
    destruct (hpos_sel i ltac:(lia)) as [S1 S2]. unfold ustart. cbn [fst snd Z.b2z].
    replace (Z.to_nat (hpos i + 1 + 0)) with (S (Z.to_nat (hpos i))) by lia.
    rewrite (rank_S _ _ _ _ S1), S2. cbn [eqb]. lia.
  - exists (enum_new (off i)), false. split; [auto|]. unfold einv, enum_new. cbn [e_pos e_avail e_buf fst snd].
    split; [auto|]. split; [apply off_range|]. split; [lia|]. split; [unfold is_u64; lia|].
    intros j Hj. rewrite Z.bits_0. replace (j <? 0) with false by lia. auto.
Qed.

(** the common part of the two next functions *)
Lemma ge_next_ok e i : 0 <= i < zlen ys -> geinv e i ->
  ge_idx e <=? gamma_size g = true /\
  exists u low, ge_unary_next g (ge_high e) = Ok (hpos (i + 1), u) /\
    u64 (hpos (i + 1) - ge_pos e - 1) = code_len (W ys i) - k /\
    ge_low_take g (ge_low e) (code_len (W ys i)) = Ok ((W ys i + 1) mod 2 ^ code_len (W ys i), low) /\
    geinv (mk_ge (ge_idx e + 1) (hpos (i + 1)) (Some u) (Some low)) (i + 1).
Proof.
  intros Hi (E1 & E2 & (u & s & Eu & U & Ru) & (en & st & El & L)).
  rewrite g_size, E1, E2, Eu, El. split; [lia|].
  pose proof (hpos_nonneg i). pose proof (hpos_S i Hi) as HS. pose proof (g_elem i Hi) as [Hy R].
  pose proof (hpos_sel (i + 1) ltac:(lia)) as S. cbn [ge_unary_next ge_low_take].
  pose proof OK as (_ & _ & E & _ & _ & Elow). fold hs in E. rewrite E, Elow. cbn [canonical bv_words].
  replace (Z.to_nat (i + 1)) with (rank true hs (ustart s)) in S by lia.
  destruct (unary_next_ok hs u s _ U S) as (u' & -> & U'). rewrite Z2Nat.id in * by lia.
  pose proof (off_range (i + 1)). pose proof (off_S i Hi) as OS.
  assert (T : exists low st', enum_take (canonical (codes ys)) en (code_len (W ys i)) =
                Ok ((W ys i + 1) mod 2 ^ code_len (W ys i), low) /\ einv low (codes ys) (off (i + 1), st')).
  { destruct (Z.eq_dec (code_len (W ys i)) 0) as [E0|E0].
    - rewrite E0 in *. rewrite Z.add_0_r in OS. rewrite OS, Z.pow_0_r, Z.mod_1_r.
      destruct (enum_take0_ok (canonical (codes ys)) _ en _ L) as (low & -> & L'). eauto.
    - destruct (enum_take_ok (codes ys) en (off i) st (code_len (W ys i)) L) as (low & -> & L'); [lia| |].
      { pose proof (off_range i). lia. }
      rewrite g_code by auto. rewrite OS. eauto. }
  destruct T as (low & st' & -> & L'). exists u', low. split; [auto|]. split; [rewrite u64_small; lia|].
  split; [auto|]. unfold geinv. cbn [ge_idx ge_pos ge_high ge_low].
  split; [auto|]. split; [auto|]. split; [|eauto].
  exists u', (hpos (i + 1), true). split; [auto|]. split; [auto|].
  destruct S as [S1 S2]. unfold ustart. cbn [fst snd Z.b2z].
  replace (Z.to_nat (hpos (i + 1) + 1)) with (Datatypes.S (Z.to_nat (hpos (i + 1)))) by lia.
  rewrite (rank_S _ _ _ _ S1), S2. cbn [eqb]. lia.
Qed.

End Gamma.

(** ** gamma_vector *)

Lemma gv_loop_ok gr : forall ints high low l, Forall (fun x => 0 <= x < 2 ^ 64 - 1) ints ->
  binv low l -> forall lh, d64_inv high lh ->
  exists high' low', gv_loop gr ints high low = Ok (high', low') /\
    append1_all gr high (zs_of 0 ints) = Ok high' /\ binv low' (l ++ codes ints).
Proof.
  induction ints as [|x ints IH]; intros high low l F B lh I.
  - exists high, low. cbn. rewrite app_nil_r. auto.
  - inversion F as [|? ? Hx F']; subst. cbn [gv_loop zs_of map append1_all].
    pose proof (code_len_range x Hx) as R.
    rewrite u64_small by lia. rewrite msb_correct by (unfold is_u64; lia). cbn [bind]. fold (code_len x).
    rewrite u8_small by lia. rewrite shl_ok by lia. cbn [bind].
    destruct (append_code gr low l x B Hx) as (low1 & -> & B1). cbn [bind]. rewrite Z.sub_0_r.
    destruct (append1_ok gr high lh (code_len x) I ltac:(lia)) as (high1 & -> & I1). cbn [bind].
    destruct (IH high1 low1 _ F' B1 _ I1) as (high2 & low2 & -> & E & B2).
    exists high2, low2. split; [auto|]. split; [exact E|]. unfold codes. cbn [flat_map].
    rewrite app_assoc. auto.
Qed.

Lemma gv_build_ok gr ints : Forall (fun x => 0 <= x < 2 ^ 64 - 1) ints -> zlen ints < 2 ^ 57 ->
  exists g, gv_build gr ints = Ok g /\ gamma_ok 0 g ints.
Proof.
  intros F L. unfold gv_build. destruct (new_builder_ok 0 false ltac:(lia)) as (low & -> & B). cbn [bind].
  change (repeat false (Z.to_nat 0)) with (@nil bool) in B.
  assert (F' : Forall (fun y => 0 <= y < 2 ^ 64 - 1 /\ 0 <= code_len y) ints).
  { eapply Forall_impl; [|exact F]. cbv beta. intros y Hy. split; auto. apply Z.log2_nonneg. }
  destruct (d64_all gr (0 :: zs_of 0 ints)) as (b & d & E & D & D1 & D2 & D3).
  { constructor; [lia|]. apply zs_range; auto; lia. }
  cbn [append1_all] in E. destruct (append1_ok gr d64_new [] 0 d64_new_ok ltac:(lia)) as (h0 & E0 & I0).
  rewrite E0 in *. cbn [bind] in *.
  destruct (gv_loop_ok gr ints h0 low [] F B _ I0) as (h1 & low1 & -> & E1 & B1). cbn [bind].
  rewrite E in E1. injection E1 as <-. rewrite D. cbn [bind]. rewrite (binv_bv _ _ B1). cbn [bind app].
  eexists. split; [reflexivity|]. unfold gamma_ok. cbn [g_high g_low].
  unfold zs_of in *. rewrite zlen_cons, zlen_map in *. auto 10.
Qed.

Lemma gv_get_ok g ints i : gamma_ok 0 g ints -> 0 <= i < zlen ints -> gv_get g i = Ok (W ints i).
Proof.
  intros OK Hi. unfold gv_get. assert (K : 0 = 0 \/ 0 = 1) by auto.
  rewrite (g_select _ _ _ K OK) by lia. cbn [bind]. unfold gv_retrieve.
  destruct (g_len _ _ _ K OK i Hi) as (-> & w & -> & El). cbn [bind]. rewrite assert_true by auto.
  rewrite El. cbn [bind]. rewrite Z.sub_0_r. destruct (g_elem _ _ _ OK i Hi) as [Hx R].
  rewrite shl_ok by lia. cbn [bind].
  assert (Ho : sub64 (hpos 0 ints i) i = off ints i).
  { pose proof (off_range _ _ _ K OK i). unfold hpos. rewrite sub64_ok; lia. }
  rewrite Ho, (g_chunk _ _ _ K OK) by auto. cbn [bind].
  rewrite (g_value _ _ _ K OK) by auto. rewrite sub64_ok by lia. f_equal. lia.
Qed.

Lemma gv_enum_new_ok g ints i : gamma_ok 0 g ints -> 0 <= i < zlen ints ->
  exists e, gv_enum_new g i = Ok e /\ geinv 0 ints e i.
Proof.
  intros OK Hi. unfold gv_enum_new. assert (K : 0 = 0 \/ 0 = 1) by auto.
  rewrite (g_size _ _ _ OK). replace (i <? zlen ints) with true by lia.
  rewrite (g_select _ _ _ K OK) by lia. cbn [bind].
  assert (Ho : sub64 (hpos 0 ints i) i = off ints i).
  { pose proof (off_range _ _ _ K OK i). unfold hpos. rewrite sub64_ok; lia. }
  destruct (ge_new_ok _ _ _ K OK i _ Hi Ho) as (u & -> & I). cbn [bind]. eauto.
Qed.

Lemma gv_enum_next_ok g ints e i : gamma_ok 0 g ints -> 0 <= i < zlen ints -> geinv 0 ints e i ->
  exists e', gv_enum_next g e = Ok (W ints i, e') /\ geinv 0 ints e' (i + 1).
Proof.
  intros OK Hi I. unfold gv_enum_next. assert (K : 0 = 0 \/ 0 = 1) by auto.
  destruct (ge_next_ok _ _ _ K OK e i Hi I) as (A & u & low & -> & El & El2 & I'). rewrite assert_true by auto.
  cbn [bind]. rewrite El, Z.sub_0_r, El2. cbn [bind]. destruct (g_elem _ _ _ OK i Hi) as [Hx R].
  rewrite shl_ok by lia. cbn [bind]. eexists. split; [|exact I'].
  rewrite Z.lor_comm, (g_value _ _ _ K OK) by auto. rewrite sub64_ok by lia. do 2 f_equal. lia.
Qed.

Lemma gv_run_ok g ints : gamma_ok 0 g ints -> forall n e i, 0 <= i -> i + Z.of_nat n <= zlen ints ->
  geinv 0 ints e i -> gv_run g e n = Ok (window ints (Z.to_nat i) n).
Proof.
  intros OK. induction n as [|n IH]; intros e i Hi Hn I; [reflexivity|]. cbn [gv_run].
  destruct (gv_enum_next_ok g ints e i OK ltac:(lia) I) as (e' & -> & I'). cbn [bind].
  rewrite (IH e' (i + 1) ltac:(lia) ltac:(lia) I'). cbn [bind]. unfold window.
  rewrite (skipn_nth 0 ints (Z.to_nat i)) by (unfold zlen in Hn; lia). cbn [firstn].
  unfold W. replace (i <? 0) with false by lia. replace (Z.to_nat (i + 1)) with (S (Z.to_nat i)) by lia. reflexivity.
Qed.

Lemma gv_all gr ints : Forall (fun x => 0 <= x < 2 ^ 64 - 1) ints -> zlen ints < 2 ^ 57 -> exists g,
  gv_build gr ints = Ok g /\ gamma_size g = zlen ints /\
  (forall i x, nth_error ints i = Some x -> gv_get g (Z.of_nat i) = Ok x) /\
  (forall i, (i < length ints)%nat -> exists e, gv_enum_new g (Z.of_nat i) = Ok e /\
     forall k, (i + k <= length ints)%nat -> gv_run g e k = Ok (window ints i k)).
Proof.
  intros F L. destruct (gv_build_ok gr ints F L) as (g & E & OK). exists g. split; [auto|].
  split; [apply (g_size _ _ _ OK)|]. split.
  - intros i x Hx. apply W_of_nth in Hx. destruct Hx as [Hi <-]. apply gv_get_ok; auto.
  - intros i Hi. destruct (gv_enum_new_ok g ints (Z.of_nat i) OK) as (e & -> & I); [unfold zlen; lia|].
    exists e. split; [auto|]. intros k Hk. rewrite (gv_run_ok g ints OK k e (Z.of_nat i)); auto; try (unfold zlen; lia).
    rewrite Nat2Z.id. reflexivity.
Qed.

(** ** gamma_bit_vector: the codes are those of [x + 1] *)

Definition succs (ints : list Z) : list Z := map (fun x => x + 1) ints.

Lemma W_succs ints i : 0 <= i < zlen ints -> W (succs ints) i = W ints i + 1.
Proof.
  intros Hi. unfold W, succs. replace (i <? 0) with false by lia.
  rewrite nth_indep with (d' := 0 + 1) by (rewrite map_length; unfold zlen in Hi; lia).
  apply (map_nth (fun x => x + 1)).
Qed.
Lemma zlen_succs ints : zlen (succs ints) = zlen ints. Proof. apply zlen_map. Qed.

Lemma succ_len x : 0 <= x < 2 ^ 64 - 2 -> 1 <= code_len (x + 1) <= 63.
Proof.
  intros H. pose proof (code_len_range (x + 1)). split; [|lia].
  unfold code_len. apply Z.log2_le_pow2; lia.
Qed.

Lemma gb_loop_ok gr : forall ints high low l, Forall (fun x => 0 <= x < 2 ^ 64 - 2) ints ->
  binv low l -> forall lh, d64_inv high lh ->
  exists high' low', gb_loop gr ints high low = Ok (high', low') /\
    append1_all gr high (zs_of 1 (succs ints)) = Ok high' /\ binv low' (l ++ codes (succs ints)).
Proof.
  induction ints as [|x ints IH]; intros high low l F B lh I.
  - exists high, low. cbn. rewrite app_nil_r. auto.
  - inversion F as [|? ? Hx F']; subst. cbn [gb_loop zs_of succs map append1_all].
    pose proof (succ_len x Hx) as R.
    rewrite u64_small by lia. replace (x + 2) with (x + 1 + 1) by lia.
    rewrite msb_correct by (unfold is_u64; lia). cbn [bind]. fold (code_len (x + 1)).
    rewrite u8_small by lia. rewrite assert_true by lia.
    destruct (append1_ok gr high lh (code_len (x + 1) - 1) I ltac:(lia)) as (high1 & -> & I1). cbn [bind].
    rewrite shl_ok by lia. cbn [bind].
    destruct (append_code gr low l (x + 1) B ltac:(lia)) as (low1 & -> & B1). cbn [bind].
    destruct (IH high1 low1 _ F' B1 _ I1) as (high2 & low2 & -> & E & B2).
    exists high2, low2. split; [auto|]. split; [exact E|]. unfold codes. cbn [flat_map].
    rewrite app_assoc. auto.
Qed.

Lemma gb_build_ok gr ints : Forall (fun x => 0 <= x < 2 ^ 64 - 2) ints -> zlen ints < 2 ^ 57 ->
  exists g, gb_build gr ints = Ok g /\ gamma_ok 1 g (succs ints).
Proof.
  intros F L. unfold gb_build. destruct (new_builder_ok 0 false ltac:(lia)) as (low & -> & B). cbn [bind].
  change (repeat false (Z.to_nat 0)) with (@nil bool) in B.
  assert (F' : Forall (fun y => 0 <= y < 2 ^ 64 - 1 /\ 1 <= code_len y) (succs ints)).
  { unfold succs. apply Forall_forall. intros y Hy. apply in_map_iff in Hy. destruct Hy as (x & <- & Hx).
    rewrite Forall_forall in F. specialize (F x Hx). pose proof (succ_len x F). lia. }
  destruct (d64_all gr (0 :: zs_of 1 (succs ints))) as (b & d & E & D & D1 & D2 & D3).
  { constructor; [lia|]. apply zs_range; auto; lia. }
  cbn [append1_all] in E. destruct (append1_ok gr d64_new [] 0 d64_new_ok ltac:(lia)) as (h0 & E0 & I0).
  rewrite E0 in *. cbn [bind] in *.
  destruct (gb_loop_ok gr ints h0 low [] F B _ I0) as (h1 & low1 & -> & E1 & B1). cbn [bind].
  rewrite E in E1. injection E1 as <-. rewrite D. cbn [bind]. rewrite (binv_bv _ _ B1). cbn [bind app].
  eexists. split; [reflexivity|]. unfold gamma_ok. cbn [g_high g_low].
  unfold zs_of in *. rewrite zlen_cons, zlen_map, zlen_succs in *. auto 10.
Qed.

Lemma gb_get_ok g ints i : gamma_ok 1 g (succs ints) -> 0 <= i < zlen ints -> gb_get g i = Ok (W ints i).
Proof.
  intros OK Hi. unfold gb_get. assert (K : 1 = 0 \/ 1 = 1) by auto.
  assert (Hi' : 0 <= i < zlen (succs ints)) by (rewrite zlen_succs; auto).
  rewrite (g_select _ _ _ K OK) by lia. cbn [bind]. unfold gb_retrieve.
  destruct (g_len _ _ _ K OK i Hi') as (-> & w & -> & El). cbn [bind]. rewrite assert_true by auto.
  rewrite El. cbn [bind]. destruct (g_elem _ _ _ OK i Hi') as [Hx R].
  replace (code_len (W (succs ints) i) - 1 + 1) with (code_len (W (succs ints) i)) by lia.
  replace (hpos 1 (succs ints) i) with (off (succs ints) i) by (unfold hpos; lia).
  rewrite (g_chunk _ _ _ K OK) by auto. cbn [bind]. rewrite shl_ok by lia. cbn [bind].
  rewrite (g_value _ _ _ K OK) by auto. rewrite W_succs in * by auto. rewrite sub64_ok; [f_equal; lia|].
  destruct OK as (F & _). rewrite Forall_forall in F. specialize (F (W ints i + 1)).
  assert (0 <= W ints i); [|lia].
  destruct F as [? G]; [apply In_W; exists i; rewrite W_succs by auto; auto|].
  destruct (Z.eq_dec (W ints i + 1) 0) as [E0|]; [|lia]. rewrite E0 in G. change (code_len 0) with 0 in G. lia.
Qed.

Lemma gb_enum_new_ok g ints i : gamma_ok 1 g (succs ints) -> 0 <= i < zlen ints ->
  exists e, gb_enum_new g i = Ok e /\ geinv 1 (succs ints) e i.
Proof.
  intros OK Hi. unfold gb_enum_new. assert (K : 1 = 0 \/ 1 = 1) by auto.
  assert (Hi' : 0 <= i < zlen (succs ints)) by (rewrite zlen_succs; auto).
  rewrite (g_size _ _ _ OK), zlen_succs. replace (i <? zlen ints) with true by lia.
  rewrite (g_select _ _ _ K OK) by lia. cbn [bind].
  assert (Ho : hpos 1 (succs ints) i = off (succs ints) i) by (unfold hpos; lia).
  destruct (ge_new_ok _ _ _ K OK i _ Hi' Ho) as (u & -> & I). cbn [bind]. eauto.
Qed.

Lemma gb_enum_next_ok g ints e i : gamma_ok 1 g (succs ints) -> Forall (fun x => 0 <= x) ints ->
  0 <= i < zlen ints -> geinv 1 (succs ints) e i ->
  exists e', gb_enum_next g e = Ok (W ints i, e') /\ geinv 1 (succs ints) e' (i + 1).
Proof.
  intros OK F Hi I. unfold gb_enum_next. assert (K : 1 = 0 \/ 1 = 1) by auto.
  assert (Hi' : 0 <= i < zlen (succs ints)) by (rewrite zlen_succs; auto).
  destruct (ge_next_ok _ _ _ K OK e i Hi' I) as (A & u & low & -> & El & El2 & I'). rewrite assert_true by auto.
  cbn [bind]. rewrite El. replace (code_len (W (succs ints) i) - 1 + 1) with (code_len (W (succs ints) i)) by lia.
  rewrite El2. cbn [bind]. destruct (g_elem _ _ _ OK i Hi') as [Hx R].
  rewrite shl_ok by lia. cbn [bind]. eexists. split; [|exact I'].
  rewrite Z.lor_comm, (g_value _ _ _ K OK) by auto. rewrite W_succs in * by auto.
  rewrite Forall_forall in F. assert (0 <= W ints i) by (apply F, In_W; eauto).
  rewrite sub64_ok by lia. do 2 f_equal. lia.
Qed.

Lemma gb_skip_ok g ints : gamma_ok 1 g (succs ints) -> Forall (fun x => 0 <= x) ints ->
  forall n e i, 0 <= i -> i + Z.of_nat n <= zlen ints -> geinv 1 (succs ints) e i ->
  exists e', gb_enum_skip g e n = Ok e' /\ geinv 1 (succs ints) e' (i + Z.of_nat n).
Proof.
  intros OK F. induction n as [|n IH]; intros e i Hi Hn I.
  - exists e. rewrite Z.add_0_r. auto.
  - cbn [gb_enum_skip]. destruct (gb_enum_next_ok g ints e i OK F ltac:(lia) I) as (e1 & -> & I1). cbn [bind].
    destruct (IH e1 (i + 1) ltac:(lia) ltac:(lia) I1) as (e2 & -> & I2). exists e2. split; [auto|].
    replace (i + Z.of_nat (S n)) with (i + 1 + Z.of_nat n) by lia. auto.
Qed.

Lemma gb_run_ok g ints : gamma_ok 1 g (succs ints) -> Forall (fun x => 0 <= x) ints ->
  forall os e i rs, 0 <= i <= zlen ints -> gop_spec (skipn (Z.to_nat i) ints) os = Some rs ->
  geinv 1 (succs ints) e i -> gb_run g e os = Ok rs.
Proof.
  intros OK F. induction os as [|o os IH]; intros e i rs Hi S I; [cbn in *; congruence|].
  destruct o as [|n]; cbn [gb_run gop_spec] in *.
  - destruct (Z.eq_dec i (zlen ints)) as [E|].
    { rewrite skipn_all2 in S by (unfold zlen in E; lia). discriminate. }
    rewrite (skipn_nth 0) in S by (unfold zlen in *; lia).
    replace (Datatypes.S (Z.to_nat i)) with (Z.to_nat (i + 1)) in S by lia.
    destruct (gb_enum_next_ok g ints e i OK F ltac:(lia) I) as (e1 & -> & I1). cbn [bind].
    destruct (gop_spec (skipn (Z.to_nat (i + 1)) ints) os) as [rs'|] eqn:E; [|discriminate].
    rewrite (IH e1 (i + 1) rs' ltac:(lia) E I1). cbn in S. injection S as <-. cbn [bind].
    unfold W. replace (i <? 0) with false by lia. reflexivity.
  - rewrite skipn_length in S. destruct (Nat.leb_spec n (length ints - Z.to_nat i)); [|discriminate].
    destruct (gb_skip_ok g ints OK F n e i ltac:(lia)) as (e1 & -> & I1); auto.
    { unfold zlen in *. lia. }
    cbn [bind]. apply (IH e1 (i + Z.of_nat n) rs); auto; [unfold zlen in *; lia|].
    rewrite skipn_plus in S. rewrite <- S. do 2 f_equal. lia.
Qed.

Lemma gb_all gr ints : Forall (fun x => 0 <= x < 2 ^ 64 - 2) ints -> zlen ints < 2 ^ 57 -> exists g,
  gb_build gr ints = Ok g /\ gamma_size g = zlen ints /\
  (forall i x, nth_error ints i = Some x -> gb_get g (Z.of_nat i) = Ok x) /\
  (forall i, (i < length ints)%nat -> exists e, gb_enum_new g (Z.of_nat i) = Ok e /\
     forall os rs, gop_spec (skipn i ints) os = Some rs -> gb_run g e os = Ok rs).
Proof.
  intros F L. destruct (gb_build_ok gr ints F L) as (g & E & OK). exists g. split; [auto|].
  assert (F0 : Forall (fun x => 0 <= x) ints) by (eapply Forall_impl; [|exact F]; cbv beta; intros; lia).
  split; [rewrite (g_size _ _ _ OK); apply zlen_succs|]. split.
  - intros i x Hx. apply W_of_nth in Hx. destruct Hx as [Hi <-]. apply gb_get_ok; auto.
  - intros i Hi. destruct (gb_enum_new_ok g ints (Z.of_nat i) OK) as (e & -> & I); [unfold zlen; lia|].
    exists e. split; [auto|]. intros os rs Hs. apply (gb_run_ok g ints OK F0 os e (Z.of_nat i)); auto.
    + unfold zlen; lia.
    + rewrite Nat2Z.id. auto.
Qed.

Lemma next_at_end_false :
  ~ (forall gr ints g e, Forall (fun x => 0 <= x < 2 ^ 64 - 1) ints -> gv_build gr ints = Ok g ->
     gv_enum_new g (zlen ints) = Ok e -> gv_enum_next g e = Ub AssertFailed).
Proof.
  intros H.
  destruct (gv_build (fun c _ => 2 * c) []) as [g|] eqn:E; [|vm_compute in E; discriminate].
  specialize (H _ [] g (mk_ge 0 0 None None) ltac:(constructor) E).
  vm_compute in E. injection E as <-. specialize (H eq_refl). vm_compute in H. discriminate.
Qed.
