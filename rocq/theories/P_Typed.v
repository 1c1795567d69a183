(** The members of the structures the constructors build are values of their C++ types. *)
From Verif Require Import Base Spec Lib S_BitVector P_BvLib P_RsBuild P_RsQuery P_Darray P_RsGen.
From Verif Require Import P_BvRank P_Builder P_BitVector P_EliasFano P_EliasFano2 P_Gamma P_Util P_BpBuild P_BpSpec P_Cartesian P_Mapper.
From Verif Require Import M_Broadword M_BitVector M_RsBitVector M_Darray M_EliasFano M_Gamma M_Util M_Bp M_Cartesian M_Topk.
From Verif Require Import S_Darray S_EliasFano S_Gamma S_Util S_Bp S_Cartesian M_Mapper S_Mapper.

Notation t64 := (in_type 8 false).
Notation ti64 := (in_type 8 true).
Notation t16 := (in_type 2 false).
Notation ti16 := (in_type 2 true).
Notation ti32 := (in_type 4 true).

Lemma t64_intro x : 0 <= x < 2 ^ 64 -> t64 x.
Proof. intros H. unfold in_type. change (8 * 8) with 64. exact H. Qed.
Lemma Forall_W (P : Z -> Prop) xs : (forall i, 0 <= i < zlen xs -> P (W xs i)) -> Forall P xs.
Proof.
  induction xs as [|x xs IH]; intros H; constructor.
  - specialize (H 0). rewrite zlen_cons in H. pose proof (zlen_nonneg xs). specialize (H ltac:(lia)). exact H.
  - apply IH. intros i Hi. specialize (H (i + 1)). rewrite zlen_cons in H. specialize (H ltac:(lia)).
    rewrite W_cons in H. replace (i + 1 =? 0) with false in H by lia. replace (i + 1 - 1) with i in H by lia. exact H.
Qed.
Lemma pack_t64 l : Forall t64 (pack l).
Proof. eapply Forall_impl; [|exact (proj1 (words_ok_pack l))]. intros x Hx. apply t64_intro. exact Hx. Qed.

(** ** rs_bit_vector *)
Lemma G_count l k : G false l k <= Z.of_nat (count true l).
Proof.
  destruct (Z_le_gt_dec (zlen (pack l)) k) as [H|H]; [rewrite G_words by lia; lia|].
  rewrite <- (G_words l (zlen (pack l))) by lia. apply G_mono. lia.
Qed.
Lemma pairs_typed l pairs : zlen l < 2 ^ 64 -> build_pairs (pack l) = Ok pairs ->
  Forall t64 pairs /\ zlen pairs = 2 * nb l + 2.
Proof.
  intros Hl E. destruct (build_pairs_ok l) as (p & E' & L & (P1 & P2) & P3). rewrite E in E'. injection E' as <-.
  split; [|exact L]. apply Forall_W. intros i Hi. rewrite L in Hi. pose proof (nb_nonneg l) as Nb.
  pose proof (Z.div_mod i 2 ltac:(lia)) as D. pose proof (Z.mod_pos_bound i 2 ltac:(lia)) as M.
  apply t64_intro. destruct (Z.eq_dec (i mod 2) 0) as [Z0|Z1].
  - replace i with (2 * (i / 2)) by lia. rewrite P1 by lia.
    pose proof (G_nonneg false l (8 * (i / 2))). pose proof (G_count l (8 * (i / 2))).
    pose proof (count_le true l). unfold zlen in Hl. lia.
  - replace i with (2 * (i / 2) + 1) by lia. destruct (Z_lt_ge_dec (i / 2) (nb l)) as [C|C].
    + rewrite P2 by lia. pose proof (H9_range false l (i / 2) 7 ltac:(lia) ltac:(lia)).
      change (9 * Z.of_nat 7) with 63 in *. lia.
    + replace (i / 2) with (nb l) by lia. rewrite P3. lia.
Qed.

Lemma hints_typed neg pairs N : 0 <= N < 2 ^ 64 -> forall n i th hints hints',
  hints_gen_loop neg pairs n i th hints = Ok hints' -> 0 <= i -> i + Z.of_nat n <= N -> Forall t64 hints ->
  Forall t64 hints' /\ zlen hints' <= zlen hints + Z.of_nat n.
Proof.
  intros HN. induction n as [|n IH]; intros i th hints hints' E Hi Hn F; cbn [hints_gen_loop] in E.
  - injection E as <-. split; [exact F|lia].
  - destruct (block_rank_gen neg pairs (i + 1)) as [r|]; [|discriminate]. cbn [bind] in E.
    destruct (th <? r).
    + apply IH in E; [|lia|lia|]. rewrite zlen_app in E. change (zlen [i]) with 1 in E. destruct E; split; [auto|lia].
      apply Forall_app. split; [exact F|]. constructor; [|constructor]. apply t64_intro. lia.
    + apply IH in E; [|lia|lia|auto]. destruct E; split; [auto|lia].
Qed.
Lemma num_blocks_nb l pairs : zlen pairs = 2 * nb l + 2 -> num_blocks pairs = nb l.
Proof.
  intros L. pose proof (nb_nonneg l). unfold num_blocks. rewrite L. replace (2 * nb l + 2) with ((nb l + 1) * 2) by lia.
  rewrite Z.div_mul by lia. rewrite sub64_ok by lia. lia.
Qed.
Lemma nb_small l : zlen l < 2 ^ 64 -> nb l < 2 ^ 56.
Proof. intros H. pose proof (nb_words l). pose proof (words_bits l). lia. Qed.
Lemma hints_gen_typed neg l pairs hints : zlen l < 2 ^ 64 -> zlen pairs = 2 * nb l + 2 ->
  hints_gen neg pairs = Ok hints -> Forall t64 hints /\ zlen hints <= nb l + 1.
Proof.
  intros Hl L E. pose proof (nb_nonneg l). pose proof (nb_small l Hl). unfold hints_gen in E. rewrite (num_blocks_nb l) in E by auto.
  destruct (hints_gen_loop neg pairs (Z.to_nat (nb l)) 0 select_ones_per_hint []) as [hs|] eqn:E1; [|discriminate]. cbn [bind] in E. injection E as <-.
  destruct (hints_typed neg pairs (nb l) ltac:(lia) _ _ _ _ _ E1) as [F Lh]; [lia|lia|constructor|].
  change (zlen (@nil Z)) with 0 in Lh. split; [|rewrite zlen_app; change (zlen [nb l]) with 1; lia].
  apply Forall_app. split; [exact F|]. constructor; [|constructor]. apply t64_intro. lia.
Qed.
Lemma rs_typed l h h0 rs : zlen l < 2 ^ 64 -> rs_build (canonical l) h h0 = Ok rs ->
  rs_bv rs = canonical l /\ Forall t64 (rs_pairs rs) /\ zlen (rs_pairs rs) = 2 * nb l + 2 /\
  Forall t64 (rs_hints rs) /\ zlen (rs_hints rs) <= nb l + 1 /\ Forall t64 (rs_hints0 rs) /\ zlen (rs_hints0 rs) <= nb l + 1.
Proof.
  intros Hl E. pose proof (nb_nonneg l). rewrite rs_build_eq in E. unfold rs_build_gen, canonical in E. cbn [bv_words] in E.
  destruct (build_pairs (pack l)) as [pairs|] eqn:Ep; [|discriminate]. cbn [bind] in E.
  destruct (pairs_typed l pairs Hl Ep) as [Fp Lp].
  assert (Q : forall (c neg : bool) hs, (if c then hints_gen neg pairs else Ok []) = Ok hs -> Forall t64 hs /\ zlen hs <= nb l + 1).
  { intros [] neg hs Eh; [eapply hints_gen_typed; eauto|]. injection Eh as <-. split; [constructor|]. rewrite zlen_nil. lia. }
  destruct (if h then hints_gen false pairs else Ok []) as [hs|] eqn:E1; [|discriminate]. cbn [bind] in E.
  destruct (if h0 then hints_gen true pairs else Ok []) as [hs0|] eqn:E2; [|discriminate]. cbn [bind] in E.
  injection E as <-. cbn [rs_bv rs_pairs rs_hints rs_hints0]. apply Q in E1. apply Q in E2. tauto.
Qed.

(** ** darray *)
Lemma i64_type x : ti64 (i64 x).
Proof. unfold in_type, i64. change (8 * 8 - 1) with 63. pose proof (Z.mod_pos_bound (x + 2 ^ 63) (2 ^ 64)). lia. Qed.
Lemma u16_type x : t16 (u16 x).
Proof. unfold in_type, u16. change (8 * 2) with 16. apply Z.mod_pos_bound. lia. Qed.

Lemma sub_loop_typed ovf cur front : forall fuel i subs subs', sub_loop fuel ovf cur front i subs = Ok subs' ->
  Forall t16 subs -> Forall t16 subs'.
Proof.
  induction fuel as [|fuel IH]; intros i subs subs' E F; cbn [sub_loop] in E; destruct (i <? zlen cur); try discriminate;
    try (injection E as <-; exact F).
  destruct ovf.
  - cbn [bind] in E. apply IH in E; [exact E|]. apply Forall_app. split; [exact F|]. constructor; [apply u16_type|constructor].
  - destruct (rd cur i) as [p|]; [|discriminate]. cbn [bind] in E. apply IH in E; [exact E|]. apply Forall_app. split; [exact F|].
    constructor; [apply u16_type|constructor].
Qed.

Definition dtyped (st : dstate) : Prop :=
  Forall t64 (d_cur st) /\ Forall ti64 (d_blocks st) /\ Forall t16 (d_subs st) /\ Forall t64 (d_ovf st).
Lemma flush_typed st st' : flush_cur_block st = Ok st' -> dtyped st -> dtyped st'.
Proof.
  intros E (T1 & T2 & T3 & T4). unfold flush_cur_block in E.
  destruct (rd (d_cur st) (zlen (d_cur st) - 1)) as [back|]; [|discriminate]. cbn [bind] in E.
  destruct (rd (d_cur st) 0) as [front|]; [|discriminate]. cbn [bind] in E.
  destruct (sub64 back front <? max_in_block_distance); (destruct (sub_loop _ _ _ _ _ _) as [subs|] eqn:Es; [|discriminate]);
    cbn [bind] in E; injection E as <-; unfold dtyped; cbn [d_cur d_blocks d_subs d_ovf];
    (split; [constructor|]); (split; [apply Forall_app; split; [exact T2|constructor; [|constructor]]|]).
  - apply i64_type.
  - split; [eapply sub_loop_typed; eauto|exact T4].
  - pose proof (i64_type (zlen (d_ovf st))) as Q. unfold in_type in *. lia.
  - split; [eapply sub_loop_typed; eauto|]. apply Forall_app. auto.
Qed.
Lemma add_all_typed ps : forall st st', add_all st ps = Ok st' -> Forall t64 ps -> dtyped st -> dtyped st'.
Proof.
  induction ps as [|p ps IH]; intros st st' E F T; cbn [add_all] in E; [injection E as <-; exact T|].
  inversion_clear F as [|? ? Hp F']. unfold add_position in E.
  set (st1 := mk_dstate (d_cur st ++ [p]) (d_blocks st) (d_subs st) (d_ovf st) (d_n st)) in E.
  assert (T1 : dtyped st1).
  { destruct T as (A & B & C & D). split; [|auto]. unfold st1. cbn [d_cur]. apply Forall_app. split; [exact A|]. constructor; [exact Hp|constructor]. }
  destruct (zlen (d_cur st1) =? d_block_size).
  - destruct (flush_cur_block st1) as [st2|] eqn:E2; [|discriminate]. cbn [bind] in E. apply IH in E; auto.
    apply (flush_typed _ _ E2 T1).
  - cbn [bind] in E. apply IH in E; auto.
Qed.
Lemma darray_typed neg l d : zlen l < 2 ^ 63 -> darray_build neg (canonical l) = Ok d ->
  let n := Z.of_nat (count (negb neg) l) in
  da_positions d = n /\ Forall ti64 (da_blocks d) /\ Forall t16 (da_subs d) /\ Forall t64 (da_ovf d) /\
  zlen (da_blocks d) = (n + 1023) / 1024 /\ zlen (da_subs d) = (n + 31) / 32 /\ zlen (da_ovf d) <= n.
Proof.
  intros H E n. unfold n. rewrite <- pos_count. clear n. pose proof (pos_good neg l H) as Gd. set (ps := pos_of neg l) in *.
  unfold darray_build, canonical in E. cbn [bv_words bv_size] in E. rewrite dwords_all in E. fold ps in E.
  assert (I0 : dinv [] (mk_dstate [] [] [] [] 0)).
  { unfold dinv. change (zlen (@nil Z) / 1024) with 0. cbn [d_cur d_blocks d_subs d_ovf d_n].
    change (zlen (@nil Z)) with 0. split; [reflexivity|]. repeat (split; [lia|]). intros. lia. }
  destruct (add_all_ok ps [] _ I0 Gd) as (st & E1 & I1 & I2 & I3 & I4 & I5 & I6).
  assert (T : dtyped st).
  { apply (add_all_typed _ _ _ E1).
    - apply Forall_W. intros i Hi. apply t64_intro. destruct Gd as (G1 & G2 & G3). specialize (G1 i i ltac:(lia) ltac:(lia)). specialize (G2 i Hi). lia.
    - repeat split; constructor. }
  cbn [app] in *. rewrite E1 in E. cbn [bind] in E. clear E1 I0.
  pose proof (zlen_nonneg ps) as N. set (j := zlen ps / 1024) in *.
  assert (Hj : 0 <= j /\ 1024 * j <= zlen ps < 1024 * j + 1024) by (unfold j; dlia).
  assert (Lc : zlen (d_cur st) = zlen ps - 1024 * j) by (rewrite I1, zlen_skipn; lia).
  rewrite Lc in E. destruct (Z.eqb_spec (zlen ps - 1024 * j) 0) as [C|C].
  - cbn [bind] in E. injection E as <-. cbn [da_positions da_blocks da_subs da_ovf]. destruct T as (T1 & T2 & T3 & T4).
    split; [exact I2|]. split; [exact T2|]. split; [exact T3|]. split; [exact T4|]. rewrite I3, I4.
    split; [clear - C Hj; dlia|]. split; [clear - C Hj; dlia|lia].
  - destruct Gd as (G1 & G2 & G3).
    destruct (flush_ok ps j (d_blocks st) (d_subs st) (d_ovf st) (d_n st))
      as (b & s & o & E2 & Ls & Lo & B); auto; try lia.
    destruct (flush_cur_block st) as [st2|] eqn:E3; [|discriminate]. cbn [bind] in E. injection E as <-.
    pose proof (flush_typed _ _ E3 T) as (T1 & T2 & T3 & T4).
    destruct st as [cu bl su ov n]. cbn [d_cur d_blocks d_subs d_ovf d_n] in *. subst cu. rewrite E2 in E3. injection E3 as <-.
    cbn [da_positions da_blocks da_subs da_ovf d_cur d_blocks d_subs d_ovf d_n] in *.
    split; [exact I2|]. split; [exact T2|]. split; [exact T3|]. split; [exact T4|].
    rewrite !zlen_app in *. change (zlen [b]) with 1. rewrite I3, I4, Ls.
    split; [clear - C Hj; dlia|]. split; [clear - C Hj; dlia|lia].
Qed.

(** ** The positions stored for blocks that span at least 2^16: at most one for 64 bits *)
Definition incr (xs : list Z) : Prop := forall i j, 0 <= i < j -> j < zlen xs -> W xs i < W xs j.
Definition within (B N : Z) (xs : list Z) : Prop := forall i, 0 <= i < zlen xs -> B <= W xs i < N.
Lemma incr_tail c ps : incr (c ++ ps) -> incr ps.
Proof.
  intros H i j Hi Hj. specialize (H (zlen c + i) (zlen c + j)). rewrite zlen_app in H. pose proof (zlen_nonneg c).
  specialize (H ltac:(lia) ltac:(lia)). rewrite !W_app in H. replace (zlen c + i <? zlen c) with false in H by lia.
  replace (zlen c + j <? zlen c) with false in H by lia. replace (zlen c + i - zlen c) with i in H by lia.
  replace (zlen c + j - zlen c) with j in H by lia. exact H.
Qed.
Lemma within_tail B N c ps : within B N (c ++ ps) -> within B N ps.
Proof.
  intros H i Hi. specialize (H (zlen c + i)). rewrite zlen_app in H. pose proof (zlen_nonneg c). specialize (H ltac:(lia)).
  rewrite W_app in H. replace (zlen c + i <? zlen c) with false in H by lia. replace (zlen c + i - zlen c) with i in H by lia. exact H.
Qed.

Lemma flush_ovf N st st' ps B : N <= 2 ^ 64 -> 0 <= B <= N -> flush_cur_block st = Ok st' -> zlen (d_cur st) <= 1024 -> 64 * zlen (d_ovf st) <= B ->
  incr (d_cur st ++ ps) -> within B N (d_cur st ++ ps) ->
  d_cur st' = [] /\ exists B', 0 <= B' <= N /\ 64 * zlen (d_ovf st') <= B' /\ incr ps /\ within B' N ps.
Proof.
  intros HN HB E Hc Ho Hi Hw. pose proof (incr_tail _ _ Hi) as Hi'. pose proof (within_tail _ _ _ _ Hw) as Hw'. unfold flush_cur_block in E.
  destruct (Z.eq_dec (zlen (d_cur st)) 0) as [Z0|NZ].
  { rewrite rd_oob in E by lia. discriminate. }
  pose proof (zlen_nonneg (d_cur st)) as Nc. pose proof (zlen_nonneg ps) as Np.
  rewrite !W_rd in E by lia. cbn [bind] in E. set (c := d_cur st) in *.
  assert (Wc : forall i, 0 <= i < zlen c -> W (c ++ ps) i = W c i) by (intros i Hi0; rewrite W_app; replace (i <? zlen c) with true by lia; reflexivity).
  pose proof (Hw 0 ltac:(rewrite zlen_app; lia)) as R0. pose proof (Hw (zlen c - 1) ltac:(rewrite zlen_app; lia)) as R1. rewrite Wc in R0, R1 by lia.
  assert (Le : W c 0 <= W c (zlen c - 1)).
  { destruct (Z.eq_dec (zlen c - 1) 0) as [->|]; [lia|]. pose proof (Hi 0 (zlen c - 1) ltac:(lia) ltac:(rewrite zlen_app; lia)) as Q.
    rewrite !Wc in Q by lia. lia. }
  rewrite sub64_ok in E by lia. unfold max_in_block_distance in E.
  destruct (Z.ltb_spec (W c (zlen c - 1) - W c 0) (2 ^ 16)) as [S|S]; (destruct (sub_loop _ _ _ _ _ _) as [subs|]; [|discriminate]);
    cbn [bind] in E; injection E as <-; cbn [d_cur d_ovf]; (split; [reflexivity|]).
  - exists B. auto.
  - exists (W c (zlen c - 1) + 1). split; [lia|]. split; [rewrite zlen_app; lia|]. split; [auto|].
    intros i Hi0. specialize (Hi (zlen c - 1) (zlen c + i) ltac:(lia) ltac:(rewrite zlen_app; lia)). specialize (Hw' i Hi0).
    rewrite Wc in Hi by lia. rewrite W_app in Hi. replace (zlen c + i <? zlen c) with false in Hi by lia. replace (zlen c + i - zlen c) with i in Hi by lia. lia.
Qed.
Lemma add_all_ovf N : N <= 2 ^ 64 -> forall ps st st' B, add_all st ps = Ok st' -> 0 <= B <= N -> zlen (d_cur st) < 1024 -> 64 * zlen (d_ovf st) <= B ->
  incr (d_cur st ++ ps) -> within B N (d_cur st ++ ps) ->
  exists B', 0 <= B' <= N /\ zlen (d_cur st') < 1024 /\ 64 * zlen (d_ovf st') <= B' /\ incr (d_cur st') /\ within B' N (d_cur st').
Proof.
  intros HN. induction ps as [|p ps IH]; intros st st' B E HB Hc Ho Hi Hw; cbn [add_all] in E.
  { injection E as <-. rewrite app_nil_r in *. exists B. auto. }
  unfold add_position in E. set (st1 := mk_dstate (d_cur st ++ [p]) (d_blocks st) (d_subs st) (d_ovf st) (d_n st)) in E.
  assert (C1 : d_cur st1 = d_cur st ++ [p]) by reflexivity. assert (O1 : d_ovf st1 = d_ovf st) by reflexivity.
  replace (d_cur st ++ p :: ps) with (d_cur st1 ++ ps) in * by (rewrite C1, <- app_assoc; reflexivity).
  assert (L1 : zlen (d_cur st1) = zlen (d_cur st) + 1) by (rewrite C1, zlen_app; reflexivity).
  destruct (Z.eqb_spec (zlen (d_cur st1)) d_block_size) as [D|D]; unfold d_block_size in D.
  - destruct (flush_cur_block st1) as [st2|] eqn:E2; [|discriminate]. cbn [bind] in E.
    destruct (flush_ovf N st1 st2 ps B HN HB E2 ltac:(lia) ltac:(rewrite O1; lia) Hi Hw) as (C2 & B2 & A1 & A2 & A3 & A4).
    apply (IH _ _ B2 E A1); cbn [d_cur d_ovf]; rewrite ?C2; auto. change (zlen (@nil Z)) with 0. lia.
  - cbn [bind] in E. apply (IH _ _ B E HB); cbn [d_cur d_ovf]; auto; rewrite ?O1; lia.
Qed.
Lemma pos_incr neg l : incr (pos_of neg l).
Proof.
  intros i j Hi Hj. destruct (pos_select neg l i ltac:(lia)) as (p & -> & Hp). destruct (pos_select neg l j ltac:(lia)) as (q & -> & Hq).
  pose proof (is_select_lt _ _ _ _ _ _ Hp Hq ltac:(lia)). lia.
Qed.
Lemma darray_ovf neg l d : zlen l < 2 ^ 63 -> darray_build neg (canonical l) = Ok d -> 64 * zlen (da_ovf d) <= zlen l.
Proof.
  intros H E. pose proof (zlen_nonneg l). unfold darray_build, canonical in E. cbn [bv_words bv_size] in E. rewrite dwords_all in E.
  destruct (add_all _ _) as [st|] eqn:E1; [|discriminate]. cbn [bind] in E.
  destruct (add_all_ovf (zlen l) ltac:(lia) _ _ _ 0 E1) as (B & A1 & A2 & A3 & A4 & A5); cbn [d_cur d_ovf app]; try (change (zlen (@nil Z)) with 0; lia).
  { apply pos_incr. } { intros i Hi. apply pos_lt. exact Hi. }
  destruct (zlen (d_cur st) =? 0).
  - cbn [bind] in E. injection E as <-. cbn [da_ovf]. lia.
  - destruct (flush_cur_block st) as [st2|] eqn:E2; [|discriminate]. cbn [bind] in E. injection E as <-. cbn [da_ovf].
    destruct (flush_ovf (zlen l) st st2 [] B ltac:(lia) A1 E2 ltac:(lia) A3) as (_ & B' & C1 & C2 & _); rewrite ?app_nil_r; auto. lia.
Qed.

(** ** Images *)
Definition image {A} (M : mappable A) (x : A) : Prop :=
  typed (layout_of M) (data_of M x) /\ 8 + frozen_size (layout_of M) (data_of M x) < 2 ^ 64.
Ltac layouts := cbn [layout_of data_of bv_map rs_map bp_map ct_map da_map d64_map ef_map efl_map efc_map gamma_map nv_map tk_map
  bv_members rs_members bp_members app_members bv_datas rs_datas bp_datas app_datas
  typed typed_members frozen_size frozen_sizes] in *.
Lemma pod64 x : 0 <= x < 2 ^ 64 -> 0 < 8 /\ t64 x.
Proof. intros H. split; [lia|apply t64_intro; exact H]. Qed.
Lemma vec_any k sg xs : 0 < k -> Forall (in_type k sg) xs -> 0 < k /\ Forall (in_type k sg) xs.
Proof. auto. Qed.

Lemma bv_frozen_c l : frozen_size (layout_of bv_map) (data_of bv_map (canonical l)) = 16 + 8 * ((zlen l + 63) / 64).
Proof. layouts. cbn [canonical bv_words]. rewrite zlen_pack. lia. Qed.
Lemma bv_typed l : zlen l < 2 ^ 64 -> typed (layout_of bv_map) (data_of bv_map (canonical l)).
Proof.
  intros H. pose proof (zlen_nonneg l). layouts. cbn [canonical bv_size bv_words]. split; [apply pod64; lia|].
  split; [|exact I]. apply vec_any; [lia|apply pack_t64].
Qed.
Lemma rs_image l h h0 : zlen l < 2 ^ 64 -> exists rs, rs_build (canonical l) h h0 = Ok rs /\ image rs_map rs.
Proof.
  intros H. destruct (rs_build_ok l h h0) as (rs & E & _). exists rs. split; [exact E|].
  destruct (rs_typed l h h0 rs H E) as (E0 & A1 & A2 & A3 & A4 & A5 & A6). pose proof (nb_small l H). pose proof (zlen_nonneg l).
  split; layouts; rewrite E0; cbn [canonical bv_size bv_words].
  - split; [apply pod64; lia|]. repeat (split; [apply vec_any; [lia|auto using pack_t64]|]). exact I.
  - rewrite zlen_pack. clear E E0 A1 A3 A5. dlia.
Qed.
Lemma da_image_parts neg l d : zlen l < 2 ^ 63 -> darray_build neg (canonical l) = Ok d ->
  typed (layout_of da_map) (data_of da_map d) /\ frozen_size (layout_of da_map) (data_of da_map d) <= 60 + zlen l / 4.
Proof.
  intros H E. destruct (darray_typed neg l d H E) as (A1 & A2 & A3 & A4 & A5 & A6 & A7). pose proof (darray_ovf neg l d H E) as A8.
  pose proof (count_le (negb neg) l) as Cl. set (n := Z.of_nat (count (negb neg) l)) in *. assert (Hn : 0 <= n <= zlen l) by (unfold n, zlen; lia).
  split; layouts; rewrite ?A1.
  - split; [apply pod64; lia|]. repeat (split; [apply vec_any; [lia|auto]|]). exact I.
  - rewrite A5, A6. clear - Hn A8. dlia.
Qed.
Lemma da_image neg l : zlen l < 2 ^ 63 -> exists d, darray_build neg (canonical l) = Ok d /\ image da_map d.
Proof.
  intros H. destruct (darray_build_ok neg l H) as (d & E & _). exists d. split; [exact E|].
  destruct (da_image_parts neg l d H E). split; [auto|dlia].
Qed.

(** ** elias_fano *)
Lemma ef_image_parts b vs n m l H idx ef : ebinv b vs n m l H -> l * m < 2 ^ 64 -> ef_build b idx = Ok ef ->
  typed (layout_of ef_map) (data_of ef_map ef) /\
  frozen_size (layout_of ef_map) (data_of ef_map ef) <= 200 + 2 * (zlen H / 4) + 8 * ((zlen H + 63) / 64) + 8 * ((l * zlen vs + 63) / 64).
Proof.
  intros (R & E1 & E2 & E3 & E4 & E5 & B1 & B2) Hlm E. unfold ef_build in E. rewrite (binv_bv _ _ B1) in E. cbn [bind] in E.
  assert (BH : zlen H < 2 ^ 63) by apply R. destruct R as (R1 & R2 & _ & _ & R5 & _).
  destruct (darray_build false (canonical H)) as [d1|] eqn:D1; [|discriminate]. cbn [bind] in E.
  destruct (da_image_parts _ _ _ BH D1) as [T1 F1]. 
  destruct (if idx then darray_build true (canonical H) else Ok darray_empty) as [d0|] eqn:D0; [|discriminate]. cbn [bind] in E.
  assert (Q0 : typed (layout_of da_map) (data_of da_map d0) /\ frozen_size (layout_of da_map) (data_of da_map d0) <= 60 + zlen H / 4).
  { destruct idx; [apply (da_image_parts true); auto|]. injection D0 as <-. layouts. cbn [darray_empty da_positions da_blocks da_subs da_ovf].
    change (zlen (@nil Z)) with 0. pose proof (zlen_nonneg H). split; [|dlia]. split; [apply pod64; lia|].
    repeat (split; [apply vec_any; [lia|constructor]|]). exact I. }
  destruct Q0 as [T0 F0]. rewrite (binv_bv _ _ B2) in E. cbn [bind] in E. injection E as <-.
  assert (LP : zlen (pieces l vs) = l * zlen vs) by (rewrite zlen_pieces; lia).
  split; cbn [layout_of data_of ef_map typed typed_members frozen_size frozen_sizes ef_size ef_high ef_d1 ef_d0 ef_low ef_l].
  - split; [apply pod64; lia|]. split; [apply bv_typed; lia|]. split; [exact T1|]. split; [exact T0|].
    split; [apply bv_typed; nia|]. split; [|exact I]. split; [lia|]. unfold in_type. change (8 * 1) with 8. lia.
  - rewrite !bv_frozen_c, LP. lia.
Qed.
Lemma low_total n m : 0 <= n -> 0 <= m -> low_len n m * m <= n.
Proof.
  intros Hn Hm. unfold low_len. destruct (Z.eqb_spec m 0); cbn [orb]; [lia|]. destruct (Z.eqb_spec (n / m) 0); [lia|].
  assert (0 <= n / m) by (apply Z.div_pos; lia).
  pose proof (Z.log2_spec (n / m) ltac:(lia)) as [L _]. pose proof (Z.log2_nonneg (n / m)). pose proof (Z.pow_gt_lin_r 2 (Z.log2 (n / m)) ltac:(lia) ltac:(lia)).
  pose proof (Z.mul_div_le n m ltac:(lia)). nia.
Qed.
Lemma ef_image_size b vs n m H idx ef : 0 <= m -> ebinv b vs n m (low_len n m) H -> ef_build b idx = Ok ef ->
  typed (layout_of ef_map) (data_of ef_map ef) /\ frozen_size (layout_of ef_map) (data_of ef_map ef) < 2 ^ 63.
Proof.
  intros Hm I E. pose proof I as ((R1 & R2 & _ & _ & R5 & R6 & R7 & _) & _). pose proof (low_total n m ltac:(lia) Hm) as LT.
  destruct (ef_image_parts _ _ _ _ _ _ _ _ I ltac:(lia) E) as [T F]. split; [exact T|]. eapply Z.le_lt_trans; [exact F|]. clear F T E I.
  pose proof (zlen_nonneg H). assert (LT2 : low_len n m * zlen vs <= n) by nia. pose proof (zlen_nonneg vs).
  assert (0 <= low_len n m * zlen vs) by nia. set (x := low_len n m * zlen vs) in *. clearbody x. clear - R2 R7 LT2 H0 H2. dlia.
Qed.
Lemma ef_make_image gr n m vs idx : ef_input n m vs -> exists ef, ef_make gr n m vs idx = Ok ef /\
  typed (layout_of ef_map) (data_of ef_map ef) /\ frozen_size (layout_of ef_map) (data_of ef_map ef) < 2 ^ 63.
Proof.
  intros (Hn & Hm & H0 & Hk & F & S). unfold ef_make.
  destruct (ef_builder_new_ok gr n m (fits_simple n m Hn Hm H0)) as (b & H & -> & I). cbn [bind].
  destruct (push_all_ok gr n m _ vs b [] H I) as (b' & H' & -> & I'); auto.
  { intros i v. change (zlen (@nil Z)) with 0. lia. }
  cbn [bind]. destruct (ef_build_ok b' _ n m _ H' idx I') as (ef & E & _). exists ef. split; [exact E|].
  apply (ef_image_size b' vs n m H' idx); auto. lia.
Qed.
Lemma ef_image gr n m vs idx : ef_input n m vs -> exists ef, ef_make gr n m vs idx = Ok ef /\ image ef_map ef.
Proof. intros H. destruct (ef_make_image gr n m vs idx H) as (ef & E & T & S). exists ef. split; [exact E|]. split; [exact T|lia]. Qed.
Lemma efb_image gr b l idx : bv_of_builder b = Ok (canonical l) -> zlen l < 2 ^ 61 ->
  exists ef, ef_of_bits gr b idx = Ok ef /\ image ef_map ef.
Proof. intros Hb HL. rewrite (ef_of_bits_eq gr b l idx Hb). apply ef_image. apply positions_input. exact HL. Qed.
Lemma efl_image gr ints : Forall (fun x => 0 <= x) ints -> sum ints < 2 ^ 64 - 1 -> zlen ints < 2 ^ 61 ->
  exists c, efl_build gr ints = Ok c /\ image efl_map c.
Proof.
  intros F HS HL. pose proof (sum_nonneg ints F). pose proof (zlen_nonneg ints). rewrite efl_build_eq by auto.
  destruct (ef_make_image gr (sum ints + 1) (zlen ints) (psums 0 ints) false) as (c & -> & T & Sz).
  { split; [lia|]. split; [lia|]. split.
    { intros E. destruct ints; [cbn; lia|]. rewrite zlen_cons in E. pose proof (zlen_nonneg ints). lia. }
    rewrite zlen_psums. split; [lia|]. split; [|apply psums_sorted; auto].
    eapply Forall_impl; [|apply psums_range; auto]. cbv beta; intros; lia. }
  exists c. split; [reflexivity|]. unfold image. cbn [layout_of data_of efl_map typed typed_members frozen_size frozen_sizes].
  split; [split; [exact T|exact I]|lia].
Qed.
Lemma efc_image gr ints : Forall (fun x => 0 <= x < 2 ^ 64 - 1) ints -> zlen ints < 2 ^ 57 ->
  exists c, efc_build gr ints = Ok c /\ image efc_map c.
Proof.
  intros F HL. pose proof (zlen_nonneg ints). destruct (code_lens_range ints F) as [F2 R].
  unfold efc_build. rewrite code_sum_ok by (auto; lia). cbn [bind]. rewrite Z.add_0_l, u64_small by lia.
  set (s := sum (map code_len ints)) in *.
  destruct (ef_builder_new_ok gr (s + 1) (zlen ints + 1)) as (b & H1 & -> & I1).
  { apply fits_simple; lia. }
  cbn [bind]. destruct (new_builder_ok 0 false ltac:(lia)) as (bits & -> & B). cbn [bind].
  change (repeat false (Z.to_nat 0)) with (@nil bool) in B.
  pose proof B as (Sz & _). change (zlen (@nil bool)) with 0 in Sz. rewrite Sz.
  destruct (ef_push_ok gr b [] _ _ _ H1 0 I1) as (b1 & H2 & -> & I2).
  { change (zlen (@nil Z)) with 0. lia. } { lia. } { intros i. change (zlen (@nil Z)) with 0. lia. }
  cbn [bind app] in *.
  destruct (efc_loop_ok gr ints b1 bits [] _ _ _ [0] H2 F B I2) as (b2 & bits2 & H3 & -> & B3 & I3).
  { change (zlen [0]) with 1. lia. } { change (zlen (@nil bool)) with 0. fold s. lia. }
  { intros i Hi. change (zlen (@nil bool)) with 0. rewrite W_single. destruct (_ =? 0); lia. }
  cbn [bind app] in *. destruct (ef_build_ok b2 _ _ _ _ H3 false I3) as (ef & E & _). rewrite E. cbn [bind].
  rewrite (binv_bv _ _ B3). cbn [bind]. eexists. split; [reflexivity|].
  destruct (ef_image_size _ _ _ (zlen ints + 1) _ _ _ ltac:(lia) I3 E) as [T S3].
  pose proof (zlen_codes ints) as Lc. fold s in Lc.
  unfold image. cbn [layout_of data_of efc_map typed typed_members frozen_size frozen_sizes efc_ef efc_bits]. rewrite bv_frozen_c.
  split; [split; [exact T|]; split; [apply bv_typed; lia|exact I]|]. clear - S3 Lc R HL. dlia.
Qed.

(** ** darray64 and the gamma vectors *)
Lemma append1_all_typed gr : forall skips b b', append1_all gr b skips = Ok b' ->
  Forall t16 (d64b_subs b) -> Forall t16 (d64b_subs b').
Proof.
  induction skips as [|s skips IH]; intros b b' E H; cbn [append1_all] in E; [injection E as <-; exact H|].
  unfold append1 in E. destruct (append_bits gr (d64b_bits b) 0 s) as [b1|]; [|discriminate]. cbn [bind] in E.
  destruct (push_back gr b1 true) as [b2|]; [|discriminate]. cbn [bind] in E.
  set (blocks := if d64b_n b mod d64_block_size =? 0 then _ else _) in E.
  clearbody blocks. destruct (d64b_n b mod d64_subblock_size =? 0).
  - destruct (rd blocks _) as [p|]; [|discriminate]. cbn [bind] in E. apply IH in E; [exact E|]. cbn [d64b_subs].
    apply Forall_app. split; [apply H|]. constructor; [apply u16_type|constructor].
  - cbn [bind] in E. apply IH in E; [exact E|exact H].
Qed.
Lemma zlen_d64_seq skips : Forall (fun s => 0 <= s <= 64) skips -> zlen (d64_seq skips) <= 65 * zlen skips.
Proof.
  induction 1 as [|s skips Hs F IH]; [change (0 <= 0); lia|]. unfold d64_seq in *. cbn [flat_map].
  rewrite !zlen_app, zlen_repeat, (zlen_cons s). change (zlen [true]) with 1. lia.
Qed.
Lemma d64_parts gr skips b d : Forall (fun s => 0 <= s <= 64) skips -> zlen skips < 2 ^ 57 + 1 ->
  append1_all gr d64_new skips = Ok b -> d64_build b = Ok d ->
  (zlen (d64_blocks d) = (zlen skips + 1023) / 1024 /\ zlen (d64_subs d) = (zlen skips + 63) / 64 /\ d64_num_ones d = zlen skips /\
   d64_bits d = canonical (d64_seq skips)) /\
  typed (layout_of d64_map) (data_of d64_map d) /\ frozen_size (layout_of d64_map) (data_of d64_map d) < 2 ^ 62.
Proof.
  intros F HL E D. destruct (append1_all_ok gr skips _ _ d64_new_ok F) as (b' & E' & Iv). cbn [app] in Iv.
  rewrite E in E'. injection E' as <-. pose proof (append1_all_typed gr skips _ _ E ltac:(constructor)) as T2.
  pose proof (zlen_d64_seq skips F) as LS. destruct Iv as (I1 & I2 & I3 & I4 & I5 & _).
  assert (Lps : zlen (positions (d64_seq skips) 0) = zlen skips).
  { rewrite zlen_positions. clear. unfold zlen. f_equal. induction skips as [|s skips IH]; [reflexivity|].
    cbn [d64_seq flat_map]. rewrite !count_app, count_repeat. cbn [eqb count length]. unfold d64_seq in IH. rewrite IH. reflexivity. }
  rewrite Lps in *. unfold d64_build in D. rewrite (binv_bv _ _ I1) in D. cbn [bind] in D. injection D as <-.
  cbn [d64_blocks d64_subs d64_num_ones d64_bits]. split; [auto|]. pose proof (zlen_nonneg skips).
  assert (T1 : Forall t64 (d64b_blocks b)).
  { apply Forall_W. intros i Hi. rewrite I3 in Hi. rewrite I5 by (clear - Hi; dlia). apply t64_intro.
    destruct (positions_select (d64_seq skips) 0 (1024 * i)) as (q & -> & Hq); [clear - Hi Lps; rewrite Lps; dlia|].
    apply is_select_bound in Hq. unfold zlen in LS, HL. lia. }
  cbn [layout_of data_of d64_map typed typed_members frozen_size frozen_sizes d64_blocks d64_subs d64_num_ones d64_bits]. rewrite bv_frozen_c, I3, I4. split.
  - split; [apply pod64; lia|]. split; [apply bv_typed; lia|]. repeat (split; [apply vec_any; [lia|auto]|]). exact I.
  - clear - LS HL H. dlia.
Qed.
Lemma d64_image gr skips : Forall (fun s => 0 <= s <= 64) skips -> zlen skips < 2 ^ 57 -> exists b d,
  append1_all gr d64_new skips = Ok b /\ d64_build b = Ok d /\ image d64_map d.
Proof.
  intros F HL. destruct (d64_all gr skips F) as (b & d & E & D & _). exists b, d. split; [exact E|]. split; [exact D|].
  destruct (d64_parts gr skips b d F ltac:(lia) E D) as (_ & T & S). split; [exact T|lia].
Qed.
Lemma gamma_image_parts g d ys : g_high g = d -> g_low g = canonical (codes ys) -> Forall (fun x => 0 <= x < 2 ^ 64 - 1) ys -> zlen ys < 2 ^ 57 ->
  typed (layout_of d64_map) (data_of d64_map d) -> frozen_size (layout_of d64_map) (data_of d64_map d) < 2 ^ 62 -> image gamma_map g.
Proof.
  intros E1 E2 F HL T S. destruct (code_lens_range ys F) as [_ R]. pose proof (zlen_codes ys) as Lc.
  unfold image. cbn [layout_of data_of gamma_map typed typed_members frozen_size frozen_sizes]. rewrite E1, E2, bv_frozen_c.
  split; [split; [exact T|]; split; [apply bv_typed; lia|exact I]|]. clear - S R Lc HL. dlia.
Qed.
Lemma gv_image gr ints : Forall (fun x => 0 <= x < 2 ^ 64 - 1) ints -> zlen ints < 2 ^ 57 ->
  exists g, gv_build gr ints = Ok g /\ image gamma_map g.
Proof.
  intros F L. unfold gv_build. destruct (new_builder_ok 0 false ltac:(lia)) as (low & -> & B). cbn [bind].
  change (repeat false (Z.to_nat 0)) with (@nil bool) in B.
  assert (F' : Forall (fun y => 0 <= y < 2 ^ 64 - 1 /\ 0 <= code_len y) ints).
  { eapply Forall_impl; [|exact F]. cbv beta. intros y Hy. split; auto. apply Z.log2_nonneg. }
  assert (Fz : Forall (fun s => 0 <= s <= 64) (0 :: zs_of 0 ints)) by (constructor; [lia|]; apply zs_range; auto; lia).
  destruct (d64_all gr (0 :: zs_of 0 ints) Fz) as (b & d & E & D & _).
  destruct (d64_parts gr _ b d Fz) as (_ & T & S); auto.
  { rewrite zlen_cons. unfold zs_of. rewrite zlen_map. lia. }
  cbn [append1_all] in E. destruct (append1_ok gr d64_new [] 0 d64_new_ok ltac:(lia)) as (h0 & E0 & I0).
  rewrite E0 in *. cbn [bind] in *.
  destruct (gv_loop_ok gr ints h0 low [] F B _ I0) as (h1 & low1 & -> & E1 & B1). cbn [bind].
  rewrite E in E1. injection E1 as <-. rewrite D. cbn [bind]. rewrite (binv_bv _ _ B1). cbn [bind app].
  eexists. split; [reflexivity|]. apply (gamma_image_parts _ d ints); auto.
Qed.
Lemma gb_image gr ints : Forall (fun x => 0 <= x < 2 ^ 64 - 2) ints -> zlen ints < 2 ^ 57 ->
  exists g, gb_build gr ints = Ok g /\ image gamma_map g.
Proof.
  intros F L. unfold gb_build. destruct (new_builder_ok 0 false ltac:(lia)) as (low & -> & B). cbn [bind].
  change (repeat false (Z.to_nat 0)) with (@nil bool) in B.
  assert (F' : Forall (fun y => 0 <= y < 2 ^ 64 - 1 /\ 1 <= code_len y) (succs ints)).
  { unfold succs. apply Forall_forall. intros y Hy. apply in_map_iff in Hy. destruct Hy as (x & <- & Hx).
    rewrite Forall_forall in F. specialize (F x Hx). pose proof (succ_len x F). lia. }
  assert (Fz : Forall (fun s => 0 <= s <= 64) (0 :: zs_of 1 (succs ints))) by (constructor; [lia|]; apply zs_range; auto; lia).
  destruct (d64_all gr (0 :: zs_of 1 (succs ints)) Fz) as (b & d & E & D & _).
  destruct (d64_parts gr _ b d Fz) as (_ & T & S); auto.
  { rewrite zlen_cons. unfold zs_of. rewrite zlen_map, zlen_succs. lia. }
  cbn [append1_all] in E. destruct (append1_ok gr d64_new [] 0 d64_new_ok ltac:(lia)) as (h0 & E0 & I0).
  rewrite E0 in *. cbn [bind] in *.
  destruct (gb_loop_ok gr ints h0 low [] F B _ I0) as (h1 & low1 & -> & E1 & B1). cbn [bind].
  rewrite E in E1. injection E1 as <-. rewrite D. cbn [bind]. rewrite (binv_bv _ _ B1). cbn [bind app].
  eexists. split; [reflexivity|]. apply (gamma_image_parts _ d (succs ints)); auto.
  - eapply Forall_impl; [|exact F']. cbv beta. tauto.
  - rewrite zlen_succs. exact L.
Qed.

(** ** nibble_vector *)
Lemma nv_image l : Forall (fun x => 0 <= x < 16) l -> zlen l < 2 ^ 64 -> exists v, nv_build l = Ok v /\ image nv_map v.
Proof.
  intros Hl HL. destruct (nv_ok l Hl) as (n & E & S1 & S2 & _). pose proof (zlen_nonneg l). exists n. split; [exact E|]. unfold image. layouts. rewrite S1, S2. split.
  - split; [apply pod64; lia|]. split; [|exact I]. apply vec_any; [lia|].
    unfold nv_build in E. rewrite nv_loop_ok in E by exact Hl. injection E as <-. cbn [nv_nibbles app]. clear - Hl.
    induction l as [|x|x y l IH] using pair_ind; cbn [packn]; [constructor|inversion_clear Hl|inversion_clear Hl as [|? ? Hx Hl']; inversion_clear Hl' as [|? ? Hy Hl]].
    + constructor; [|constructor]. unfold in_type. change (8 * 1) with 8. lia.
    + constructor; [|auto]. unfold in_type. change (8 * 1) with 8. lia.
  - clear - HL H. dlia.
Qed.

(** ** bp_vector and the structures on it *)
Lemma push_min_typed mins m mins' : push_block_min mins m = Ok mins' -> Forall ti16 mins -> Forall ti16 mins'.
Proof.
  intros E F. unfold push_block_min, assert_ in E. destruct (_ && _); [|discriminate]. injection E as <-.
  apply Forall_app. split; [exact F|]. constructor; [|constructor]. unfold in_type, i16. change (8 * 2 - 1) with 15.
  pose proof (Z.mod_pos_bound (m + 2 ^ 15) (2 ^ 16)). lia.
Qed.
Lemma mins_typed last : forall ws s mins bm se mins' bm', block_mins_loop ws last s mins bm se = Ok (mins', bm') ->
  Forall ti16 mins -> Forall ti16 mins'.
Proof.
  induction ws as [|w ws IH]; intros s mins bm se mins' bm' E F; cbn [block_mins_loop] in E; [injection E as <- <-; exact F|].
  match type of E with bind ?m _ = _ => destruct m as [[[mins1 bm1] se1]|] eqn:E1; [|discriminate] end.
  cbn [bind] in E. destruct (min_bits_loop _ w 0 bm1 se1) as [bm2 se2]. apply IH in E; [exact E|].
  destruct (s mod bp_block_size =? 0); [|injection E1 as <- _ _; exact F].
  destruct (negb (s =? 0)); [|injection E1 as <- _ _; exact F].
  destruct (push_block_min mins bm) as [m|] eqn:E2; [|discriminate]. cbn [bind] in E1. injection E1 as <- _ _.
  apply (push_min_typed _ _ _ E2 F).
Qed.
Lemma leaves_typed rs mins size : forall n s ls, leaves_loop n rs mins size s = Ok ls -> Forall ti32 ls.
Proof.
  induction n as [|n IH]; intros s ls E; cbn [leaves_loop] in E; [injection E as <-; constructor|].
  destruct (get_block_excess _ _) as [e|]; [|discriminate]. cbn [bind] in E.
  destruct (super_min_loop _ _ _ _ _) as [m|]; [|discriminate]. cbn [bind] in E. unfold assert_ in E.
  destruct ((0 <=? m) && (m <? i32 size)) eqn:Em; [|discriminate].
  destruct (leaves_loop n _ _ _ _) as [rest|] eqn:El; [|discriminate]. cbn [bind] in E. injection E as <-. constructor; [|eapply IH; eauto].
  unfold in_type. change (8 * 4 - 1) with 31. unfold i32 in Em. pose proof (Z.mod_pos_bound (size + 2 ^ 31) (2 ^ 32)). lia.
Qed.
Lemma rd_In {A} (l : list A) i x : rd l i = Ok x -> In x l.
Proof.
  unfold rd. destruct (_ && _); [|discriminate]. destruct (nth_error l (Z.to_nat i)) eqn:E; [|discriminate]. intros H. injection H as <-.
  apply (nth_error_In _ _ E).
Qed.
Lemma upd_Forall {A} (P : A -> Prop) x : P x -> forall l i, Forall P l -> Forall P (upd l i x).
Proof. intros Hx. induction l as [|y l IH]; intros [|i] F; cbn [upd]; auto; inversion_clear F; constructor; auto. Qed.
Lemma parents_typed : forall n t t', parents_loop n t = Ok t' -> Forall ti32 t -> Forall ti32 t'.
Proof.
  induction n as [|n IH]; intros t t' E F; cbn [parents_loop] in E; [injection E as <-; exact F|].
  destruct (rd t ((Z.of_nat (S n) + 1) / 2)) as [p|] eqn:Ep; [|discriminate]. cbn [bind] in E.
  destruct (rd t (Z.of_nat (S n) + 1)) as [v|] eqn:Ev; [|discriminate]. cbn [bind] in E.
  destruct (wr t _ _) as [t1|] eqn:E1; [|discriminate]. cbn [bind] in E. apply IH in E; [exact E|].
  assert (Q : forall i x, rd t i = Ok x -> ti32 x).
  { intros i x Ei. apply rd_In in Ei. rewrite Forall_forall in F. auto. }
  apply Q in Ep, Ev. assert (Qm : ti32 (Z.min p v)) by (destruct (Z.min_spec p v) as [[_ ->]|[_ ->]]; auto).
  unfold wr in E1. destruct (_ && _); [|discriminate]. injection E1 as <-. apply upd_Forall; auto.
Qed.
Lemma bp_image_parts l uninit h h0 bp : zlen l < 2 ^ 31 -> nonneg l -> 0 <= uninit < 2 ^ 64 -> bp_build uninit (canonical l) h h0 = Ok bp ->
  typed (LObj bp_members) (DObj (bp_datas bp)) /\ frozen_sizes bp_members (bp_datas bp) < 2 ^ 62.
Proof.
  intros H HN Hu E. assert (H64 : zlen l < 2 ^ 64) by lia. pose proof E as E'. unfold bp_build in E'.
  destruct (rs_build (canonical l) h h0) as [rs|] eqn:Er; [|discriminate]. cbn [bind] in E'.
  destruct (rs_typed l h h0 rs H64 Er) as (E0 & A1 & A2 & A3 & A4 & A5 & A6).
  destruct (rs_build_ok l h h0) as (rs' & Er' & Rk). rewrite Er in Er'. injection Er' as <-.
  destruct (build_min_tree_ok l uninit rs Rk H HN) as (bp' & Eb & Ers & HB). rewrite E' in Eb. injection Eb as <-.
  pose proof (nb_small l H64). pose proof (zlen_nonneg l).
  assert (T : Forall ti16 (bp_block_excess_min bp) /\ Forall ti32 (bp_superblock_excess_min bp) /\ 0 <= bp_internal_nodes bp < 2 ^ 64 /\
    zlen (bp_block_excess_min bp) <= 2 ^ 31 /\ zlen (bp_superblock_excess_min bp) <= 2 ^ 34).
  { unfold build_min_tree in E'. rewrite E0 in E'. cbn [canonical bv_size bv_words] in E'.
    destruct (Z.eqb_spec (zlen l) 0) as [Z0|NZ].
    { injection E' as <-. cbn [bp_block_excess_min bp_superblock_excess_min bp_internal_nodes]. change (zlen (@nil Z)) with 0. repeat split; try constructor; lia. }
    destruct HB as (_ & _ & _ & HB). specialize (HB ltac:(lia)). destruct HB as ((M1 & _) & H' & Hi & (T1 & T2 & T3 & _)).
    assert (PH : 0 < 2 ^ H' <= 2 ^ 33) by (split; [apply Z.pow_pos_nonneg; lia|apply Z.pow_le_mono_r; lia]).
    pose proof (geom l ltac:(lia)) as (G1 & G2 & G3 & G4 & G5 & G6).
    destruct (block_mins_loop _ _ _ _ _ _) as [[mins bm]|] eqn:Em; [|discriminate]. cbn [bind] in E'.
    destruct (push_block_min mins bm) as [mins2|] eqn:Em2; [|discriminate]. cbn [bind] in E'.
    pose proof (push_min_typed _ _ _ Em2 (mins_typed _ _ _ _ _ _ _ _ Em ltac:(constructor))) as Tm.
    unfold assert_ in E'. destruct (_ =? zlen mins2); [|discriminate].
    destruct (complete_leaves _ _ _) as [internal|]; [|discriminate]. cbn [bind] in E'.
    destruct (leaves_loop _ _ _ _ _) as [ls|] eqn:El; [|discriminate]. cbn [bind] in E'.
    destruct (parents_loop _ _) as [t|] eqn:Et; [|discriminate]. cbn [bind] in E'. injection E' as <-.
    cbn [bp_block_excess_min bp_superblock_excess_min bp_internal_nodes] in *.
    split; [exact Tm|]. split.
    - apply (parents_typed _ _ _ Et). apply Forall_app. split; [|apply (leaves_typed _ _ _ _ _ _ El)].
      apply Forall_forall. intros x Hx. apply repeat_spec in Hx. subst x. unfold in_type, i32. change (8 * 4 - 1) with 31.
      pose proof (Z.mod_pos_bound (zlen l + 2 ^ 31) (2 ^ 32)). lia.
    - split; [lia|]. unfold nsup, nblk in *. split; [rewrite M1|rewrite T3]; clear - G1 G2 G3 G4 G5 G6 T2 PH H; dlia. }
  destruct T as (T1 & T2 & T3 & T4 & T5).
  cbn [typed typed_members frozen_sizes frozen_size bp_members rs_members bv_members app_members bp_datas rs_datas bv_datas app_datas].
  rewrite Ers, E0. cbn [canonical bv_size bv_words]. split.
  - split; [apply pod64; lia|]. repeat (split; [apply vec_any; [lia|auto using pack_t64]|]). split; [apply pod64; lia|].
    repeat (split; [apply vec_any; [lia|auto]|]). exact I.
  - rewrite zlen_pack. clear - H T4 T5 H0 A2 A4 A6 H1. dlia.
Qed.
Lemma bp_image l uninit h h0 : zlen l < 2 ^ 31 -> nonneg l -> 0 <= uninit < 2 ^ 64 ->
  exists bp, bp_build uninit (canonical l) h h0 = Ok bp /\ image bp_map bp.
Proof.
  intros H HN Hu. destruct (bp_build_ok l uninit h h0 H HN) as (bp & E & _). rewrite bv_range_ok in E. exists bp. split; [exact E|].
  destruct (bp_image_parts l uninit h h0 bp H HN Hu E) as [T S]. unfold image.
  cbn [layout_of data_of bp_map]. split; [exact T|]. cbn [frozen_size]. lia.
Qed.
Lemma ct_image_parts {T} (comp : T -> T -> bool) gr uninit e v : 2 * zlen v + 2 < 2 ^ 31 -> 0 <= uninit < 2 ^ 64 ->
  exists ct, ct_build gr uninit comp e v = Ok ct /\ typed (layout_of ct_map) (data_of ct_map ct) /\ frozen_size (layout_of ct_map) (data_of ct_map ct) < 2 ^ 62.
Proof.
  intros Hn Hu. pose proof (seq_len comp v) as SL. destruct (ct_build_bits comp gr uninit e v) as (r & Er & E).
  destruct (bp_build_ok (seq_of comp v) uninit false true ltac:(lia) (seq_nonneg comp v)) as (bp & Eb & _). exists bp. split; [congruence|].
  rewrite bv_range_ok in Eb. destruct (bp_image_parts (seq_of comp v) uninit false true bp ltac:(lia) (seq_nonneg comp v) Hu Eb) as [Ty S].
  cbn [layout_of data_of ct_map typed typed_members frozen_size frozen_sizes]. split; [split; [exact Ty|exact I]|lia].
Qed.
Lemma ct_image {T} (comp : T -> T -> bool) gr uninit e v : 2 * zlen v + 2 < 2 ^ 31 -> 0 <= uninit < 2 ^ 64 ->
  exists ct, ct_build gr uninit comp e v = Ok ct /\ image ct_map ct.
Proof. intros H Hu. destruct (ct_image_parts comp gr uninit e v H Hu) as (ct & E & Ty & S). exists ct. split; [exact E|]. split; [exact Ty|lia]. Qed.
Lemma tk_image gr uninit lt v : 2 * zlen v + 2 < 2 ^ 31 -> Forall (fun x => 0 <= x < 2 ^ 64) v -> 0 <= uninit < 2 ^ 64 ->
  exists tk, tk_build gr uninit lt v = Ok tk /\ image tk_map tk.
Proof.
  intros H F Hu. destruct (ct_image_parts (fun x y => lt y x) gr uninit 0 v H Hu) as (ct & E & Ty & S).
  unfold tk_build. rewrite E. cbn [bind]. eexists. split; [reflexivity|]. unfold image.
  cbn [layout_of data_of tk_map typed typed_members frozen_size frozen_sizes tk_v tk_tree]. split; [|lia].
  split; [|split; [exact Ty|exact I]]. apply vec_any; [lia|]. eapply Forall_impl; [|exact F]. intros x Hx. apply t64_intro. exact Hx.
Qed.

(** ** Round trips *)
Lemma image_rt {A} (M : mappable A) x : image M x -> roundtrips M x.
Proof. intros [T S] flags addr pre post Hf. apply roundtrip; auto. Qed.
Lemma rt_bits : (forall l h h0, zlen l < 2 ^ 64 -> exists rs, rs_build (bv_range l) h h0 = Ok rs /\ roundtrips rs_map rs) /\
  (forall neg l, zlen l < 2 ^ 63 -> exists d, darray_build neg (bv_range l) = Ok d /\ roundtrips da_map d) /\
  (forall l, Forall (fun x => 0 <= x < 16) l -> zlen l < 2 ^ 64 -> exists v, nv_build l = Ok v /\ roundtrips nv_map v).
Proof.
  split; [|split]; intros; rewrite ?bv_range_ok.
  - destruct (rs_image l h h0 H) as (x & E & H'). exists x. split; [exact E|apply image_rt; exact H'].
  - destruct (da_image neg l H) as (x & E & H'). exists x. split; [exact E|apply image_rt; exact H'].
  - destruct (nv_image l H H0) as (x & E & H'). exists x. split; [exact E|apply image_rt; exact H'].
Qed.
Lemma rt_trees : (forall uninit l h h0, zlen l < 2 ^ 31 -> prefix_ok l -> 0 <= uninit < 2 ^ 64 ->
    exists bp, bp_build uninit (bv_range l) h h0 = Ok bp /\ roundtrips bp_map bp) /\
  (forall T (comp : T -> T -> bool) gr uninit e v, 2 * zlen v + 2 < 2 ^ 31 -> 0 <= uninit < 2 ^ 64 ->
    exists ct, ct_build gr uninit comp e v = Ok ct /\ roundtrips ct_map ct) /\
  (forall gr uninit lt v, 2 * zlen v + 2 < 2 ^ 31 -> Forall (fun x => 0 <= x < 2 ^ 64) v -> 0 <= uninit < 2 ^ 64 ->
    exists tk, tk_build gr uninit lt v = Ok tk /\ roundtrips tk_map tk).
Proof.
  split; [|split].
  - intros uninit l h h0 H HP Hu. rewrite bv_range_ok. destruct (bp_image l uninit h h0 H (proj1 (prefix_ok_nonneg l) HP) Hu) as (x & E & H').
    exists x. split; [exact E|apply image_rt; exact H'].
  - intros T comp gr uninit e v H Hu. destruct (ct_image comp gr uninit e v H Hu) as (x & E & H'). exists x. split; [exact E|apply image_rt; exact H'].
  - intros gr uninit lt v H F Hu. destruct (tk_image gr uninit lt v H F Hu) as (x & E & H'). exists x. split; [exact E|apply image_rt; exact H'].
Qed.
Lemma rt_ef : (forall gr n m vs idx, ef_input n m vs -> exists ef, ef_make gr n m vs idx = Ok ef /\ roundtrips ef_map ef) /\
  (forall gr b l idx, bv_of_builder b = Ok (canonical l) -> zlen l < 2 ^ 61 -> exists ef, ef_of_bits gr b idx = Ok ef /\ roundtrips ef_map ef) /\
  (forall gr ints, Forall (fun x => 0 <= x) ints -> sum ints < 2 ^ 64 - 1 -> zlen ints < 2 ^ 61 ->
    exists c, efl_build gr ints = Ok c /\ roundtrips efl_map c) /\
  (forall gr ints, Forall (fun x => 0 <= x < 2 ^ 64 - 1) ints -> zlen ints < 2 ^ 57 ->
    exists c, efc_build gr ints = Ok c /\ roundtrips efc_map c).
Proof.
  split; [|split; [|split]].
  - intros gr n m vs idx H. destruct (ef_image gr n m vs idx H) as (x & E & H'). exists x. split; [exact E|apply image_rt; exact H'].
  - intros gr b l idx H H0. destruct (efb_image gr b l idx H H0) as (x & E & H'). exists x. split; [exact E|apply image_rt; exact H'].
  - intros gr ints H H0 H1. destruct (efl_image gr ints H H0 H1) as (x & E & H'). exists x. split; [exact E|apply image_rt; exact H'].
  - intros gr ints H H0. destruct (efc_image gr ints H H0) as (x & E & H'). exists x. split; [exact E|apply image_rt; exact H'].
Qed.
Lemma rt_gamma : (forall gr skips, Forall (fun s => 0 <= s <= 64) skips -> zlen skips < 2 ^ 57 ->
    exists b d, append1_all gr d64_new skips = Ok b /\ d64_build b = Ok d /\ roundtrips d64_map d) /\
  (forall gr ints, Forall (fun x => 0 <= x < 2 ^ 64 - 1) ints -> zlen ints < 2 ^ 57 -> exists g, gv_build gr ints = Ok g /\ roundtrips gamma_map g) /\
  (forall gr ints, Forall (fun x => 0 <= x < 2 ^ 64 - 2) ints -> zlen ints < 2 ^ 57 -> exists g, gb_build gr ints = Ok g /\ roundtrips gamma_map g).
Proof.
  split; [|split].
  - intros gr skips H H0. destruct (d64_image gr skips H H0) as (b & d & E & D & H'). exists b, d. split; [exact E|]. split; [exact D|]. apply image_rt; exact H'.
  - intros gr ints H H0. destruct (gv_image gr ints H H0) as (x & E & H'). exists x. split; [exact E|apply image_rt; exact H'].
  - intros gr ints H H0. destruct (gb_image gr ints H H0) as (x & E & H'). exists x. split; [exact E|apply image_rt; exact H'].
Qed.
