From Verif Require Import Base Spec Lib M_Tables M_Broadword M_BitVector M_Darray M_Gamma M_Nd M_Config S_BitVector S_Gamma P_Broadword P_Broadword2 P_Broadword3 P_BvLib P_BitVector P_RsBuild P_EliasFano2 P_Gamma S_Nd P_Nd.

Lemma u64_is x : is_u64 (u64 x).
Proof. unfold is_u64, u64. apply Z.mod_pos_bound. lia. Qed.

Lemma place_same x : is_u64 x -> let g := Z.land x msbs_step_8 in
  u64 (popcount_intrinsic g * 8) = Z.land (Z.shiftr (u64 (Z.shiftr g 7 * ones_step_8)) 53) (not64 7).
Proof.
  intros Hx. rewrite (digits8 x Hx). pose proof (digits_length 8 8 x) as L.
  assert (F : Forall (digit 8) (digits 8 8 x)) by (apply digits_range; lia).
  revert L F. generalize (digits 8 8 x). clear. intros ds L F. cbv zeta.
  rewrite (dval_land_c 8 ltac:(lia) ds 128); [|rewrite L; reflexivity|unfold digit; lia|auto].
  assert (E : exists cs, map (fun d => Z.land d 128) ds = map (fun c => 128 * c) cs /\ length cs = 8%nat /\ Forall (fun c => c = 0 \/ c = 1) cs).
  { exists (map (fun d => Z.b2z (Z.testbit d 7)) ds). rewrite map_map, map_length. split; [|split; [auto|]].
    - apply map_ext. intros d. change 128 with (2 ^ 7) at 1. apply Z.bits_inj'. intros n Hn. rewrite Z.land_spec, Z.pow2_bits_eqb by lia.
      destruct (Z.eqb_spec 7 n) as [<-|N].
      + rewrite andb_true_r. destruct (Z.testbit d 7); reflexivity.
      + rewrite andb_false_r. destruct (Z.testbit d 7); cbn [Z.b2z]; [change (128 * 1) with (2 ^ 7); rewrite Z.pow2_bits_false by lia|rewrite Z.testbit_0_l]; auto.
    - apply Forall_forall. intros c H. apply in_map_iff in H. destruct H as (d & <- & _). destruct (Z.testbit d 7); cbn; auto. }
  destruct E as (cs & -> & Lc & Fc). clear F L ds. set (g := dval 8 (map (fun c => 128 * c) cs)).
  assert (E7 : Z.shiftr g 7 = dval 8 cs).
  { unfold g. rewrite dval_shiftr; [|lia|].
    - rewrite map_map. f_equal. rewrite <- (map_id cs) at 2. apply map_ext_Forall. eapply Forall_impl; [|exact Fc]. cbv beta. intros c [-> | ->]; reflexivity.
    - clear. induction cs; cbn [map]; constructor; auto. exists a. change (2 ^ 7) with 128. lia. }
  assert (HS : 0 <= zsum cs <= 8).
  { do 8 (destruct cs as [|? cs]; [discriminate Lc|]). destruct cs; [|discriminate Lc].
    repeat match goal with H : Forall _ (_ :: _) |- _ => inversion_clear H end. cbn [zsum]. lia. }
  assert (P2 : popcount_intrinsic g = zsum cs).
  { rewrite popcount_intrinsic_correct, word_bits_digits. unfold g. rewrite digits_dval8.
    - rewrite count_flat_map_bits, map_map. f_equal. rewrite <- (map_id cs) at 2. apply map_ext_Forall. eapply Forall_impl; [|exact Fc]. cbv beta.
      intros c [-> | ->]; reflexivity.
    - rewrite map_length. auto.
    - apply Forall_forall. intros y H. apply in_map_iff in H. destruct H as (c & <- & H). rewrite Forall_forall in Fc. unfold digit.
      destruct (Fc c H) as [-> | ->]; lia. }
  rewrite P2, E7, u64_small by lia. clear P2 E7 g.
  rewrite mul_ones_8; [|auto|eapply Forall_impl; [|exact Fc]; cbv beta; lia|lia].
  do 8 (destruct cs as [|? cs]; [discriminate Lc|]). destruct cs; [|discriminate Lc].
  repeat match goal with H : Forall _ (_ :: _) |- _ => inversion_clear H end.
  cbn [zsum] in *. simpl prefix_sums. unfold dval. change (2 ^ 8) with 256.
  rewrite Z.shiftr_div_pow2 by lia. change (2 ^ 53) with 9007199254740992.
  set (s := z + (z0 + (z1 + (z2 + (z3 + (z4 + (z5 + (z6 + 0)))))))) in *.
  match goal with |- _ = Z.land (?X / ?Y) _ => assert (E : X / Y = 8 * s) end.
  { symmetry. apply Z.div_unique_pos with
      (r := (0 + z) + 256 * ((0 + z + z0) + 256 * ((0 + z + z0 + z1) + 256 * ((0 + z + z0 + z1 + z2) +
        256 * ((0 + z + z0 + z1 + z2 + z3) + 256 * ((0 + z + z0 + z1 + z2 + z3 + z4) +
        256 * (0 + z + z0 + z1 + z2 + z3 + z4 + z5))))))); unfold s; lia. }
  rewrite E. clear E. clearbody s. assert (HI : In s [0;1;2;3;4;5;6;7;8]) by (simpl; lia).
  clear - HI. simpl in HI. intuition (subst; reflexivity).
Qed.

Lemma c_popcount_same c x : is_u64 x -> c_popcount c x = popcount x.
Proof.
  intros H. unfold c_popcount. destruct (cf_popcnt c); [|reflexivity]. rewrite popcount_intrinsic_correct, popcount_correct; auto.
Qed.

Lemma c_reverse_bytes_same c x : is_u64 x -> c_reverse_bytes c x = reverse_bytes x.
Proof. intros H. unfold c_reverse_bytes. destruct (cf_intrinsics c); [|reflexivity]. apply reverse_both; auto. Qed.

Lemma lor_u64 a b : is_u64 a -> is_u64 b -> is_u64 (Z.lor a b).
Proof.
  unfold is_u64. intros Ha Hb. split; [apply Z.lor_nonneg; lia|].
  destruct (Z.eq_dec (Z.lor a b) 0) as [-> |N]; [lia|]. apply Z.log2_lt_pow2; [pose proof (proj2 (Z.lor_nonneg a b)); lia|].
  rewrite Z.log2_lor by lia.
  assert (G : forall y, 0 <= y < 2 ^ 64 -> Z.log2 y < 64).
  { intros y Hy. destruct (Z.eq_dec y 0) as [-> |Ny]; [reflexivity|]. apply Z.log2_lt_pow2; lia. }
  apply Z.max_lub_lt; apply G; lia.
Qed.

Lemma land_mask_u64 a m : is_u64 m -> is_u64 (Z.land a m).
Proof.
  unfold is_u64. intros Hm. split; [apply Z.land_nonneg; lia|].
  destruct (Z.eq_dec m 0) as [-> |N]; [rewrite Z.land_0_r; lia|].
  assert (G : Z.land a m = Z.land (Z.land a m) (Z.ones 64)).
  { rewrite <- Z.land_assoc. f_equal. rewrite Z.land_ones, Z.mod_small by lia. reflexivity. }
  rewrite G, Z.land_ones by lia. apply Z.mod_pos_bound. lia.
Qed.

Lemma c_reverse_bits_same c x : is_u64 x -> c_reverse_bits c x = reverse_bits x.
Proof.
  intros H. unfold c_reverse_bits, reverse_bits. cbv zeta. apply c_reverse_bytes_same.
  apply lor_u64; [apply land_mask_u64; unfold is_u64, magic_mask_3; lia|apply u64_is].
Qed.

Lemma c_select_same dbg c x k : is_u64 x -> c_select_in_word dbg c x k = if dbg then select_in_word x k else nd_select_in_word x k.
Proof.
  intros H. unfold c_select_in_word, select_in_word, select_in_word_gen, nd_select_in_word, nd_select_in_word_gen, c_assert.
  rewrite (c_popcount_same c x H). cbv zeta. rewrite (place_same (u64 _) (u64_is _)). destruct (cf_popcnt c), dbg; reflexivity.
Qed.

Lemma c_bit_position_same dbg c x : is_u64 x -> c_bit_position dbg c x = if dbg then bit_position x else nd_bit_position x.
Proof. intros H. unfold c_bit_position, bit_position, nd_bit_position, c_assert. rewrite (c_popcount_same c x H). destruct dbg; reflexivity. Qed.

Lemma shiftr_u64 a n : is_u64 a -> 0 <= n -> is_u64 (Z.shiftr a n).
Proof.
  unfold is_u64. intros Ha Hn. rewrite Z.shiftr_div_pow2 by lia. assert (0 < 2 ^ n) by (apply Z.pow_pos_nonneg; lia). split; [apply Z.div_pos; lia|].
  apply Z.le_lt_trans with a; [|lia]. apply Z.div_le_upper_bound; nia.
Qed.

Lemma lxor_u64 a b : is_u64 a -> is_u64 b -> is_u64 (Z.lxor a b).
Proof.
  intros Ha Hb. pose proof (land_mask_u64 (Z.lxor a b) (Z.lor a b) (lor_u64 a b Ha Hb)) as G.
  replace (Z.land (Z.lxor a b) (Z.lor a b)) with (Z.lxor a b) in G; [exact G|].
  apply Z.bits_inj'. intros n Hn. rewrite Z.land_spec, Z.lxor_spec, Z.lor_spec. destruct (Z.testbit a n), (Z.testbit b n); reflexivity.
Qed.

Lemma c_msb_opt_same dbg c x : is_u64 x -> c_msb_opt dbg c x = if dbg then msb_opt x else nd_msb_opt x.
Proof.
  intros H. unfold c_msb_opt. destruct (cf_intrinsics c).
  - destruct (Z.eq_dec x 0) as [-> |N]; [destruct dbg; reflexivity|]. rewrite bsr64_correct by auto. pose proof (msb_opt_correct x H N) as E.
    destruct dbg; [auto|]. destruct (nd_msb_opt_le x) as [G]. symmetry. apply G. exact E.
  - unfold msb_opt, nd_msb_opt. destruct (Z.eqb_spec x 0) as [-> |N]; [destruct dbg; reflexivity|]. cbv zeta.
    rewrite c_bit_position_same; [destruct dbg; reflexivity|].
    assert (S : forall a n, is_u64 a -> 0 <= n -> is_u64 (Z.lor a (Z.shiftr a n))) by (intros; auto using lor_u64, shiftr_u64).
    apply lxor_u64; [|apply shiftr_u64; [|lia]]; repeat (apply S; [|lia]); exact H.
Qed.

Lemma c_lsb_opt_same dbg c x : is_u64 x -> c_lsb_opt dbg c x = if dbg then lsb_opt x else nd_lsb_opt x.
Proof.
  intros H. unfold c_lsb_opt. destruct (cf_intrinsics c).
  - destruct (Z.eq_dec x 0) as [-> |N]; [destruct dbg; reflexivity|]. destruct (is_lsb_exists x) as [p P]; [unfold is_u64 in H; lia|].
    rewrite (bsf64_correct x p) by auto. pose proof (lsb_opt_correct x p H P) as E.
    destruct dbg; [auto|]. destruct (nd_lsb_opt_le x) as [G]. symmetry. apply G. exact E.
  - unfold lsb_opt, nd_lsb_opt. destruct (Z.eqb_spec x 0) as [-> |N]; [destruct dbg; reflexivity|].
    rewrite c_bit_position_same; [destruct dbg; reflexivity|]. apply land_mask_u64, u64_is.
Qed.

Lemma config_words dbg c x : is_u64 x ->
  c_popcount c x = popcount x /\ c_reverse_bytes c x = reverse_bytes x /\ c_reverse_bits c x = reverse_bits x /\
  (forall k, c_select_in_word dbg c x k = if dbg then select_in_word x k else nd_select_in_word x k) /\
  c_bit_position dbg c x = (if dbg then bit_position x else nd_bit_position x) /\
  c_msb_opt dbg c x = (if dbg then msb_opt x else nd_msb_opt x) /\ c_msb dbg c x = (if dbg then msb x else nd_msb x) /\
  c_lsb_opt dbg c x = (if dbg then lsb_opt x else nd_lsb_opt x) /\ c_lsb dbg c x = (if dbg then lsb x else nd_lsb x).
Proof.
  intros H. pose proof (c_msb_opt_same dbg c x H) as M. pose proof (c_lsb_opt_same dbg c x H) as L.
  repeat split; auto using c_popcount_same, c_reverse_bytes_same, c_reverse_bits_same, c_select_same, c_bit_position_same.
  - unfold c_msb, c_assert, msb, nd_msb. rewrite M. destruct dbg; reflexivity.
  - unfold c_lsb, c_assert, lsb, nd_lsb. rewrite L. destruct dbg; reflexivity.
Qed.

Lemma config_spec dbg c x : is_u64 x ->
  c_popcount c x = Z.of_nat (count true (word_bits x)) /\ word_bits (c_reverse_bits c x) = rev (word_bits x) /\
  (forall i, (i < 8)%nat -> byte (c_reverse_bytes c x) i = byte x (7 - i)) /\
  (forall k, 0 <= k < Z.of_nat (count true (word_bits x)) -> exists p, c_select_in_word dbg c x k = Ok (Z.of_nat p) /\ is_select true (word_bits x) (Z.to_nat k) p) /\
  (forall p, (0 <= p /\ Z.testbit x p = true /\ forall i, p < i -> Z.testbit x i = false) -> c_msb_opt dbg c x = Ok (Some p) /\ c_msb dbg c x = Ok p) /\
  (forall p, (0 <= p /\ Z.testbit x p = true /\ forall i, 0 <= i < p -> Z.testbit x i = false) -> c_lsb_opt dbg c x = Ok (Some p) /\ c_lsb dbg c x = Ok p).
Proof.
  intros H. destruct (config_words dbg c x H) as (-> & _ & -> & S & _ & -> & -> & -> & ->). rewrite c_reverse_bytes_same by auto.
  destruct (reverse_both x H) as (R1 & R2 & _). split; [apply popcount_correct; auto|]. split; [exact R1|]. split; [exact R2|]. split; [|split].
  - intros k Hk. rewrite S. destruct (select_in_word_gen_correct false x k H Hk) as (p & E & P). exists p. split; [|exact P].
    destruct dbg; [exact E|]. destruct (nd_select_in_word_gen_le false x k) as [G]. apply G. exact E.
  - intros p P. destruct (msb_all x p H P) as (E1 & E2 & _). destruct dbg; [auto|].
    destruct (nd_msb_opt_le x) as [G1], (nd_msb_le x) as [G2]. auto.
  - intros p P. destruct (lsb_all x p H P) as (E1 & E2 & _). destruct dbg; [auto|].
    destruct (nd_lsb_opt_le x) as [G1], (nd_lsb_le x) as [G2]. auto.
Qed.

(** ** The prefetch *)

Lemma prefetch_iff bv pos : c_enum_new bv pos = (if pos / 64 <=? zlen (bv_words bv) then Ok (enum_new pos) else Ub OutOfBounds).
Proof. unfold c_enum_new, c_prefetch. destruct (_ <=? _); reflexivity. Qed.

Lemma prefetch_canonical l pos : 0 <= pos -> (c_enum_new (canonical l) pos = Ok (enum_new pos) <-> pos / 64 <= (zlen l + 63) / 64) /\
  (pos <= zlen l -> c_enum_new (canonical l) pos = Ok (enum_new pos)).
Proof.
  intros Hp. assert (H : 0 <= zlen l) by (unfold zlen; lia). rewrite prefetch_iff. cbn [canonical bv_words]. rewrite zlen_pack. split.
  - destruct (Z.leb_spec (pos / 64) ((zlen l + 63) / 64)) as [G|G]; split; intros Q; [exact G|reflexivity|discriminate Q|lia].
  - intros Hl. replace (pos / 64 <=? (zlen l + 63) / 64) with true; [reflexivity|]. symmetry. apply Z.leb_le. apply Z.div_le_mono; lia.
Qed.

Lemma gv_prefetch gr ints : Forall (fun x => 0 <= x < 2 ^ 64 - 1) ints -> zlen ints < 2 ^ 57 -> exists g, gv_build gr ints = Ok g /\
  forall idx, 0 <= idx -> c_gv_enum_new g idx = gv_enum_new g idx.
Proof.
  intros F L. destruct (gv_build_ok gr ints F L) as (g & E & OK). exists g. split; [auto|]. intros i Hi. assert (K : 0 = 0 \/ 0 = 1) by auto.
  unfold c_gv_enum_new, gv_enum_new. rewrite (g_size _ _ _ OK). destruct (Z.ltb_spec i (zlen ints)) as [Hl|Hl]; [|reflexivity].
  rewrite (g_select _ _ _ K OK) by lia. cbn [bind]. destruct (unary_new _ _); [|reflexivity]. cbn [bind].
  pose proof (off_range _ _ _ K OK i) as R. assert (Ho : sub64 (hpos 0 ints i) i = off ints i) by (unfold hpos; rewrite sub64_ok; lia). rewrite Ho.
  pose proof OK as (_ & _ & _ & _ & _ & ->). rewrite (proj2 (prefetch_canonical (codes ints) (off ints i) ltac:(lia))) by lia. reflexivity.
Qed.

Lemma gb_prefetch gr ints : Forall (fun x => 0 <= x < 2 ^ 64 - 2) ints -> zlen ints < 2 ^ 57 -> exists g, gb_build gr ints = Ok g /\
  forall idx, 0 <= idx -> c_gb_enum_new g idx = gb_enum_new g idx.
Proof.
  intros F L. destruct (gb_build_ok gr ints F L) as (g & E & OK). exists g. split; [auto|]. intros i Hi. assert (K : 1 = 0 \/ 1 = 1) by auto.
  unfold c_gb_enum_new, gb_enum_new. rewrite (g_size _ _ _ OK). destruct (Z.ltb_spec i (zlen (succs ints))) as [Hl|Hl]; [|reflexivity].
  rewrite (g_select _ _ _ K OK) by lia. cbn [bind]. destruct (unary_new _ _); [|reflexivity]. cbn [bind].
  pose proof (off_range _ _ _ K OK i) as R. assert (Ho : hpos 1 (succs ints) i = off (succs ints) i) by (unfold hpos; lia). rewrite Ho.
  pose proof OK as (_ & _ & _ & _ & _ & ->). rewrite (proj2 (prefetch_canonical (codes (succs ints)) (off (succs ints) i) ltac:(lia))) by lia. reflexivity.
Qed.

Lemma compiles_iff i p : cf_compiles (mk_config i p) = true <-> (p = true -> i = true).
Proof. destruct i, p; cbn; intuition congruence. Qed.
