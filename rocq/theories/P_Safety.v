(** Proofs that queries within their preconditions are defined. *)
From Verif Require Import Base Spec Lib M_Broadword M_BitVector M_RsBitVector M_Darray M_EliasFano M_Gamma M_Util M_Bp M_Cartesian M_Topk.
From Verif Require Import S_BitVector S_Bp S_Darray S_EliasFano S_Cartesian S_Safety P_Broadword2 P_BvLib P_BvGen P_BitVector P_BvProps P_RsQuery P_Darray P_EliasFano2 P_Gamma P_Util P_BpSpec P_BpLimits P_BpRmq.

Lemma nearest_below (l : list bool) b : forall n, (exists p, (p <= n)%nat /\ nth_error l p = Some b) -> (n < length l)%nat ->
  exists q, (q <= n)%nat /\ nth_error l q = Some b /\ forall p, (q < p <= n)%nat -> nth_error l p = Some (negb b).
Proof.
  induction n as [|n IH]; intros (p & Hp & E) L.
  - exists 0%nat. replace p with 0%nat in E by lia. repeat split; auto. lia.
  - destruct (nth_error l (S n)) as [c|] eqn:En; [|apply nth_error_None in En; lia]. destruct (Bool.bool_dec c b) as [->|N].
    + exists (S n). repeat split; auto. lia.
    + destruct IH as (q & H1 & H2 & H3); [|lia|].
      * exists p. split; [|exact E]. assert (p <> S n) by (intros ->; congruence). lia.
      * exists q. repeat split; auto. intros k Hk. destruct (Nat.eq_dec k (S n)) as [->|]; [|apply H3; lia]. rewrite En. destruct c, b; cbn; congruence.
Qed.
Lemma nearest_above (l : list bool) b : forall d n p, (n + d = p)%nat -> nth_error l p = Some b ->
  exists q, (n <= q)%nat /\ nth_error l q = Some b /\ forall k, (n <= k < q)%nat -> nth_error l k = Some (negb b).
Proof.
  induction d as [|d IH]; intros n p Hp E.
  - exists n. replace p with n in E by lia. repeat split; auto. lia.
  - assert (p < length l)%nat by (apply nth_error_Some; congruence). destruct (nth_error l n) as [c|] eqn:En; [|apply nth_error_None in En; lia].
    destruct (Bool.bool_dec c b) as [->|N].
    + exists n. repeat split; auto. lia.
    + destruct (IH (S n) p ltac:(lia) E) as (q & H1 & H2 & H3). exists q. repeat split; auto; [lia|].
      intros k Hk. destruct (Nat.eq_dec k n) as [->|]; [|apply H3; lia]. rewrite En. destruct c, b; cbn; congruence.
Qed.

Lemma safe_bits l :
  (forall pos, 0 <= pos < zlen l -> defined (bv_get (bv_range l) pos) /\ defined (get_word (bv_range l) pos)) /\
  (forall pos len, 0 <= pos -> 0 <= len < 64 -> pos + len <= zlen l -> defined (get_bits strict_shift (bv_range l) pos len)) /\
  (forall pos, 0 <= pos -> pos + 64 <= 64 * ((zlen l + 63) / 64) -> defined (get_word56 (bv_range l) pos)) /\
  (forall pos p, (p <= pos)%nat -> (pos < length l)%nat ->
     (nth_error l p = Some true -> defined (predecessor1 (bv_range l) (Z.of_nat pos))) /\
     (nth_error l p = Some false -> defined (predecessor0 (bv_range l) (Z.of_nat pos)))) /\
  (forall pos p, (pos <= p)%nat ->
     (nth_error l p = Some true -> defined (successor1 (bv_range l) (Z.of_nat pos))) /\
     (nth_error l p = Some false -> defined (successor0 (bv_range l) (Z.of_nat pos)))).
Proof.
  rewrite bv_range_ok. split; [|split; [|split; [|split]]].
  - intros pos H. split.
    + rewrite bv_get_ok by exact H. eexists; reflexivity.
    + rewrite get_word_bits by exact H. eexists; reflexivity.
  - intros pos len H1 H2 H3. rewrite get_bits_strict by assumption. eexists; reflexivity.
  - intros pos H1 H2. destruct (get_word56_low l pos H1) as (r & -> & _); [|eexists; reflexivity].
    rewrite zlen_pack. dlia.
  - intros pos p Hp Hl. split; intros E; destruct (nearest_below l _ pos (ex_intro _ p (conj Hp E)) Hl) as (q & A & B & C); exists (Z.of_nat q).
    + apply (predecessor_both false); [lia|unfold zlen; lia|rewrite Nat2Z.id; exact B|]. intros k Hk. apply C. lia.
    + apply (predecessor_both true); [lia|unfold zlen; lia|rewrite Nat2Z.id; exact B|]. intros k Hk. apply C. lia.
  - intros pos p Hp. split; intros E; destruct (nearest_above l _ (p - pos) pos p ltac:(lia) E) as (q & A & B & C); exists (Z.of_nat q).
    + apply (successor_both false); [lia|rewrite Nat2Z.id; exact B|]. intros k Hk. apply C. lia.
    + apply (successor_both true); [lia|rewrite Nat2Z.id; exact B|]. intros k Hk. apply C. lia.
Qed.

(** Away from the word boundaries the parentheses queries shift by less than the word width. *)
Lemma shl_policy sp sp' x s : 0 <= s < 64 -> shl_p sp x s = shl_p sp' x s.
Proof. intros H. unfold shl_p. replace ((0 <=? s) && (s <? 64)) with true by lia. reflexivity. Qed.
Lemma close_policy sp sp' bp p : (p + 1) mod 64 <> 0 -> find_close sp bp p = find_close sp' bp p.
Proof.
  intros H. unfold find_close. rewrite (shl_policy sp sp'); [reflexivity|].
  pose proof (Z.mod_pos_bound (p + 1) 64 ltac:(lia)). lia.
Qed.
Lemma open_policy sp sp' bp p : p mod 64 <> 0 -> find_open sp bp p = find_open sp' bp p.
Proof.
  intros H. unfold find_open. pose proof (Z.mod_pos_bound p 64 ltac:(lia)). destruct (rd (bp_words bp) (p / 64)) as [w|]; [|reflexivity]. cbn [bind].
  rewrite (shl_policy sp sp') by lia. reflexivity.
Qed.
Lemma enclose_policy sp sp' bp p : p mod 64 <> 0 -> enclose sp bp p = enclose sp' bp p.
Proof. intros H. unfold enclose. rewrite (open_policy sp sp') by exact H. reflexivity. Qed.

Lemma safe_parens uninit h h0 l : zlen l < 2 ^ 31 -> prefix_ok l ->
  exists bp, bp_build uninit (bv_range l) h h0 = Ok bp /\
  (forall p m, matches l p m -> (p + 1) mod 64 <> 0 -> find_close strict_shift bp p = Ok m) /\
  (forall m, nth_error l m = Some false -> Z.of_nat m mod 64 <> 0 ->
     exists p, find_open strict_shift bp (Z.of_nat m) = Ok p /\ matches l p (Z.of_nat m)) /\
  (forall p q, nth_error l p = Some true -> encloses l q (Z.of_nat p) -> Z.of_nat p mod 64 <> 0 ->
     exists r, enclose strict_shift bp (Z.of_nat p) = Ok r /\ innermost l r (Z.of_nat p)).
Proof.
  intros Hs HP. set (f := fun _ _ : Z => 0).
  destruct (bp_find_close f uninit h h0 l Hs HP) as (bp & E1 & F1 & _).
  destruct (bp_find_open f uninit h h0 l Hs HP) as (bp' & E2 & F2).
  destruct (bp_enclose f uninit h h0 l Hs HP) as (bp'' & E3 & F3).
  rewrite E1 in E2, E3. injection E2 as <-. injection E3 as <-. exists bp. split; [exact E1|]. split; [|split].
  - intros p m M N. rewrite (close_policy strict_shift (loose_shift f)) by exact N. exact (F1 p m M).
  - intros m M N. rewrite (open_policy strict_shift (loose_shift f)) by exact N. exact (F2 m M).
  - intros p q A B N. rewrite (enclose_policy strict_shift (loose_shift f)) by exact N. exact (F3 p q A B).
Qed.

(** Queries without an answer. *)
Lemma pred_loop_none neg ws l fuel : words_ok ws l -> forall k w lim,
  0 <= k -> k < Z.of_nat fuel -> k < zlen ws -> is_u64 w -> 0 <= lim < 64 ->
  (forall i, 0 <= i < 64 -> Z.testbit w i = (i <=? lim) && xorb neg (zbit l (64 * k + i))) ->
  (forall p, 0 <= p <= 64 * k + lim -> zbit l p = neg) ->
  pred_loop neg fuel ws k w = Ub AssertFailed.
Proof.
  intros Hw. induction fuel as [|fuel IH]; intros k w lim Hk Hf Hkw Uw Hlim Bw Lq; [lia|].
  cbn [pred_loop].
  assert (W0 : w = 0).
  { apply bits_inj64; [auto|lia|]. intros i Hi. rewrite Z.testbit_0_l, Bw by lia.
    destruct (Z.leb_spec i lim); auto. rewrite Lq by lia. destruct neg; reflexivity. }
  rewrite W0. cbn [msb_opt bind Z.eqb]. destruct (Z.eqb_spec k 0) as [->|N]; [reflexivity|]. cbn [negb assert_].
  destruct (getw_ok neg ws l (k - 1) Hw ltac:(lia)) as (w' & -> & Uw' & Bw'). cbn [bind].
  apply IH with (lim := 63); auto; try lia; try (intros p Hp; apply Lq; lia).
  intros i Hi. rewrite Bw' by lia. replace (i <=? 63) with true by lia. reflexivity.
Qed.
Lemma predecessor_none neg l pos : 0 <= pos < zlen l -> (forall p, 0 <= p <= pos -> zbit l p = neg) ->
  predecessor_gen neg (canonical l) pos = Ub AssertFailed.
Proof.
  intros Hp Lq. unfold predecessor_gen, canonical; cbn [bv_size bv_words].
  rewrite assert_true by lia. pose proof (block_lt l pos Hp) as Hb.
  set (k := pos / 64) in *. set (s := pos mod 64).
  assert (Hs : 0 <= s < 64) by (apply Z.mod_pos_bound; lia).
  assert (Ep : pos = 64 * k + s) by (unfold k, s; dlia).
  destruct (getw_ok neg (pack l) l k (words_ok_pack l) Hb) as (w & -> & Uw & Bw). cbn [bind].
  rewrite shl_ok by lia. cbn [bind]. rewrite shr_ok by lia. cbn [bind].
  apply pred_loop_none with (l := l) (lim := s); auto; try lia; try apply words_ok_pack.
  - apply shiftr_is; auto with u64s; lia.
  - intros i Hi. rewrite Z.shiftr_spec by lia.
    destruct (Z.leb_spec i s).
    + rewrite testbit_shl64 by lia. replace (i + (64 - s - 1) - (64 - s - 1)) with i by lia.
      rewrite Bw by lia. reflexivity.
    + apply testbit_high64; [apply u64_is|lia].
  - intros p Hpp. apply Lq. lia.
Qed.
Lemma succ_loop_none neg ws l fuel : words_ok ws l -> forall k w lim,
  0 <= k < zlen ws -> zlen ws - k <= Z.of_nat fuel -> is_u64 w -> 0 <= lim < 64 ->
  (forall i, 0 <= i < 64 -> Z.testbit w i = (lim <=? i) && xorb neg (zbit l (64 * k + i))) ->
  (forall p, 64 * k + lim <= p < 64 * zlen ws -> zbit l p = neg) ->
  succ_loop neg fuel ws k w = Ub AssertFailed.
Proof.
  intros Hw. induction fuel as [|fuel IH]; intros k w lim Hk Hf Uw Hlim Bw Lq; [lia|].
  cbn [succ_loop].
  assert (W0 : w = 0).
  { apply bits_inj64; [auto|lia|]. intros i Hi. rewrite Z.testbit_0_l, Bw by lia.
    destruct (Z.leb_spec lim i); auto. rewrite Lq by lia. destruct neg; reflexivity. }
  rewrite W0, lsb_opt_zero. cbn [bind]. destruct (Z.ltb_spec (k + 1) (zlen ws)) as [N|N]; [|reflexivity]. cbn [assert_].
  destruct (getw_ok neg ws l (k + 1) Hw ltac:(lia)) as (w' & -> & Uw' & Bw'). cbn [bind].
  apply IH with (lim := 0); auto; try lia; try (intros p Hp; apply Lq; lia).
  intros i Hi. rewrite Bw' by lia. replace (0 <=? i) with true by lia. reflexivity.
Qed.
Lemma successor_none neg l pos : 0 <= pos < zlen l ->
  (forall p, pos <= p < zlen l -> zbit l p = neg) ->
  successor_gen neg (canonical l) pos = if neg && negb (zlen l mod 64 =? 0) then Ok (zlen l) else Ub AssertFailed.
Proof.
  intros Hp Lq. unfold successor_gen, canonical; cbn [bv_size bv_words].
  rewrite assert_true by lia. pose proof (block_lt l pos ltac:(lia)) as Hb.
  set (k := pos / 64) in *. set (s := pos mod 64).
  assert (Hs : 0 <= s < 64) by (apply Z.mod_pos_bound; lia).
  assert (Ep : pos = 64 * k + s) by (unfold k, s; dlia).
  destruct (getw_ok neg (pack l) l k (words_ok_pack l) Hb) as (w & -> & Uw & Bw). cbn [bind].
  rewrite shr_ok by lia. cbn [bind]. rewrite shl_ok by lia. cbn [bind].
  assert (Bits : forall i, 0 <= i < 64 -> Z.testbit (u64 (Z.shiftl (Z.shiftr w s) s)) i = (s <=? i) && xorb neg (zbit l (64 * k + i))).
  { intros i Hi. rewrite testbit_shl64 by lia. destruct (Z.leb_spec s i).
    + rewrite Z.shiftr_spec by lia. rewrite Bw by lia. cbn [andb]. do 2 f_equal. lia.
    + rewrite Z.testbit_neg_r by lia. reflexivity. }
  destruct neg; [destruct (Z.eqb_spec (zlen l mod 64) 0) as [E|N]|]; cbn [andb negb].
  - apply succ_loop_none with (l := l) (lim := s); auto; try lia; try apply words_ok_pack.
    + unfold zlen. lia.
    + apply u64_is.
    + intros p Hpp. apply Lq. rewrite zlen_pack in Hpp. clear - E Hpp Ep. dlia.
  - apply succ_loop_ok with (l := l) (lim := s); auto; try lia; try apply words_ok_pack.
    + unfold zlen. lia.
    + apply u64_is.
    + rewrite zlen_pack. clear - Hp N Ep. dlia.
    + apply zbit_out. lia.
    + intros p Hpp. apply Lq. lia.
  - apply succ_loop_none with (l := l) (lim := s); auto; try lia; try apply words_ok_pack.
    + unfold zlen. lia.
    + apply u64_is.
    + intros p Hpp. destruct (Z.lt_ge_cases p (zlen l)); [apply Lq; lia|apply zbit_out; lia].
Qed.

Lemma zbit_not l p b : 0 <= p < zlen l -> nth_error l (Z.to_nat p) <> Some b -> zbit l p = negb b.
Proof.
  intros H N. destruct (nth_error l (Z.to_nat p)) as [c|] eqn:E.
  - destruct (zbit_of_nth_error l p c ltac:(lia) E) as [_ ->]. destruct b, c; cbn; congruence.
  - apply nth_error_None in E. unfold zlen in H. lia.
Qed.
Lemma no_answer l pos : 0 <= pos < zlen l ->
  ((forall p, 0 <= p <= pos -> nth_error l (Z.to_nat p) <> Some true) -> predecessor1 (bv_range l) pos = Ub AssertFailed) /\
  ((forall p, 0 <= p <= pos -> nth_error l (Z.to_nat p) <> Some false) -> predecessor0 (bv_range l) pos = Ub AssertFailed) /\
  ((forall p, pos <= p < zlen l -> nth_error l (Z.to_nat p) <> Some true) -> successor1 (bv_range l) pos = Ub AssertFailed).
Proof.
  intros H. rewrite bv_range_ok, predecessor1_eq, predecessor0_eq, successor1_eq. split; [|split]; intros N.
  - apply predecessor_none; auto. intros p Hp. apply (zbit_not l p true); [lia|apply N; lia].
  - apply predecessor_none; auto. intros p Hp. apply (zbit_not l p false); [lia|apply N; lia].
  - rewrite successor_none; auto. intros p Hp. apply (zbit_not l p true); [lia|apply N; lia].
Qed.
Lemma successor0_past l pos : 0 <= pos < zlen l -> (forall p, pos <= p < zlen l -> nth_error l (Z.to_nat p) <> Some false) ->
  successor0 (bv_range l) pos = if zlen l mod 64 =? 0 then Ub AssertFailed else Ok (zlen l).
Proof.
  intros H N. rewrite bv_range_ok, successor0_eq, successor_none; auto.
  - cbn [andb]. destruct (zlen l mod 64 =? 0); reflexivity.
  - intros p Hp. apply (zbit_not l p false); [lia|apply N; lia].
Qed.

(** Calls outside the contract. *)
Lemma assert_false {A} c (k : res A) : c = false -> assert_ c k = Ub AssertFailed.
Proof. intros ->. reflexivity. Qed.
Lemma reject_bits l pos : zlen l <= pos ->
  bv_get (bv_range l) pos = Ub AssertFailed /\ get_word (bv_range l) pos = Ub AssertFailed /\
  predecessor0 (bv_range l) pos = Ub AssertFailed /\ predecessor1 (bv_range l) pos = Ub AssertFailed /\
  successor0 (bv_range l) pos = Ub AssertFailed /\ successor1 (bv_range l) pos = Ub AssertFailed.
Proof.
  intros H. rewrite bv_range_ok. unfold bv_get, get_word, predecessor0, predecessor1, successor0, successor1, canonical. cbn [bv_size].
  repeat split; apply assert_false; lia.
Qed.
Lemma reject_get_bits sp l pos len : zlen l < pos + len < 2 ^ 64 -> get_bits sp (bv_range l) pos len = Ub AssertFailed.
Proof. intros H. rewrite bv_range_ok. unfold get_bits. apply assert_false. cbn [canonical bv_size]. pose proof (zlen_nonneg l). rewrite u64_small; lia. Qed.
Lemma reject_rs l h h0 : exists rs, rs_build (bv_range l) h h0 = Ok rs /\
  (forall pos, zlen l < pos -> rs_rank rs pos = Ub AssertFailed /\ rs_rank0 rs pos = Ub AssertFailed) /\
  (forall n, Z.of_nat (count true l) <= n -> rs_select rs n = Ub AssertFailed) /\
  (forall n, Z.of_nat (count false l) <= n -> rs_select0 rs n = Ub AssertFailed).
Proof.
  destruct (rs_rank_all l h h0) as (rs & E & N1 & N0 & _). exists rs. split; [exact E|].
  assert (B : rs_bv rs = canonical l).
  { destruct (rs_build_ok l h h0) as (rs' & E' & B' & _). rewrite bv_range_ok in E. congruence. }
  split; [|split].
  - intros pos H. assert (R : rs_rank rs pos = Ub AssertFailed).
    { unfold rs_rank. rewrite B. apply assert_false. cbn [canonical bv_size]. lia. }
    split; [exact R|]. unfold rs_rank0. rewrite R. reflexivity.
  - intros n H. unfold rs_select. rewrite N1. cbn [bind]. apply assert_false. lia.
  - intros n H. unfold rs_select0. rewrite N0. cbn [bind]. apply assert_false. lia.
Qed.
Lemma reject_darray neg l : zlen l < 2 ^ 63 -> exists d, darray_build neg (canonical l) = Ok d /\
  forall i bv, Z.of_nat (count (negb neg) l) <= i -> darray_select neg d bv i = Ub AssertFailed.
Proof.
  intros H. destruct (darray_all neg l H) as (d & E & P & _). exists d. split; [exact E|].
  intros i bv Hi. unfold darray_select. apply assert_false. lia.
Qed.
Lemma reject_darray64 gr skips : Forall (fun s => 0 <= s <= 64) skips -> exists b d,
  append1_all gr d64_new skips = Ok b /\ d64_build b = Ok d /\
  forall i, zlen skips <= i -> d64_select d i = Ub AssertFailed.
Proof.
  intros H. destruct (d64_all gr skips H) as (b & d & E1 & E2 & _ & N & _). exists b, d. split; [exact E1|]. split; [exact E2|].
  intros i Hi. unfold d64_select. apply assert_false. lia.
Qed.
Lemma reject_ef gr n m vs index : ef_input n m vs -> exists ef, ef_make gr n m vs index = Ok ef /\
  (forall i, zlen vs <= i -> ef_select ef i = Ub AssertFailed /\ ef_delta ef i = Ub AssertFailed) /\
  (forall i, zlen vs <= i + 1 <= 2 ^ 64 -> ef_select_range ef i = Ub AssertFailed) /\
  (forall pos, n <= pos -> ef_get ef pos = Ub AssertFailed) /\
  (forall pos, n < pos -> ef_rank ef pos = Ub AssertFailed) /\
  (index = false -> forall pos, ef_get ef pos = Ub AssertFailed /\ ef_rank ef pos = Ub AssertFailed).
Proof.
  intros I. destruct (ef_make_ok gr n m vs index I) as (ef & H & E & OK). exists ef. split; [exact E|].
  destruct (ef_store gr n m vs index I) as (ef' & E' & Sz & N1 & _). rewrite E in E'. injection E' as <-.
  unfold ef_num_ones in N1. split; [|split; [|split; [|split]]].
  - intros i Hi. unfold ef_select, ef_delta, darray1_select, darray_select. rewrite (assert_false (i <? _)) by lia. split; reflexivity.
  - intros i Hi. pose proof (zlen_nonneg vs). pose proof I as (_ & Hm & _ & Hk & _). unfold ef_select_range. destruct (Z.eq_dec (i + 1) (2 ^ 64)) as [X|X].
    + destruct (u64 (i + 1) <? ef_num_ones ef); [|reflexivity]. cbn [assert_]. unfold darray1_select, darray_select.
      rewrite (assert_false (i <? _)) by lia. reflexivity.
    + apply assert_false. unfold ef_num_ones. rewrite u64_small; lia.
  - intros pos Hp. unfold ef_get. apply assert_false. lia.
  - intros pos Hp. unfold ef_rank. apply assert_false. lia.
  - intros ->. assert (D : da_positions (ef_d0 ef) = 0).
    { revert E. unfold ef_make. destruct (ef_builder_new gr n m) as [b|]; [|discriminate]. cbn [bind].
      destruct (ef_push_all gr b vs) as [b'|]; [|discriminate]. cbn [bind]. unfold ef_build.
      destruct (bv_of_builder (eb_high b')) as [hi|]; [|discriminate]. cbn [bind]. destruct (darray_build false hi) as [d1|]; [|discriminate].
      cbn [bind]. destruct (bv_of_builder (eb_low b')) as [lo|]; [|discriminate]. cbn [bind]. intros X. injection X as <-. reflexivity. }
    intros pos. unfold ef_get, ef_rank. rewrite D. cbn [Z.eqb negb]. split; match goal with |- assert_ ?c _ = _ => destruct c end; reflexivity.
Qed.
