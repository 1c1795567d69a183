(** Proofs about calls outside the contract: Elias-Fano builders, gamma vectors, nibble vectors,
    parentheses, trees. *)
From Verif Require Import Base Spec Lib M_Broadword P_Broadword P_Broadword2 P_BvLib P_Builder P_BitVector P_BvRank
  M_BitVector S_BitVector P_BvEnum P_RsBuild M_RsBitVector M_Darray S_Darray P_Darray M_EliasFano S_EliasFano P_EliasFano P_EliasFano2
  M_Gamma S_Gamma P_Gamma M_Util P_Util M_Bp S_Bp P_BpBuild P_BpSpec P_BvProps P_RsQuery M_Cartesian P_Cartesian M_Topk S_Safety P_Safety.

(** ** elias_fano: queries without an answer, pushes against the contract *)
Lemma ef_no_answer gr n m vs : ef_input n m vs -> exists ef, ef_make gr n m vs true = Ok ef /\
  (forall pos, 0 <= pos < n -> (pos + 1 = n -> ~ In n vs) -> (forall v, In v vs -> pos < v) -> ef_predecessor1 ef pos = Ub AssertFailed) /\
  (forall pos, 0 <= pos <= n -> (pos = n -> ~ In n vs) -> (forall v, In v vs -> v < pos) -> ef_successor1 ef pos = Ub AssertFailed).
Proof.
  intros I. destruct (ef_ranks gr n m vs I) as (ef & E & R & _). exists ef. split; [exact E|].
  destruct (reject_ef gr n m vs true I) as (ef' & E' & S & _). rewrite E in E'. injection E' as <-.
  pose proof I as (Hn & Hm & _ & Hv & _). split.
  - intros pos Hp Hx Hv'. unfold ef_predecessor1. rewrite u64_small by lia. rewrite R by (auto; lia). cbn [bind].
    replace (filter (fun v => v <? pos + 1) vs) with (@nil Z).
    + apply S. change (sub64 (zlen (@nil Z)) 1) with (2 ^ 64 - 1). lia.
    + symmetry. clear - Hv'. induction vs as [|v vs IH]; [reflexivity|]. cbn [filter]. pose proof (Hv' v (or_introl eq_refl)).
      replace (v <? pos + 1) with false by lia. apply IH. intros w Hw. apply Hv'. right. exact Hw.
  - intros pos Hp Hx Hv'. unfold ef_successor1. rewrite R by auto. cbn [bind].
    replace (filter (fun v => v <? pos) vs) with vs.
    + apply S. lia.
    + symmetry. clear - Hv'. induction vs as [|v vs IH]; [reflexivity|]. cbn [filter]. pose proof (Hv' v (or_introl eq_refl)).
      replace (v <? pos) with true by lia. f_equal. apply IH. intros w Hw. apply Hv'. right. exact Hw.
Qed.

Lemma ef_push_reject gr n m vs : ef_input n m vs -> exists b,
  (do b <- ef_builder_new gr n m; ef_push_all gr b vs) = Ok b /\
  forall i, n < i \/ (exists v, In v vs /\ i < v) \/ (zlen vs = m /\ 0 <= i) -> ef_push gr b i = Ub AssertFailed.
Proof.
  intros (Hn & Hm & H0 & Hk & F & S).
  destruct (ef_builder_new_ok gr n m (fits_simple n m Hn Hm H0)) as (b0 & H & -> & I0). cbn [bind].
  destruct (push_all_ok gr n m _ vs b0 [] H I0) as (b & H' & -> & I); auto.
  { intros i v. change (zlen (@nil Z)) with 0. lia. }
  exists b. split; [reflexivity|]. cbn [app] in I. set (l := low_len n m) in *.
  destruct I as ((Hl & _ & Hv & Hmono & Hkm & LH & BH & PH) & E1 & E2 & E3 & E4 & E5 & B1 & B2).
  intros i C. pose proof (zlen_nonneg vs) as N. unfold ef_push.
  destruct ((eb_last b <=? i) && (i <=? eb_n b)) eqn:A; [|reflexivity]. cbn [assert_].
  assert (A1 : eb_last b <= i <= n) by (rewrite E1 in A; lia). clear A.
  assert (B : zlen vs = m /\ 0 <= i).
  { destruct C as [C|[(v & Iv & C)|C]]; [lia| |exact C]. exfalso. apply In_W in Iv. destruct Iv as (j & Hj & <-).
    rewrite E5 in A1. replace (zlen vs =? 0) with false in A1 by lia. pose proof (Hmono j (zlen vs - 1) ltac:(lia) ltac:(lia)). lia. }
  destruct B as [Bm Bi]. rewrite E4, shl_ok by lia. cbn [bind]. rewrite land_mask by lia.
  assert (LB : exists low, (if l =? 0 then Ok (eb_low b) else append_bits gr (eb_low b) (i mod 2 ^ l) l) = Ok low).
  { destruct (Z.eqb_spec l 0); [eauto|].
    destruct (append_bits_ok gr (eb_low b) _ (i mod 2 ^ l) l B2 ltac:(lia)) as (low & -> & _); [|eauto].
    apply Z.mod_pos_bound. apply Z.pow_pos_nonneg; lia. }
  destruct LB as (low & ->). cbn [bind]. rewrite shr_ok by lia. cbn [bind]. rewrite E3.
  assert (S0 : 0 <= Z.shiftr i l) by (apply Z.shiftr_nonneg; lia).
  assert (Sn : Z.shiftr i l <= Z.shiftr n l) by (apply shiftr_mono; lia).
  destruct (bset_ok (eb_high b) H' (Z.shiftr i l + zlen vs) true B1 ltac:(lia)) as (high & -> & _). cbn [bind].
  apply assert_false. lia.
Qed.

(** rank(size()) is the number of all values *)
Lemma ef_rank_size gr n m vs : ef_input n m vs -> exists ef, ef_make gr n m vs true = Ok ef /\
  ef_rank ef n = Ok (zlen vs) /\
  (ef_rank ef n = Ok (zlen (filter (fun v => v <? n) vs)) <-> ~ In n vs).
Proof.
  intros I. destruct (ef_make_ok gr n m vs true I) as (ef & H & E & OK). exists ef. split; [exact E|].
  destruct (ef_store gr n m vs true I) as (ef' & E' & Sz & N1 & _). rewrite E in E'. injection E' as <-.
  assert (R : ef_rank ef n = Ok (zlen vs)).
  { unfold ef_rank. rewrite Sz. rewrite assert_true by lia. rewrite Z.eqb_refl, N1.
    rewrite assert_true by exact (d0_nonzero _ _ _ _ _ _ _ OK eq_refl). reflexivity. }
  split; [exact R|]. pose proof I as (_ & _ & _ & _ & F & _). rewrite R. clear - F. split.
  - intros X Y. injection X as X. revert X. clear F. assert (G : forall vs, zlen (filter (fun v => v <? n) vs) <= zlen vs).
    { clear. induction vs as [|v vs IH]; [reflexivity|]. cbn [filter]. destruct (v <? n); rewrite ?zlen_cons; lia. }
    induction vs as [|v vs IH]; [destruct Y|]. cbn [filter]. destruct Y as [->|Y].
    + rewrite Z.ltb_irrefl, zlen_cons. specialize (G vs). lia.
    + rewrite zlen_cons. specialize (G vs). specialize (IH Y). destruct (v <? n); rewrite ?zlen_cons; lia.
  - intros N. do 2 f_equal. induction F as [|v vs Hv F IH]; [reflexivity|]. cbn [filter].
    assert (v <> n) by (intros ->; apply N; left; reflexivity). replace (v <? n) with true by lia. f_equal. apply IH.
    intros X. apply N. right. exact X.
Qed.

(** ** gamma vectors *)
Lemma zlen_d64_seq ss : Forall (fun s => 0 <= s) ss -> zlen (d64_seq ss) = sum ss + zlen ss.
Proof.
  induction 1 as [|s ss Hs F IH]; [reflexivity|]. change (d64_seq (s :: ss)) with ((repeat false (Z.to_nat s) ++ [true]) ++ d64_seq ss).
  change (sum (s :: ss)) with (s + sum ss). rewrite !zlen_app, !zlen_cons, IH, zlen_repeat. change (zlen (@nil bool)) with 0. lia.
Qed.
Lemma hs_len k g ys : k = 0 \/ k = 1 -> gamma_ok k g ys -> zlen (d64_seq (0 :: zs_of k ys)) = hpos k ys (zlen ys) + 1.
Proof.
  intros K OK. pose proof (zs_range k ys ltac:(lia) (proj1 OK)) as Z.
  rewrite zlen_d64_seq by (constructor; [lia|eapply Forall_impl; [|exact Z]; cbv beta; intros; lia]).
  rewrite (zlen_zs k ys). change (sum (0 :: zs_of k ys)) with (sum (zs_of k ys)).
  pose proof (sum_zs k ys (zlen ys) ltac:(pose proof (zlen_nonneg ys); lia)) as S.
  rewrite firstn_all2 in S by (unfold zs_of; rewrite map_length; unfold zlen; lia). rewrite S. unfold hpos. lia.
Qed.
Lemma g_past k g ys i : k = 0 \/ k = 1 -> gamma_ok k g ys -> zlen ys <= i ->
  d64_select (g_high g) i = Ub AssertFailed \/
  (d64_select (g_high g) i = Ok (hpos k ys (zlen ys)) /\ bv_get (d64_bits (g_high g)) (hpos k ys (zlen ys)) = Ok true /\
   get_word (d64_bits (g_high g)) (hpos k ys (zlen ys) + 1) = Ub AssertFailed).
Proof.
  intros K OK Hi. pose proof (zlen_nonneg ys). destruct (Z.eq_dec i (zlen ys)) as [->|].
  - right. split; [apply (g_select _ _ _ K OK); lia|]. pose proof (hs_len k g ys K OK) as L.
    pose proof (hs_one k g ys K OK (zlen ys) ltac:(lia)) as O. pose proof (hpos_nonneg k g ys K OK (zlen ys) ltac:(lia)).
    destruct OK as (F & _ & E & _). rewrite E. split.
    + rewrite bv_get_ok by lia. f_equal. exact O.
    + unfold get_word. apply assert_false. cbn [canonical bv_size]. lia.
  - left. unfold d64_select. apply assert_false. destruct OK as (_ & _ & _ & E & _). lia.
Qed.
Lemma gv_past g ints i : gamma_ok 0 g ints -> zlen ints <= i -> gv_get g i = Ub AssertFailed.
Proof.
  intros OK Hi. unfold gv_get. destruct (g_past 0 g ints i (or_introl eq_refl) OK Hi) as [->|(-> & B & W)]; [reflexivity|].
  cbn [bind]. unfold gv_retrieve. rewrite B. cbn [bind assert_]. rewrite W. reflexivity.
Qed.
Lemma gb_past g ints i : gamma_ok 1 g (succs ints) -> zlen ints <= i -> gb_get g i = Ub AssertFailed.
Proof.
  intros OK Hi. unfold gb_get. destruct (g_past 1 g (succs ints) i (or_intror eq_refl) OK) as [->|(-> & B & W)]; [rewrite zlen_succs; exact Hi|reflexivity|].
  cbn [bind]. unfold gb_retrieve. rewrite B. cbn [bind assert_]. rewrite W. reflexivity.
Qed.

(** a unary enumerator behind the last one reads outside the vector *)
Lemma unary_next_loop_none l : forall fuel k w lo pos, 0 <= k < zlen (pack l) -> pos / 64 = k -> masked w (padded l) k lo -> 0 <= lo <= 64 ->
  (forall j, 64 * k + lo <= j -> zbit (padded l) j = false) -> zlen (pack l) - k <= Z.of_nat fuel ->
  unary_next_loop fuel (pack l) pos w = Ub OutOfBounds.
Proof.
  induction fuel as [|fuel IH]; intros k w lo pos Hk Hp Hw Hlo Hz Hf; [lia|]. cbn [unary_next_loop].
  assert (w = 0).
  { destruct Hw as [U B]. apply Z.bits_inj'. intros i Hi. rewrite Z.bits_0. destruct (Z.lt_ge_cases i 64).
    - rewrite B by lia. destruct (Z.leb_spec lo i); auto. cbn [andb]. apply Hz. lia.
    - apply testbit_high64; auto. }
  subst w. rewrite lsb_opt_zero. cbn [bind]. replace ((pos + 64) / 64) with (k + 1) by dlia.
  destruct (Z.eq_dec (k + 1) (zlen (pack l))) as [E|N].
  - unfold rd. replace ((0 <=? k + 1) && (k + 1 <? zlen (pack l))) with false by lia. reflexivity.
  - rewrite W_rd by lia. cbn [bind]. apply (IH (k + 1) _ 0); try lia; try dlia.
    + destruct (words_ok_pack l) as (U & E & B). split; [auto with u64s|]. intros i Hi.
      rewrite zbit_padded, B by (clear - Hk N Hi E; lia). replace (0 <=? i) with true by lia. reflexivity.
    + intros j Hj. apply Hz. lia.
Qed.
Lemma unary_next_none l u s : uinv u l s -> rank true l (ustart s) = count true l -> unary_next (pack l) u = Ub OutOfBounds.
Proof.
  intros (H1 & H2 & H3 & H4) R. unfold unary_next. pose proof (ulo_range s H2) as Ul. assert (P0 : 0 <= fst s / 64) by (apply Z.div_pos; lia).
  rewrite H1, (unary_next_loop_none l _ (fst s / 64) _ _ (fst s) (conj P0 H3) eq_refl H4 Ul); [reflexivity| |unfold zlen; lia].
  intros j Hj. destruct (zbit (padded l) j) eqn:Z; [|reflexivity]. exfalso. rewrite zbit_padded in Z.
  pose proof (zbit_pos l j true Z eq_refl) as Bj. pose proof (zbit_nth_error l j Bj) as E. rewrite Z in E.
  pose proof (rank_S true l (Z.to_nat j) true E) as RS. cbn [eqb] in RS.
  rewrite ustart_eq in R by exact H2.
  pose proof (rank_mono true l (Z.to_nat (64 * (fst s / 64) + (fst s mod 64 + Z.b2z (snd s)))) (Z.to_nat j) ltac:(lia)).
  pose proof (rank_mono true l (S (Z.to_nat j)) (length l) ltac:(unfold zlen in Bj; lia)) as M.
  unfold rank in M at 2. rewrite firstn_all in M. lia.
Qed.

Lemma ge_next_none k g ys e : k = 0 \/ k = 1 -> gamma_ok k g ys -> geinv k ys e (zlen ys) -> ge_unary_next g (ge_high e) = Ub OutOfBounds.
Proof.
  intros K OK (_ & _ & (u & s & Eu & U & Ru) & _). rewrite Eu. cbn [ge_unary_next].
  pose proof (hs_count k ys) as C. rewrite zlen_positions in C.
  destruct OK as (_ & _ & E & _). rewrite E. cbn [canonical bv_words]. apply (unary_next_none _ u s U). lia.
Qed.
Lemma gv_run_past g ints : gamma_ok 0 g ints -> forall n e i, 0 <= i -> i + Z.of_nat n = zlen ints ->
  geinv 0 ints e i -> gv_run g e (n + 1) = Ub OutOfBounds.
Proof.
  intros OK. induction n as [|n IH]; intros e i Hi Hn I; cbn [Nat.add gv_run].
  - unfold gv_enum_next. replace i with (zlen ints) in I by lia. rewrite assert_true.
    + rewrite (ge_next_none 0 g ints e (or_introl eq_refl) OK I). reflexivity.
    + destruct I as (-> & _). rewrite (g_size _ _ _ OK). lia.
  - destruct (gv_enum_next_ok g ints e i OK ltac:(lia) I) as (e' & -> & I'). cbn [bind].
    rewrite (IH e' (i + 1) ltac:(lia) ltac:(lia) I'). reflexivity.
Qed.
Lemma gb_run_past g ints : gamma_ok 1 g (succs ints) -> Forall (fun x => 0 <= x) ints -> forall n e i, 0 <= i -> i + Z.of_nat n = zlen ints ->
  geinv 1 (succs ints) e i -> gb_run g e (repeat GNext (n + 1)) = Ub OutOfBounds.
Proof.
  intros OK F. induction n as [|n IH]; intros e i Hi Hn I; cbn [Nat.add repeat gb_run].
  - unfold gb_enum_next. replace i with (zlen (succs ints)) in I by (rewrite zlen_succs; lia). rewrite assert_true.
    + rewrite (ge_next_none 1 g (succs ints) e (or_intror eq_refl) OK I). reflexivity.
    + destruct I as (-> & _). rewrite (g_size _ _ _ OK). lia.
  - destruct (gb_enum_next_ok g ints e i OK F ltac:(lia) I) as (e' & -> & I'). cbn [bind].
    rewrite (IH e' (i + 1) ltac:(lia) ltac:(lia) I'). reflexivity.
Qed.
Lemma reject_gv gr ints : Forall (fun x => 0 <= x < 2 ^ 64 - 1) ints -> zlen ints < 2 ^ 57 -> exists g, gv_build gr ints = Ok g /\
  forall i, zlen ints <= i -> gv_get g i = Ub AssertFailed.
Proof. intros F L. destruct (gv_build_ok gr ints F L) as (g & E & OK). exists g. split; [exact E|]. intros i. apply gv_past, OK. Qed.
Lemma reject_gb gr ints : Forall (fun x => 0 <= x < 2 ^ 64 - 2) ints -> zlen ints < 2 ^ 57 -> exists g, gb_build gr ints = Ok g /\
  forall i, zlen ints <= i -> gb_get g i = Ub AssertFailed.
Proof. intros F L. destruct (gb_build_ok gr ints F L) as (g & E & OK). exists g. split; [exact E|]. intros i. apply gb_past, OK. Qed.

Lemma gv_end gr ints : Forall (fun x => 0 <= x < 2 ^ 64 - 1) ints -> zlen ints < 2 ^ 57 -> exists g, gv_build gr ints = Ok g /\
  forall i, (i <= length ints)%nat -> exists e, gv_enum_new g (Z.of_nat i) = Ok e /\ gv_run g e (length ints - i + 1) = Ub OutOfBounds.
Proof.
  intros F L. destruct (gv_build_ok gr ints F L) as (g & E & OK). exists g. split; [exact E|].
  intros i Hi. destruct (Nat.eq_dec i (length ints)) as [->|N].
  - unfold gv_enum_new. rewrite (g_size _ _ _ OK). replace (Z.of_nat (length ints) <? zlen ints) with false by (unfold zlen; lia).
    eexists. split; [reflexivity|]. replace (length ints - length ints + 1)%nat with 1%nat by lia. cbn [gv_run]. unfold gv_enum_next. cbn [ge_idx].
    rewrite (g_size _ _ _ OK), assert_true by (unfold zlen; lia). reflexivity.
  - destruct (gv_enum_new_ok g ints (Z.of_nat i) OK) as (e & -> & I); [unfold zlen; lia|]. exists e. split; [reflexivity|].
    apply (gv_run_past g ints OK _ e (Z.of_nat i)); auto; unfold zlen; lia.
Qed.
Lemma gb_end gr ints : Forall (fun x => 0 <= x < 2 ^ 64 - 2) ints -> zlen ints < 2 ^ 57 -> exists g, gb_build gr ints = Ok g /\
  forall i, (i <= length ints)%nat -> exists e, gb_enum_new g (Z.of_nat i) = Ok e /\
    gb_run g e (repeat GNext (length ints - i + 1)) = Ub OutOfBounds.
Proof.
  intros F L. destruct (gb_build_ok gr ints F L) as (g & E & OK). exists g. split; [exact E|].
  intros i Hi. destruct (Nat.eq_dec i (length ints)) as [->|N].
  - unfold gb_enum_new. rewrite (g_size _ _ _ OK), zlen_succs. replace (Z.of_nat (length ints) <? zlen ints) with false by (unfold zlen; lia).
    eexists. split; [reflexivity|]. replace (length ints - length ints + 1)%nat with 1%nat by lia. cbn [repeat gb_run]. unfold gb_enum_next. cbn [ge_idx].
    rewrite (g_size _ _ _ OK), zlen_succs, assert_true by (unfold zlen; lia). reflexivity.
  - destruct (gb_enum_new_ok g ints (Z.of_nat i) OK) as (e & -> & I); [unfold zlen; lia|]. exists e. split; [reflexivity|].
    apply (gb_run_past g ints OK) with (i := Z.of_nat i); auto; try (unfold zlen; lia).
    eapply Forall_impl; [|exact F]. cbv beta. intros; lia.
Qed.

(** ** nibble_vector, bp_vector, cartesian_tree, topk_vector *)
Lemma reject_nv l : Forall (fun x => 0 <= x < 16) l -> exists n, nv_build l = Ok n /\
  forall i, zlen l <= i -> nv_get n i = Ub AssertFailed.
Proof. intros F. destruct (nv_ok l F) as (n & E & S & _). exists n. split; [exact E|]. intros i Hi. unfold nv_get. apply assert_false. lia. Qed.
Lemma nv_loop_reject : forall a x b nb par cur size, Forall (fun y => 0 <= y < 16) a -> 16 <= x ->
  nv_loop (a ++ x :: b) nb par cur size = Ub AssertFailed.
Proof.
  induction a as [|y a IH]; intros x b nb par cur size F Hx; cbn [app nv_loop].
  - apply assert_false. lia.
  - inversion F; subst. rewrite assert_true by lia. destruct (negb (negb par)); apply IH; auto.
Qed.
Lemma reject_nv_build a x b : Forall (fun y => 0 <= y < 16) a -> 16 <= x -> nv_build (a ++ x :: b) = Ub AssertFailed.
Proof. intros. apply nv_loop_reject; auto. Qed.

Lemma reject_bp sp uninit h h0 l : zlen l < 2 ^ 31 -> prefix_ok l -> exists bp, bp_build uninit (bv_range l) h h0 = Ok bp /\
  (forall p, nth_error l p <> Some true -> find_close sp bp (Z.of_nat p) = Ub AssertFailed /\ enclose sp bp (Z.of_nat p) = Ub AssertFailed) /\
  find_open sp bp 0 = Ub AssertFailed /\
  (forall cs a b, b < a -> excess_rmq cs bp a b = Ub AssertFailed).
Proof.
  intros Hs HP. destruct (bp_build_ok l uninit h h0 Hs (proj1 (prefix_ok_nonneg l) HP)) as (bp & Eb & HB).
  exists bp. split; [exact Eb|]. destruct HB as ((Hbv & _) & _). split; [|split].
  - intros p Np. assert (G : (do b <- bv_get (rs_bv (bp_rs bp)) (Z.of_nat p); assert_ b (Ok tt)) = Ub AssertFailed).
    { rewrite Hbv. destruct (nth_error l p) as [b|] eqn:E.
      - rewrite (bv_get_nth l p b E). cbn [bind]. destruct b; [congruence|reflexivity].
      - apply nth_error_None in E. unfold bv_get. rewrite assert_false; [reflexivity|]. cbn [canonical bv_size]. unfold zlen. lia. }
    unfold find_close, enclose. destruct (bv_get (rs_bv (bp_rs bp)) (Z.of_nat p)) as [[|]|r]; cbn [bind assert_] in G |- *; try discriminate; auto.
    injection G as ->. auto.
  - reflexivity.
  - intros cs a b H. unfold excess_rmq. apply assert_false. lia.
Qed.
Lemma reject_rmq cs bp a b : b < a -> ct_rmq cs bp a b = Ub AssertFailed.
Proof. intros H. unfold ct_rmq. apply assert_false. lia. Qed.
Lemma reject_topk {T} cs (tk : topk_vector T) s a b : b < a -> te_set cs tk s a b = Ub AssertFailed.
Proof. intros H. unfold te_set. apply assert_false. lia. Qed.

(** ** lists *)
Lemma reject_efl gr ints : Forall (fun x => 0 <= x) ints -> sum ints < 2 ^ 64 - 1 -> zlen ints < 2 ^ 61 ->
  exists c, efl_build gr ints = Ok c /\ forall i, zlen ints <= i -> efl_get c i = Ub AssertFailed.
Proof.
  intros F S L. destruct (efl_all gr ints F S L) as (c & E & N & _). exists c. split; [exact E|]. intros i Hi.
  unfold efl_size, ef_num_ones in N. unfold efl_get, ef_delta, darray1_select, darray_select. rewrite (assert_false (i <? _)) by lia. reflexivity.
Qed.
Lemma reject_efc gr ints : Forall (fun x => 0 <= x < 2 ^ 64 - 1) ints -> zlen ints < 2 ^ 57 ->
  exists c, efc_build gr ints = Ok c /\ forall i, zlen ints <= i < 2 ^ 64 -> efc_get c i = Ub AssertFailed.
Proof.
  intros F L. destruct (efc_full gr ints F L) as (c & E & N & _). exists c. split; [exact E|]. intros i Hi.
  pose proof (zlen_nonneg ints). unfold efc_get, ef_select_range. destruct (Z.eq_dec (i + 1) (2 ^ 64)) as [X|X].
  - destruct (u64 (i + 1) <? ef_num_ones (efc_ef c)); [|reflexivity]. cbn [assert_]. unfold ef_num_ones in N. unfold darray1_select, darray_select.
    rewrite (assert_false (i <? _)) by lia. reflexivity.
  - rewrite (assert_false (u64 (i + 1) <? _)); [reflexivity|]. rewrite u64_small; lia.
Qed.

(** ** calls that pass the first assertion *)
Lemma rd_past {A} (l : list A) i : zlen l <= i -> rd l i = Ub OutOfBounds.
Proof. intros H. unfold rd. replace ((0 <=? i) && (i <? zlen l)) with false by lia. reflexivity. Qed.
Lemma get_bits_wraps sp l pos len : zlen l < 2 ^ 63 -> 0 < len < 64 -> pos < 2 ^ 64 <= pos + len -> pos + len - 2 ^ 64 <= zlen l ->
  get_bits sp (bv_range l) pos len = Ub OutOfBounds.
Proof.
  intros L Hl Hp Hs. rewrite bv_range_ok. unfold get_bits. cbn [canonical bv_size bv_words].
  assert (U : u64 (pos + len) = pos + len - 2 ^ 64).
  { unfold u64. symmetry. apply (Z.mod_unique_pos _ _ 1); lia. }
  rewrite U, assert_true by lia. replace (len =? 0) with false by lia.
  unfold shl_p. replace ((0 <=? len) && (len <? 64)) with true by lia. cbn [bind].
  rewrite rd_past; [reflexivity|]. rewrite zlen_pack. clear U. dlia.
Qed.
Lemma find_open_past sp uninit h h0 l pos : zlen l < 2 ^ 31 -> prefix_ok l -> 64 * ((zlen l + 63) / 64) <= pos -> pos <> 0 ->
  exists bp, bp_build uninit (bv_range l) h h0 = Ok bp /\ find_open sp bp pos = Ub OutOfBounds.
Proof.
  intros Hs HP Hp N. destruct (bp_build_ok l uninit h h0 Hs (proj1 (prefix_ok_nonneg l) HP)) as (bp & Eb & HB).
  exists bp. split; [exact Eb|]. destruct HB as ((Hbv & _) & _). unfold find_open, bp_words. rewrite Hbv.
  rewrite assert_true by lia. cbn [canonical bv_words]. rewrite rd_past; [reflexivity|]. rewrite zlen_pack. dlia.
Qed.
Lemma rmq_same cs bp a : ct_rmq cs bp a a = Ok a.
Proof. unfold ct_rmq. rewrite assert_true by lia. rewrite Z.eqb_refl. reflexivity. Qed.
Lemma reject_ct {T} (comp : T -> T -> bool) gr uninit e v : 2 * zlen v + 2 < 2 ^ 31 -> exists ct, ct_build gr uninit comp e v = Ok ct /\
  (forall cs a b, b < a -> ct_rmq cs ct a b = Ub AssertFailed) /\
  (forall cs a b, a < b -> zlen v <= b < 2 ^ 63 -> ct_rmq cs ct a b = Ub AssertFailed).
Proof.
  intros Hn. pose proof (seq_len comp v) as SL. destruct (ct_build_bits comp gr uninit e v) as (r & -> & ->).
  destruct (bp_build_ok (seq_of comp v) uninit false true ltac:(lia) (seq_nonneg comp v)) as (bp & -> & HB).
  exists bp. split; [reflexivity|]. split; [intros cs a b; apply reject_rmq|]. intros cs a b Hab Hb. pose proof (zlen_nonneg v).
  destruct HB as (R & _). unfold ct_rmq. rewrite assert_true by lia. replace (a =? b) with false by lia.
  assert (S : ct_size bp = zlen v).
  { unfold ct_size, bp_size. destruct R as (-> & _). cbn [canonical bv_size]. rewrite SL.
    replace (2 * zlen v + 2) with ((zlen v + 1) * 2) by lia. rewrite Z.div_mul by lia. rewrite sub64_ok; lia. }
  rewrite S. assert (K : sub64 (sub64 (zlen v) b) 1 = zlen v - b - 1 + 2 ^ 64).
  { assert (E2 : forall x y, 0 <= x -> x < y < 2 ^ 64 -> u64 (x - y) = x - y + 2 ^ 64).
    { intros x y Hx Hy. unfold u64. symmetry. apply (Z.mod_unique_pos _ _ (-1)); lia. }
    unfold sub64 at 2. destruct (Z.leb_spec b (zlen v)).
    - replace (zlen v - b) with 0 by lia. reflexivity.
    - rewrite E2 by lia. unfold sub64. replace (1 <=? zlen v - b + 2 ^ 64) with true by lia. lia. }
  rewrite K. unfold rs_select0. rewrite (P_RsQuery.num_zeros_ok _ _ R). cbn [bind].
  rewrite (assert_false (_ <? _)); [reflexivity|]. pose proof (count_le false (seq_of comp v)). unfold zlen in SL, Hn, Hb |- *. lia.
Qed.
Lemma reject_lists gr ints : Forall (fun x => 0 <= x < 2 ^ 64 - 1) ints -> zlen ints < 2 ^ 57 ->
  (sum ints < 2 ^ 64 - 1 -> exists c, efl_build gr ints = Ok c /\ forall i, zlen ints <= i -> efl_get c i = Ub AssertFailed) /\
  (exists c, efc_build gr ints = Ok c /\ forall i, zlen ints <= i < 2 ^ 64 -> efc_get c i = Ub AssertFailed) /\
  (exists g, gv_build gr ints = Ok g /\ forall i, zlen ints <= i -> gv_get g i = Ub AssertFailed) /\
  (Forall (fun x => x < 2 ^ 64 - 2) ints -> exists g, gb_build gr ints = Ok g /\ forall i, zlen ints <= i -> gb_get g i = Ub AssertFailed).
Proof.
  intros F L. split; [|split; [|split]].
  - intros S. apply reject_efl; [|exact S|lia]. eapply Forall_impl; [|exact F]. cbv beta. intros; lia.
  - apply reject_efc; assumption.
  - apply reject_gv; assumption.
  - intros F2. apply reject_gb; [|exact L]. rewrite Forall_forall in F, F2 |- *. intros x Hx. specialize (F x Hx). specialize (F2 x Hx). lia.
Qed.

(** ** get_word56 *)
Lemma load_le_out ws : forall n i, 0 <= i -> 8 * zlen ws < i + Z.of_nat n -> load_le ws i n = Ub OutOfBounds \/ 8 * zlen ws < i /\ n = 0%nat.
Proof.
  induction n as [|n IH]; intros i Hi H; cbn [load_le]; [right; lia|]. left. unfold byte_of_words.
  destruct (Z_lt_le_dec i (8 * zlen ws)) as [L|L].
  - rewrite W_rd by dlia. cbn [bind]. destruct (IH (i + 1) ltac:(lia) ltac:(lia)) as [->|(X & _)]; [reflexivity|lia].
  - rewrite rd_oob by dlia. reflexivity.
Qed.
Lemma get_word56_out l pos : 0 <= pos -> 8 * ((zlen l + 63) / 64) < pos / 8 + 8 -> get_word56 (bv_range l) pos = Ub OutOfBounds.
Proof.
  intros Hp H. rewrite bv_range_ok. unfold get_word56, canonical. cbn [bv_words]. pose proof (zlen_pack l) as E.
  destruct (load_le_out (pack l) 8 (pos / 8)) as [->|(_ & X)]; [dlia|lia|reflexivity|discriminate].
Qed.
