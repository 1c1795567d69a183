(** Proofs for C104 *)
From Coq Require Import Sorting.Sorted.
From Verif Require Import Base Spec Lib S_BitVector P_BvLib P_RsBuild P_BitVector M_BitVector M_Darray P_Darray M_EliasFano S_EliasFano P_EliasFano
  P_EliasFano2 M_BvSteps P_BvSteps M_EfSteps S_EfSteps P_EfSteps M_SeSteps S_SeSteps.

Lemma unary_next_same ws e : (do (p, u, _) <- unary_next_c ws e; Ok (p, u)) = unary_next ws e.
Proof.
  unfold unary_next_c, unary_next. rewrite <- (next_same _ _ _ _ 0).
  destruct (unary_next_loop_c _ _ _ _ _) as [[[[p b] r] c]|]; reflexivity.
Qed.
Lemma unary_next_count ws e p u c : unary_next_c ws e = Ok (p, u, c) -> c = p / 64 - u_pos e / 64 /\ u_pos u = p.
Proof.
  unfold unary_next_c. intros H. apply bind_inv in H. destruct H as ([[[q b] r] c'] & E & H). injection H as <- <- <-.
  apply next_count in E. destruct E as [-> Hr]. cbn [u_pos]. rewrite align_div by auto. lia.
Qed.

Lemma se_next_same ef e : (do (v, e', _, _) <- se_next_c ef e; Ok (v, e')) = se_next ef e.
Proof.
  unfold se_next_c, se_next.
  assert (L : (do (b, a, _) <- (if se_avail e =? 0 then do w <- get_word (ef_low ef) (se_i e * ef_l ef); Ok (w, sub64 (se_in_word e) 1, 1)
                               else Ok (se_buf e, se_avail e - 1, 0)); Ok (b, a)) =
              (if se_avail e =? 0 then do w <- get_word (ef_low ef) (se_i e * ef_l ef); Ok (w, sub64 (se_in_word e) 1) else Ok (se_buf e, se_avail e - 1))).
  { destruct (se_avail e =? 0); [|reflexivity]. destruct (get_word _ _); reflexivity. }
  rewrite <- L. clear L. destruct (if se_avail e =? 0 then _ else _) as [[[b a] r]|]; [|reflexivity]. cbn [bind].
  assert (U : (do (p, u, _) <- match se_high e with Some u => unary_next_c (bv_words (ef_high ef)) u | None => unary_next_c [] (mk_unary 0 0) end; Ok (p, u)) =
              match se_high e with Some u => unary_next (bv_words (ef_high ef)) u | None => unary_next [] (mk_unary 0 0) end).
  { destruct (se_high e); apply unary_next_same. }
  rewrite <- U. clear U. destruct (match se_high e with Some u => _ | None => _ end) as [[[p u] c]|]; [|reflexivity]. cbn [bind].
  destruct (darray1_select _ _ _) as [s|]; [|reflexivity]. cbn [bind]. unfold assert_. destruct (p =? s); [|reflexivity].
  destruct (shl _ _); [|reflexivity]. cbn [bind]. destruct (shr _ _); reflexivity.
Qed.
Lemma se_run_same ef : forall k e, (do (vs, _, _) <- se_run_c ef e k; Ok vs) = se_run ef e k.
Proof.
  induction k as [|k IH]; intros e; [reflexivity|]. cbn [se_run_c se_run]. rewrite <- se_next_same.
  destruct (se_next_c ef e) as [[[[v e'] c] r]|]; [|reflexivity]. cbn [bind]. rewrite <- IH.
  destruct (se_run_c ef e' k) as [[[vs c'] r']|]; reflexivity.
Qed.

Lemma se_next_count ef e v e' c r u : se_high e = Some u -> se_next_c ef e = Ok (v, e', c, r) ->
  exists u' s, darray1_select (ef_d1 ef) (ef_high ef) (se_i e) = Ok s /\ se_high e' = Some u' /\ u_pos u' = s /\ c = s / 64 - u_pos u / 64 /\
  se_in_word e' = se_in_word e /\
  if se_avail e =? 0 then r = 1 /\ se_avail e' = sub64 (se_in_word e) 1 else r = 0 /\ se_avail e' = se_avail e - 1.
Proof.
  intros Eu. unfold se_next_c. rewrite Eu. intros H. apply bind_inv in H. destruct H as ([[b a] r0] & E & H).
  apply bind_inv in H. destruct H as ([[p u'] c0] & E2 & H). apply unary_next_count in E2. destruct E2 as [-> Ep].
  apply bind_inv in H. destruct H as (s & Es & H). apply assert_inv in H. destruct H as [Hs H]. apply Z.eqb_eq in Hs. subst s.
  apply bind_inv in H. destruct H as (h & _ & H). apply bind_inv in H. destruct H as (b' & _ & H). injection H as <- <- <- <-.
  exists u', p. cbn [se_high se_in_word se_avail]. split; [exact Es|]. split; [reflexivity|]. split; [exact Ep|]. split; [reflexivity|].
  split; [reflexivity|]. destruct (se_avail e =? 0).
  - apply bind_inv in E. destruct E as (w & _ & E). injection E as _ <- <-. auto.
  - injection E as _ <- <-. auto.
Qed.

Section Run.
Variables (ef : elias_fano) (vs : list Z) (n m l : Z) (H : list bool) (idx : bool).
Hypothesis OK : ef_ok ef vs n m l H idx.

(** reads of [k] calls with [a] values left in the buffer *)
Definition reads_left (k : nat) (a : Z) : Z := if l =? 0 then 0 else let w := 64 / l in (Z.of_nat k - a + w - 1) / w.

Lemma fit_range : l <> 0 -> 1 <= 64 / l <= 64.
Proof.
  intros N. pose proof OK as ((Hl & _) & _). split; [apply Z.div_le_lower_bound; lia|].
  apply Z.div_le_upper_bound; nia.
Qed.

Lemma run_count : forall k e i u, 0 <= i -> i + Z.of_nat k <= zlen vs -> seinv vs l H e i -> se_high e = Some u ->
  (l <> 0 -> se_avail e < 64 / l) ->
  exists ws, se_run_c ef e k = Ok (ws, (if Nat.eqb k 0 then 0 else hp vs l (i + Z.of_nat k - 1) / 64 - u_pos u / 64), reads_left k (se_avail e)).
Proof.
  induction k as [|k IH]; intros e i u Hi Hk I Eu Ha.
  - exists []. cbn [se_run_c Nat.eqb]. do 2 f_equal. unfold reads_left. destruct (Z.eqb_spec l 0) as [|N]; [auto|].
    pose proof (fit_range N). specialize (Ha N). pose proof I as (_ & _ & _ & _ & _ & A).
    destruct (Z.eqb_spec l 0) as [|_]; [lia|]. symmetry. apply Z.div_small. cbn. lia.
  - cbn [se_run_c]. destruct (se_next_ok _ _ _ _ _ _ _ e i OK ltac:(lia) I) as (e' & En & I').
    rewrite <- se_next_same in En. apply bind_inv in En. destruct En as ([[[v e''] c] r] & E & En). injection En as -> ->.
    rewrite E. cbn [bind]. pose proof I as (Ei & _ & Ew & _ & _ & A).
    destruct (se_next_count _ _ _ _ _ _ u Eu E) as (u' & s & Es & Eu' & Ep & -> & Ew' & R).
    rewrite Ei, (d1_select _ _ _ _ _ _ _ OK) in Es by lia. injection Es as <-.
    destruct (IH e' (i + 1) u') as (ws & ->); [lia|lia|exact I'|exact Eu'| |].
    { intros N. pose proof (fit_range N). specialize (Ha N). rewrite Ew in R. destruct (Z.eqb_spec l 0); [lia|].
      destruct (se_avail e =? 0); destruct R as [_ ->]; [rewrite sub64_ok; lia|lia]. }
    cbn [bind Nat.eqb]. eexists. f_equal. f_equal; [f_equal|].
    + rewrite Ep. destruct (Nat.eqb_spec k 0) as [Ek|N].
      * rewrite Ek. replace (i + Z.of_nat 1 - 1) with i by lia. lia.
      * replace (i + Z.of_nat (S k) - 1) with (i + 1 + Z.of_nat k - 1) by lia. lia.
    + unfold reads_left in *. rewrite Ew in R. destruct (Z.eqb_spec l 0) as [L|N].
      * assert (se_avail e =? 0 = false) as Q by lia. rewrite Q in R. lia.
      * pose proof (fit_range N) as F. specialize (Ha N). cbv zeta. set (w := 64 / l) in *.
        destruct (Z.eqb_spec (se_avail e) 0) as [Q|Q]; destruct R as [-> ->].
        -- rewrite sub64_ok by lia. rewrite Q. replace (Z.of_nat (S k) - 0 + w - 1) with (Z.of_nat k + 1 * w) by lia.
           rewrite Z.div_add by lia. replace (Z.of_nat k - (w - 1) + w - 1) with (Z.of_nat k) by lia. lia.
        -- replace (Z.of_nat (S k) - se_avail e) with (Z.of_nat k - (se_avail e - 1)) by lia. lia.
Qed.
End Run.

Lemma se_new_pos ef vs n m l H idx i : ef_ok ef vs n m l H idx -> 0 <= i < zlen vs ->
  exists e u, se_new ef i = Ok e /\ seinv vs l H e i /\ se_high e = Some u /\ u_pos u = hp vs l i /\ (l <> 0 -> se_avail e = 0).
Proof.
  intros OK Hi. destruct (se_new_ok _ _ _ _ _ _ _ i OK Hi) as (e & E & I). exists e.
  pose proof OK as ((Hl & _) & _ & El & _). unfold se_new in E. rewrite (num_ones_ok _ _ _ _ _ _ _ OK), El in E.
  apply bind_inv in E. destruct E as (mm & Em & E). replace (zlen vs =? 0) with false in E by lia.
  rewrite (d1_select _ _ _ _ _ _ _ OK) in E by auto. cbn [bind] in E. apply bind_inv in E. destruct E as (u & Eu & E).
  exists u. rewrite assert_true in E by lia. injection E as E. split; [|split; [exact I|]].
  - unfold se_new. rewrite (num_ones_ok _ _ _ _ _ _ _ OK), El, Em. cbn [bind]. replace (zlen vs =? 0) with false by lia.
    rewrite (d1_select _ _ _ _ _ _ _ OK) by auto. cbn [bind]. rewrite Eu. cbn [bind]. rewrite assert_true by lia. rewrite E. reflexivity.
  - rewrite <- E. cbn [se_high se_avail]. split; [reflexivity|]. split.
    + unfold unary_new in Eu. apply bind_inv in Eu. destruct Eu as (w & _ & Eu). apply bind_inv in Eu. destruct Eu as (w' & _ & Eu).
      injection Eu as <-. reflexivity.
    + intros N. destruct (Z.eqb_spec l 0); [lia|reflexivity].
Qed.

Lemma W_is_nth vs i : W vs (Z.of_nat i) = nth i vs 0.
Proof. unfold W. replace (Z.of_nat i <? 0) with false by lia. rewrite Nat2Z.id. reflexivity. Qed.

Lemma enum_cost gr n m vs idx : ef_input n m vs -> exists ef, ef_make gr n m vs idx = Ok ef /\
  forall i k, (i + S k <= length vs)%nat -> exists e, se_new ef (Z.of_nat i) = Ok e /\
  se_run_c ef e (S k) = Ok (window vs i (S k), high_place n m vs (i + k) / 64 - high_place n m vs i / 64, low_reads n m (S k)).
Proof.
  intros I. destruct (ef_make_ok gr n m vs idx I) as (ef & H & E & OK). exists ef. split; [auto|].
  pose proof I as (Hn & Hm & _). intros i k Hk.
  destruct (se_new_pos _ _ _ _ _ _ _ (Z.of_nat i) OK) as (e & u & En & J & Eu & Ep & Ea); [unfold zlen; lia|].
  exists e. split; [auto|].
  destruct (run_count _ _ _ _ _ _ _ OK (S k) e (Z.of_nat i) u) as (ws & R); [lia|unfold zlen; lia|exact J|exact Eu| |].
  { intros N. rewrite Ea by auto. pose proof (fit_range _ _ _ _ _ _ _ OK N). lia. }
  pose proof (se_run_same ef (S k) e) as SR. rewrite R in SR. cbn [bind] in SR.
  rewrite (se_run_ok _ _ _ _ _ _ _ OK (S k) e (Z.of_nat i)) in SR; [|lia|unfold zlen; lia|exact J]. injection SR as ->.
  rewrite R. rewrite Nat2Z.id. f_equal. f_equal; [f_equal|].
  - cbn [Nat.eqb]. rewrite Ep. unfold hp, high_place. rewrite !(bucket_low n m) by lia.
    replace (Z.of_nat i + Z.of_nat (S k) - 1) with (Z.of_nat (i + k)) by lia. rewrite !W_is_nth.
    pose proof OK as ((Hl & _) & _). rewrite !Z.shiftr_div_pow2 by lia. reflexivity.
  - unfold low_reads, reads_left. rewrite (bucket_low n m), Z.log2_pow2 by (pose proof (low_len_range n m Hn); lia). cbv zeta.
    destruct (Z.eqb_spec (low_len n m) 0) as [|N]; [auto|]. rewrite Ea by auto. rewrite Z.sub_0_r. reflexivity.
Qed.

Lemma bucket_pos n m : 1 <= bucket n m.
Proof.
  unfold bucket. destruct (_ || _); [lia|]. pose proof (Z.log2_nonneg (n / m)) as B.
  pose proof (Z.pow_pos_nonneg 2 (Z.log2 (n / m)) ltac:(lia) B). lia.
Qed.
Lemma high_bound n m vs i : ef_input n m vs -> (i < length vs)%nat -> 0 <= high_place n m vs i < 3 * m.
Proof.
  intros (Hn & Hm & _ & Hk & F & _) Hi. unfold high_place.
  assert (Hv : 0 <= nth i vs 0 <= n) by (rewrite Forall_forall in F; apply F, nth_In, Hi). pose proof (bucket_pos n m) as B.
  assert (Z.of_nat i < m) by (unfold zlen in Hk; lia).
  assert (D : nth i vs 0 / bucket n m <= n / bucket n m) by (apply Z.div_le_mono; lia).
  assert (0 <= nth i vs 0 / bucket n m) by (apply Z.div_pos; lia).
  assert (U : n / bucket n m < 2 * m).
  { unfold bucket in *. destruct (Z.eqb_spec m 0) as [|N]; [lia|]. cbn [orb] in *. destruct (Z.ltb_spec n m) as [C|C].
    - rewrite Z.div_1_r. lia.
    - assert (Q : 0 < n / m) by (apply Z.div_str_pos; lia). destruct (Z.log2_spec _ Q) as [_ Q2].
      pose proof (Z.div_mod n m ltac:(lia)) as DM. pose proof (Z.mod_pos_bound n m ltac:(lia)).
      rewrite Z.pow_succ_r in Q2 by apply Z.log2_nonneg.
      apply Z.div_lt_upper_bound; [lia|]. nia. }
  lia.
Qed.
Lemma sorted_nth vs : StronglySorted Z.le vs -> forall i k, (i + S k <= length vs)%nat -> nth i vs 0 <= nth (i + k) vs 0.
Proof.
  induction 1 as [|x l S IH F]; intros i k Hk; [cbn in Hk; lia|].
  destruct k as [|k]; [rewrite Nat.add_0_r; lia|].
  destruct i as [|i].
  - cbn [nth Nat.add length] in *. rewrite Forall_forall in F. apply F, nth_In. lia.
  - change (nth i l 0 <= nth (i + Datatypes.S k) l 0). apply IH. cbn [length] in Hk. lia.
Qed.
Lemma enum_total n m vs i k : ef_input n m vs -> (i + S k <= length vs)%nat ->
  0 <= high_place n m vs (i + k) / 64 - high_place n m vs i / 64 <= 3 * m / 64 /\
  0 <= low_reads n m (S k) <= Z.of_nat (S k).
Proof.
  intros I Hk. pose proof (high_bound n m vs i I ltac:(lia)) as A. pose proof (high_bound n m vs (i + k) I ltac:(lia)) as B. split.
  - assert (high_place n m vs (i + k) / 64 <= 3 * m / 64) by (apply Z.div_le_mono; lia).
    assert (0 <= high_place n m vs i / 64) by (apply Z.div_pos; lia).
    assert (M : high_place n m vs i <= high_place n m vs (i + k)).
    { unfold high_place. pose proof (bucket_pos n m). destruct I as (_ & _ & _ & _ & _ & S).
      assert (nth i vs 0 <= nth (i + k) vs 0).
      { apply sorted_nth; auto. }
      pose proof (Z.div_le_mono (nth i vs 0) (nth (i + k) vs 0) (bucket n m) ltac:(lia) ltac:(lia)). lia. }
    pose proof (Z.div_le_mono _ _ 64 ltac:(lia) M). lia.
  - unfold low_reads. destruct (Z.eqb_spec (Z.log2 (bucket n m)) 0) as [|N]; [lia|]. cbv zeta.
    destruct I as (Hn & Hm & _). pose proof (low_len_range n m Hn ltac:(lia)) as R. rewrite (bucket_low n m), Z.log2_pow2 in * by lia.
    set (w := 64 / low_len n m). assert (1 <= w) by (apply Z.div_le_lower_bound; lia).
    split; [apply Z.div_pos; lia|]. apply Z.div_le_upper_bound; [lia|]. nia.
Qed.
