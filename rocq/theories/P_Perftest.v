(** monotone_generator and the benchmark of elias_fano. *)
From Coq Require Import Sorted.
From Verif Require Import Base Spec Lib M_Broadword M_BitVector M_RsBitVector M_Bp M_Cartesian M_EliasFano M_Gen.
From Verif Require Import S_EliasFano P_BvLib P_Broadword P_EliasFano2.
From Verif Require Import M_Perftest S_Perftest.

Lemma timeit_once {A} (body : A -> res A) n a : timeit (S n) false body a = body a.
Proof. cbn [timeit]. destruct (body a); cbn [bind]; [|reflexivity]. destruct n; reflexivity. Qed.

(** the subtrees on the stack, from left to right *)
Fixpoint good (bits lo : Z) (st : list state_t) : Prop :=
  match st with
  | [] => True
  | (w, c, d) :: st => lo <= w /\ 1 <= c < 2 ^ 64 /\ 0 <= d <= bits /\ (exists q, w = 2 ^ (bits - d) * q) /\
      w + 2 ^ (bits - d) <= 2 ^ bits /\ good bits (w + 2 ^ (bits - d)) st
  end.
Definition total (st : list state_t) : Z := fold_right (fun s t => snd (fst s) + t) 0 st.
Lemma good_le bits lo lo' st : lo' <= lo -> good bits lo st -> good bits lo' st.
Proof. destruct st as [|[[w c] d] st]; cbn [good]; [auto|]. intros H (H1 & R). split; [lia|exact R]. Qed.
Lemma total_nonneg bits : forall st lo, good bits lo st -> 0 <= total st /\ (total st = 0 -> st = []).
Proof.
  induction st as [|[[w c] d] st IH]; intros lo H; cbn [total fold_right snd fst]; [split; [lia|auto]|].
  destruct H as (_ & H & _ & _ & _ & G). apply IH in G. destruct G as (G & _). unfold total in G. split; [lia|]. intros E. lia.
Qed.

Lemma descend_ok pick bits : draws pick -> 0 <= bits <= 64 -> forall fuel k st w c d lo, bits - d <= Z.of_nat fuel -> 0 <= lo ->
  good bits lo ((w, c, d) :: st) -> exists w' c' st' k', descend pick bits fuel k st w c d = Ok ((w', c', bits), st', k') /\
    good bits lo ((w', c', bits) :: st') /\ total ((w', c', bits) :: st') = total ((w, c, d) :: st).
Proof.
  intros P Hb. induction fuel as [|fuel IH]; intros k st w c d lo Hf Hlo G; cbn [descend].
  - assert (d = bits) by (cbn [good] in G; lia). subst d. rewrite Z.ltb_irrefl. eauto 10.
  - destruct (Z.ltb_spec d bits) as [Hd|Hd]; [|assert (d = bits) by (cbn [good] in G; lia); subst d; eauto 10].
    cbn [good] in G. destruct G as (G1 & G2 & G3 & (q & G4) & G5 & G6).
    destruct (P k c ltac:(lia)) as (P1 & P2). set (l := pick k c) in *. unfold sub64. replace (l <=? c) with true by lia.
    set (s := bits - d) in *. assert (Es : 2 ^ s = 2 * 2 ^ (s - 1)) by (replace s with (1 + (s - 1)) at 1 by lia; rewrite Z.pow_add_r by lia; reflexivity).
    assert (Hs : 0 < 2 ^ (s - 1)) by (apply Z.pow_pos_nonneg; lia).
    assert (S1 : shl 1 (s - 1) = Ok (2 ^ (s - 1))).
    { rewrite shl_ok by lia. f_equal. rewrite Z.shiftl_1_l. apply Z.mod_small. split; [lia|]. apply Z.pow_lt_mono_r; lia. }
    assert (L1 : Z.lor w (2 ^ (s - 1)) = w + 2 ^ (s - 1)).
    { rewrite Z.lor_comm, G4, <- (Z.mul_comm q). replace (q * 2 ^ s) with (Z.shiftl q s) by (rewrite Z.shiftl_mul_pow2 by lia; lia).
      rewrite lor_disjoint by lia. rewrite Z.shiftl_mul_pow2 by lia. lia. }
    assert (U : u8 (d + 1) = d + 1) by (apply Z.mod_small; lia).
    assert (E1 : bits - (d + 1) = s - 1) by lia.
    destruct (Z.ltb_spec 0 (c - l)) as [R|R].
    + rewrite S1. cbn [bind]. rewrite L1. destruct (Z.ltb_spec 0 l) as [L|L].
      * rewrite U. destruct (IH (S k) ((w + 2 ^ (s - 1), c - l, d + 1) :: st) w l (d + 1) lo) as (w' & c' & st' & k' & E & G' & T'); [lia|exact Hlo| |].
        { cbn [good]. rewrite E1. repeat split; try lia.
          - exists (2 * q). nia.
          - exists (2 * q + 1). nia.
          - replace (w + 2 ^ (s - 1) + 2 ^ (s - 1)) with (w + 2 ^ s) by lia. exact G6. }
        rewrite E. exists w', c', st', k'. split; [reflexivity|]. split; [exact G'|]. rewrite T'. cbn [total fold_right fst snd]. lia.
      * rewrite U. destruct (IH (S k) st (w + 2 ^ (s - 1)) (c - l) (d + 1) lo) as (w' & c' & st' & k' & E & G' & T'); [lia|exact Hlo| |].
        { cbn [good]. rewrite E1. repeat split; try lia.
          - exists (2 * q + 1). nia.
          - replace (w + 2 ^ (s - 1) + 2 ^ (s - 1)) with (w + 2 ^ s) by lia. exact G6. }
        rewrite E. exists w', c', st', k'. split; [reflexivity|]. split; [exact G'|]. rewrite T'. cbn [total fold_right fst snd]. lia.
    + cbn [bind]. replace (0 <? l) with true by lia. rewrite U.
      destruct (IH (S k) st w l (d + 1) lo) as (w' & c' & st' & k' & E & G' & T'); [lia|exact Hlo| |].
      { cbn [good]. rewrite E1. repeat split; try lia.
        - exists (2 * q). nia.
        - apply (good_le _ (w + 2 ^ s)); [lia|exact G6]. }
      rewrite E. exists w', c', st', k'. split; [reflexivity|]. split; [exact G'|]. rewrite T'. cbn [total fold_right fst snd]. lia.
Qed.

Lemma next_ok pick bits k st lo : draws pick -> 0 <= bits <= 64 -> 0 <= lo -> good bits lo st -> st <> [] ->
  exists w st' k', mg_next pick bits k st = Ok (w, st', k') /\ lo <= w < 2 ^ bits /\ good bits w st' /\ total st = total st' + 1.
Proof.
  intros P Hb Hlo G N. destruct st as [|[[w c] d] st]; [contradiction|]. cbn [mg_next].
  assert (U : u8 d = d) by (cbn [good] in G; apply Z.mod_small; lia). rewrite U.
  destruct (descend_ok pick bits P Hb (Z.to_nat bits) k st w c d lo) as (w' & c' & st' & k' & E & G' & T'); [cbn [good] in G; lia|exact Hlo|exact G|].
  rewrite E. cbn [bind]. cbn [good] in G'. destruct G' as (G1 & G2 & _ & _ & G5 & G6). rewrite Z.sub_diag in *. change (2 ^ 0) with 1 in *.
  eexists _, _, _. split; [reflexivity|]. split; [lia|]. assert (T2 : c' + total st' = c + total st) by exact T'. clear T'. destruct (Z.ltb_spec 1 c') as [C|C].
  - unfold sub64. replace (1 <=? c') with true by lia. split; [|change (c + total st = (c' - 1 + total st') + 1); lia].
    cbn [good]. rewrite Z.sub_diag. change (2 ^ 0) with 1. repeat split; try lia; [exists w'; lia|exact G6].
  - split; [apply (good_le _ (w' + 1)); [lia|exact G6]|]. change (c + total st = total st' + 1). lia.
Qed.

Lemma calls_ok pick bits : draws pick -> 0 <= bits <= 64 -> forall n k st lo, 0 <= lo -> good bits lo st -> Z.of_nat n <= total st ->
  exists ws st', mg_calls pick bits n k st = Ok (ws, st') /\ length ws = n /\ StronglySorted Z.le (lo :: ws) /\ Forall (fun w => 0 <= w < 2 ^ bits) ws /\
    total st' = total st - Z.of_nat n /\ (exists lo', good bits lo' st').
Proof.
  intros P Hb. induction n as [|n IH]; intros k st lo Hlo G T; cbn [mg_calls].
  - exists [], st. repeat split; auto; [repeat constructor|lia|eauto].
  - destruct (next_ok pick bits k st lo P Hb Hlo G) as (w & st1 & k1 & E & Hw & G1 & T1); [intros ->; cbn in T; lia|].
    rewrite E. cbn [bind]. destruct (IH k1 st1 w ltac:(lia) G1 ltac:(lia)) as (ws & st' & E' & L & S & F & T' & G').
    rewrite E'. cbn [bind]. exists (w :: ws), st'. split; [reflexivity|]. split; [cbn; lia|]. split.
    + constructor; [exact S|]. constructor; [lia|]. apply StronglySorted_inv in S. destruct S as (_ & S). eapply Forall_impl; [|exact S]. cbn. lia.
    + split; [constructor; [lia|exact F]|]. split; [lia|exact G'].
Qed.

Lemma good_new bits m : 0 <= bits -> 1 <= m < 2 ^ 64 -> good bits 0 (mg_new m).
Proof. intros Hb Hm. cbn [good mg_new]. rewrite Z.sub_0_r. split; [lia|]. split; [lia|]. split; [lia|]. split; [exists 0; lia|]. split; [lia|exact I]. Qed.

Theorem generator_ok : forall pick bits m n, draws pick -> 0 <= bits <= 64 -> 1 <= m < 2 ^ 64 -> Z.of_nat n <= m ->
  exists ws stack, mg_calls pick bits n 0 (mg_new m) = Ok (ws, stack) /\ length ws = n /\ StronglySorted Z.le ws /\
    Forall (fun w => 0 <= w < 2 ^ bits) ws /\ (mg_done stack = true <-> Z.of_nat n = m).
Proof.
  intros pick bits m n P Hb Hm Hn. destruct (calls_ok pick bits P Hb n 0 (mg_new m) 0) as (ws & st & E & L & S & F & T & (lo & G)); [lia|apply good_new; lia|cbn; lia|].
  exists ws, st. split; [exact E|]. split; [exact L|]. split; [apply StronglySorted_inv in S; apply S|]. split; [exact F|].
  destruct (total_nonneg bits st lo G) as (T0 & T1). replace (total (mg_new m)) with m in T by (cbn; lia). split.
  - destruct st; [cbn in T; lia|discriminate].
  - intros E1. rewrite T1 by lia. reflexivity.
Qed.

(** more than 64 bits: the first right child shifts too far *)
Theorem generator_bits : forall pick bits m, pick O m = 0 -> 64 < bits -> 1 <= m < 2 ^ 64 -> mg_next pick bits 0 (mg_new m) = Ub BadShift.
Proof.
  intros pick bits m P Hb Hm. unfold mg_next, mg_new. change (u8 0) with 0. destruct (Z.to_nat bits) as [|f] eqn:Ef; [lia|]. cbn [descend].
  replace (0 <? bits) with true by lia. rewrite P. unfold sub64. replace (0 <=? m) with true by lia. replace (0 <? m - 0) with true by lia.
  unfold shl. replace ((0 <=? bits - 0 - 1) && (bits - 0 - 1 <? 64)) with false by lia. reflexivity.
Qed.

Lemma fill_calls gr pick bits : forall n k st b ws st' b', mg_calls pick bits n k st = Ok (ws, st') -> ef_push_all gr b ws = Ok b' ->
  ef_fill gr pick bits n k st b = Ok (b', st').
Proof.
  induction n as [|n IH]; intros k st b ws st' b' H1 H2; cbn [mg_calls ef_fill] in *; [injection H1 as <- <-; cbn in H2; congruence|].
  apply bind_inv in H1. destruct H1 as ([[w st1] k1] & E & H1). rewrite E. cbn [bind]. apply bind_inv in H1. destruct H1 as ([ws1 st2] & E1 & H1).
  injection H1 as <- <-. cbn [ef_push_all] in H2. apply bind_inv in H2. destruct H2 as (b1 & E2 & H2). rewrite E2. cbn [bind]. eauto.
Qed.
Lemma xor_run ef : forall n it foo xs, se_run ef it n = Ok xs -> ef_xor ef n it foo = Ok (fold_left Z.lxor xs foo).
Proof.
  induction n as [|n IH]; intros it foo xs H; cbn [se_run ef_xor] in *; [injection H as <-; reflexivity|].
  apply bind_inv in H. destruct H as ([x it1] & E & H). apply bind_inv in H. destruct H as (ys & E1 & H). injection H as <-. rewrite E. cbn [bind fold_left]. eauto.
Qed.

Theorem ef_benchmark_ok : forall gr pick m bits, draws pick -> 0 <= bits < 64 -> 1 <= m < 2 ^ 61 ->
  exists ws, mg_calls pick bits (Z.to_nat m) 0 (mg_new m) = Ok (ws, []) /\ zlen ws = m /\ StronglySorted Z.le ws /\
    Forall (fun w => 0 <= w < 2 ^ bits) ws /\ ef_enumeration_benchmark gr pick m bits = Ok (xor_all ws).
Proof.
  intros gr pick m bits P Hb Hm. destruct (generator_ok pick bits m (Z.to_nat m) P) as (ws & st & E & L & S & F & D); [lia|lia|lia|].
  assert (st = []) as -> by (destruct st; [reflexivity|]; assert (X : mg_done (s :: st) = true) by (apply D; lia); discriminate X).
  exists ws. split; [exact E|]. assert (Z1 : zlen ws = m) by (unfold zlen; lia). split; [exact Z1|]. split; [exact S|]. split; [exact F|].
  assert (B : 0 < 2 ^ bits < 2 ^ 64) by (split; [apply Z.pow_pos_nonneg; lia|apply Z.pow_lt_mono_r; lia]).
  assert (I : ef_input (2 ^ bits) m ws).
  { split; [lia|]. split; [lia|]. split; [lia|]. split; [lia|]. split; [|exact S]. eapply Forall_impl; [|exact F]. cbn. lia. }
  destruct (ef_enum gr _ _ _ true I) as (ef & M & R). unfold ef_make in M. apply bind_inv in M. destruct M as (b0 & M1 & M). apply bind_inv in M. destruct M as (b1 & M2 & M3).
  destruct (R O ltac:(lia)) as (it & N1 & N2). unfold ef_enumeration_benchmark. rewrite shl_ok by lia. rewrite Z.shiftl_1_l. unfold u64. rewrite Z.mod_small by lia. cbn [bind].
  rewrite M1. cbn [bind]. rewrite (fill_calls _ _ _ _ _ _ _ _ _ _ E M2). cbn [bind]. rewrite assert_true by reflexivity. rewrite M3. cbn [bind]. rewrite timeit_once.
  change (Z.of_nat 0) with 0 in N1. rewrite N1. cbn [bind]. rewrite (xor_run ef _ it 0 ws); [reflexivity|]. rewrite (N2 (Z.to_nat m)) by lia. f_equal. unfold window. cbn [skipn]. apply firstn_all2. lia.
Qed.

(** no values: the generator is never empty *)
Theorem ef_benchmark_empty : forall gr pick bits, 0 <= bits < 62 -> ef_enumeration_benchmark gr pick 0 bits = Ub AssertFailed.
Proof.
  intros gr pick bits Hb. assert (B : 0 < 2 ^ bits < 2 ^ 62) by (split; [apply Z.pow_pos_nonneg; lia|apply Z.pow_lt_mono_r; lia]).
  assert (I : ef_input (2 ^ bits) 0 []).
  { split; [lia|]. split; [lia|]. split; [lia|]. split; [reflexivity|]. split; constructor. }
  destruct (ef_store gr _ _ _ true I) as (ef & M & _). unfold ef_make in M. apply bind_inv in M. destruct M as (b0 & M1 & _).
  unfold ef_enumeration_benchmark. rewrite shl_ok by lia. rewrite Z.shiftl_1_l. unfold u64. rewrite Z.mod_small by lia. cbn [bind]. rewrite M1. reflexivity.
Qed.
Theorem ef_benchmark_bits : forall gr pick m bits, 64 <= bits -> ef_enumeration_benchmark gr pick m bits = Ub BadShift.
Proof. intros gr pick m bits Hb. unfold ef_enumeration_benchmark, shl. replace ((0 <=? bits) && (bits <? 64)) with false by lia. reflexivity. Qed.
