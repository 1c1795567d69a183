(** Proofs for C110 *)
From Verif Require Import Base Spec Lib M_BitVector S_BitVector P_BvLib P_BvRank P_Broadword P_Broadword2 P_RsBuild P_Builder P_BitVector P_BvEnum P_Ends M_Darray P_Darray M_EliasFano P_EliasFano P_EliasFano2 S_EliasFano S_Darray
  M_Gamma S_Gamma P_Gamma M_Swap M_EnumSwap S_EnumSwap.

Lemma bv_swap_eq a b : bv_swap a b = (b, a). Proof. destruct a, b. reflexivity. Qed.
Lemma gamma_swap_eq a b : gamma_swap a b = (b, a). Proof. destruct a as [[? [] ? ?] []], b as [[? [] ? ?] []]. reflexivity. Qed.
Lemma ef_swap_eq a b : ef_swap a b = (b, a). Proof. destruct a as [? [] [] [] [] ?], b as [? [] [] [] [] ?]. reflexivity. Qed.

(** *** bits *)
Lemma zbit_or_zero l p : 0 <= p -> zbit l p = bit_or_zero l p.
Proof. intros H. unfold zbit, bit_or_zero. destruct (Z.ltb_spec p 0); try lia; auto. Qed.
Lemma einv_empty l l' e p : einv e l (p, false) -> e_avail e = 0 -> einv e l' (p, false).
Proof.
  intros (H1 & H2 & H3 & H4 & H5) Ha. cbn [fst snd] in *. unfold einv. cbn [fst snd]. split; [auto|]. split; [auto|]. split; [auto|]. split; [auto|].
  intros i Hi. rewrite H5 by auto. rewrite Ha. replace (i <? 0) with false by lia. reflexivity.
Qed.
Lemma block_same n : (- (Z.of_nat n + 1)) mod 64 <> 0 -> (n / 64 = S n / 64)%nat.
Proof. intros H. apply Nat2Z.inj. rewrite !Nat2Z.inj_div, Nat2Z.inj_succ. change (Z.of_nat 64) with 64. clear - H. dlia. Qed.
Lemma en_ok cs pos : 0 <= pos -> forall os a b e pre l, cs = pre ++ seen a b os ->
  einv e l (pos + zlen pre, false) -> e_avail e = (- zlen pre) mod 64 -> (e_avail e <> 0 -> l = nth (64 * (length pre / 64)) cs []) ->
  ((forall i, (length pre <= i < length cs)%nat -> (i mod 64 = 0)%nat -> pos + Z.of_nat i < zlen (nth i cs [])) ->
   en_calls (canonical a) (canonical b) e os =
   Ok (map (fun i => bit_or_zero (nth (64 * (i / 64)) cs []) (pos + Z.of_nat i)) (seq (length pre) (length (seen a b os))))) /\
  ((exists i, (length pre <= i < length cs)%nat /\ (i mod 64 = 0)%nat /\ zlen (nth i cs []) <= pos + Z.of_nat i) ->
   en_calls (canonical a) (canonical b) e os = Ub AssertFailed).
Proof.
  intros Hp. induction os as [|[|] os IH]; intros a b e pre l EC I A EL.
  - cbn [seen] in *. rewrite app_nil_r in EC. subst pre. split; [reflexivity|]. intros (i & ? & _). lia.
  - cbn [seen en_calls length seq map] in *.
    assert (Ha : nth (length pre) cs [] = a) by (rewrite EC, app_nth2, Nat.sub_diag by lia; reflexivity).
    assert (Lp : zlen (pre ++ [a]) = zlen pre + 1) by (rewrite zlen_app; reflexivity).
    assert (Ln : length (pre ++ [a]) = S (length pre)) by (rewrite app_length; cbn; lia).
    assert (Lc : (length pre < length cs)%nat) by (rewrite EC, app_length; cbn [length]; lia).
    assert (EC' : cs = (pre ++ [a]) ++ seen a b os) by (rewrite <- app_assoc; exact EC).
    pose proof (zlen_nonneg pre) as Zp.
    assert (Step : forall e' l', l' = nth (64 * (length pre / 64)) cs [] ->
       enum_next (canonical a) e = Ok (zbit l' (pos + zlen pre), e') -> einv e' l' (pos + zlen pre + 1, false) -> e_avail e' = (- (zlen pre + 1)) mod 64 ->
       ((length pre mod 64 = 0)%nat -> pos + zlen pre < zlen a) ->
       ((forall i, (length pre <= i < length cs)%nat -> (i mod 64 = 0)%nat -> pos + Z.of_nat i < zlen (nth i cs [])) ->
        (do (v, e) <- enum_next (canonical a) e; do vs <- en_calls (canonical a) (canonical b) e os; Ok (v :: vs)) =
        Ok (bit_or_zero (nth (64 * (length pre / 64)) cs []) (pos + Z.of_nat (length pre)) ::
            map (fun i => bit_or_zero (nth (64 * (i / 64)) cs []) (pos + Z.of_nat i)) (seq (S (length pre)) (length (seen a b os))))) /\
       ((exists i, (length pre <= i < length cs)%nat /\ (i mod 64 = 0)%nat /\ zlen (nth i cs []) <= pos + Z.of_nat i) ->
        (do (v, e) <- enum_next (canonical a) e; do vs <- en_calls (canonical a) (canonical b) e os; Ok (v :: vs)) = Ub AssertFailed)).
    { intros e' l' El En I' A' G. destruct (IH a b e' (pre ++ [a]) l' EC') as [P1 P2].
      - rewrite Lp. replace (pos + (zlen pre + 1)) with (pos + zlen pre + 1) by lia. exact I'.
      - rewrite Lp. exact A'.
      - intros NZ. rewrite Ln. rewrite A' in NZ. rewrite <- (block_same _ NZ). exact El.
      - rewrite En. cbn [bind]. rewrite Ln in P1, P2. split.
        + intros C. rewrite P1 by (intros; apply C; auto; lia). cbn [bind]. do 2 f_equal. rewrite <- El. apply zbit_or_zero. unfold zlen. lia.
        + intros (i & C1 & C2 & C3). rewrite P2; [reflexivity|]. exists i. split; [|auto]. destruct (Nat.eq_dec i (length pre)) as [->|]; [|lia].
          specialize (G C2). rewrite Ha in C3. unfold zlen in *. lia. }
    destruct (Z.eq_dec (e_avail e) 0) as [A0|A0].
    + assert (M0 : (length pre mod 64 = 0)%nat).
      { rewrite A0 in A. clear - A. unfold zlen in A. apply Nat2Z.inj. rewrite Nat2Z.inj_mod. change (Z.of_nat 64) with 64. change (Z.of_nat 0) with 0. clear - A. dlia. }
      assert (D0 : (64 * (length pre / 64) = length pre)%nat) by (pose proof (Nat.div_mod (length pre) 64 ltac:(lia)); lia).
      pose proof (next_empty a e (pos + zlen pre) (einv_empty _ a _ _ I A0) A0) as N. destruct (Z.ltb_spec (pos + zlen pre) (zlen a)) as [Lt|Ge].
      * destruct N as (e' & N1 & N2 & N3). apply (Step e' a); auto.
        -- rewrite D0. auto.
        -- rewrite N3. rewrite A0 in A. clear - A. dlia.
      * rewrite N. cbn [bind]. split; [|reflexivity]. intros C. specialize (C (length pre) ltac:(lia) M0). rewrite Ha in C. unfold zlen in *. lia.
    + destruct (next_filled l e (pos + zlen pre) I ltac:(destruct I as (_ & _ & ? & _); lia)) as (e' & N1 & N2 & N3).
      apply (Step e' l); auto.
      * unfold enum_next in *. replace (e_avail e =? 0) with false in * by lia. exact N1.
      * rewrite N3, A. rewrite A in A0. clear - A0. dlia.
      * intros M0. exfalso. apply A0. rewrite A. unfold zlen. apply (f_equal Z.of_nat) in M0. rewrite Nat2Z.inj_mod in M0. change (Z.of_nat 64) with 64 in M0.
        change (Z.of_nat 0) with 0 in M0. clear - M0. dlia.
  - cbn [seen en_calls] in *. rewrite bv_swap_eq. apply (IH b a e pre l); auto.
Qed.
Lemma bits_swapped l l' pos os : 0 <= pos -> let cs := seen l l' os in
  ((forall i, (i < length cs)%nat -> (i mod 64 = 0)%nat -> pos + Z.of_nat i < zlen (nth i cs [])) ->
   en_calls (bv_range l) (bv_range l') (enum_new pos) os =
   Ok (map (fun i => bit_or_zero (nth (64 * (i / 64)) cs []) (pos + Z.of_nat i)) (seq 0 (length cs)))) /\
  ((exists i, (i < length cs)%nat /\ (i mod 64 = 0)%nat /\ zlen (nth i cs []) <= pos + Z.of_nat i) ->
   en_calls (bv_range l) (bv_range l') (enum_new pos) os = Ub AssertFailed).
Proof.
  intros Hp cs. rewrite !P_BitVector.bv_range_ok. destruct (en_ok cs pos Hp os l l' (enum_new pos) [] [] eq_refl) as [P1 P2].
  - change (zlen (@nil (list bool))) with 0. rewrite Z.add_0_r. apply enum_start. auto.
  - reflexivity.
  - intros E. exfalso. apply E. reflexivity.
  - split.
    + intros C. apply P1. intros i Hi. apply C. lia.
    + intros (i & C1 & C2). apply P2. exists i. split; [cbn; lia|auto].
Qed.

(** *** unary *)
Lemma un_ok l data : data = pack l -> forall os a b u s, uinv u l s -> (rank true l (ustart s) + length (seen a b os) <= count true l)%nat ->
  exists vs, un_calls a b data u os = Ok vs /\ length vs = length (seen a b os) /\
  forall j, (j < length vs)%nat -> exists q, is_select true l (rank true l (ustart s) + j) q /\ nth j vs 0 = Z.of_nat q.
Proof.
  intros ->. induction os as [|[|] os IH]; intros a b u s U C; cbn [seen un_calls length] in *.
  - exists []. split; [reflexivity|]. split; [reflexivity|]. cbn. lia.
  - destruct (Lib.select_exists true l (rank true l (ustart s)) ltac:(lia)) as (q & S).
    destruct (unary_next_ok l u s q U S) as (u' & -> & U'). cbn [bind].
    assert (R : rank true l (ustart (Z.of_nat q, true)) = Datatypes.S (rank true l (ustart s))).
    { destruct S as [S1 S2]. unfold ustart at 1. cbn [fst snd Z.b2z]. replace (Z.to_nat (Z.of_nat q + 1)) with (Datatypes.S q) by lia.
      rewrite (rank_S _ _ _ _ S1), S2. cbn [eqb]. lia. }
    destruct (IH a b u' _ U') as (vs & -> & L & H); [rewrite R; lia|]. cbn [bind]. exists (Z.of_nat q :: vs). split; [reflexivity|].
    split; [cbn [length]; lia|]. intros [|j] Hj.
    + exists q. rewrite Nat.add_0_r. auto.
    + cbn [length] in Hj. destruct (H j ltac:(lia)) as (q' & H1 & H2). exists q'. rewrite R in H1. split; [|exact H2].
      replace (rank true l (ustart s) + Datatypes.S j)%nat with (Datatypes.S (rank true l (ustart s)) + j)%nat by lia. exact H1.
  - rewrite bv_swap_eq. apply IH; auto.
Qed.
Lemma unary_swapped l l' pos os : 0 <= pos < zlen l -> (rank true l (Z.to_nat pos) + length (seen l l' os) <= count true l)%nat ->
  exists u vs, unary_new (bv_words (bv_range l)) pos = Ok u /\ un_calls (bv_range l) (bv_range l') (bv_words (bv_range l)) u os = Ok vs /\
  length vs = length (seen l l' os) /\
  forall j, (j < length vs)%nat -> exists q, is_select true l (rank true l (Z.to_nat pos) + j) q /\ nth j vs 0 = Z.of_nat q.
Proof.
  intros Hp C. rewrite !P_BitVector.bv_range_ok. cbn [canonical bv_words].
  destruct (unary_new_ok l pos) as (u & E & U); [lia|apply P_BitVector.block_lt; lia|].
  assert (Ls : forall A B (a b : A) (c d : B), length (seen a b os) = length (seen c d os)).
  { clear. intros A B. induction os as [|[|] os IH]; intros; cbn; auto. }
  assert (Us : ustart (pos, false) = Z.to_nat pos) by (unfold ustart; cbn [fst snd Z.b2z]; f_equal; lia).
  destruct (un_ok l _ eq_refl os (canonical l) (canonical l') u _ U) as (vs & E2 & L & H).
  { rewrite Us, (Ls _ _ _ _ l l'). exact C. }
  exists u, vs. split; [exact E|]. split; [exact E2|]. split; [rewrite L; apply Ls|]. rewrite Us in H. exact H.
Qed.

(** *** gamma codes *)
Definition ghinv (k : Z) (ys : list Z) (e : gamma_enum) (i : Z) : Prop :=
  ge_pos e = hpos k ys i /\ exists u s, ge_high e = Some u /\ uinv u (d64_seq (0 :: zs_of k ys)) s /\ Z.of_nat (rank true (d64_seq (0 :: zs_of k ys)) (ustart s)) = i + 1.
Lemma gh_next k g ys e i : k = 0 \/ k = 1 -> gamma_ok k g ys -> 0 <= i < zlen ys -> ghinv k ys e i -> exists u,
  match ge_high e with Some u => unary_next (bv_words (d64_bits (g_high g))) u | None => unary_next [] (mk_unary 0 0) end = Ok (hpos k ys (i + 1), u) /\
  u64 (hpos k ys (i + 1) - ge_pos e - 1) = code_len (W ys i) - k /\
  forall j low, ghinv k ys (mk_ge j (hpos k ys (i + 1)) (Some u) low) (i + 1).
Proof.
  intros K OK Hi (E2 & (u & s & Eu & U & Ru)). rewrite E2, Eu.
  pose proof (hpos_nonneg k g ys K OK i ltac:(lia)). pose proof (hpos_nonneg k g ys K OK (i + 1) ltac:(lia)).
  pose proof (hpos_S k ys i Hi) as HS. pose proof (g_elem k g ys OK i Hi) as [Hy R].
  pose proof (hpos_sel k g ys K OK (i + 1) ltac:(lia)) as S.
  pose proof OK as (_ & _ & E & _ & _ & _). rewrite E. cbn [canonical bv_words].
  replace (Z.to_nat (i + 1)) with (rank true (d64_seq (0 :: zs_of k ys)) (ustart s)) in S by lia.
  destruct (unary_next_ok _ u s _ U S) as (u' & -> & U'). rewrite Z2Nat.id in * by lia.
  exists u'. split; [auto|]. split; [rewrite u64_small; lia|]. intros j low. split; [reflexivity|]. cbn [ge_high].
  exists u', (hpos k ys (i + 1), true). split; [auto|]. split; [auto|].
  destruct S as [S1 S2]. unfold ustart. cbn [fst snd Z.b2z].
  replace (Z.to_nat (hpos k ys (i + 1) + 1)) with (Datatypes.S (Z.to_nat (hpos k ys (i + 1)))) by lia.
  rewrite (rank_S _ _ _ _ S1), S2. cbn [eqb]. lia.
Qed.
Lemma take_range bv e l v e' : 0 <= l < 64 -> enum_take bv e l = Ok (v, e') -> 0 <= v < 2 ^ l.
Proof.
  intros Hl E. unfold enum_take in E. destruct (if e_avail e <? l then _ else _) as [e1|]; [|discriminate]. cbn [bind] in E.
  replace (l =? 64) with false in E by lia. rewrite shl_ok in E by lia. cbn [bind] in E. rewrite shr_ok in E by lia. cbn [bind] in E. injection E as <- _.
  replace (Z.land (e_buf e1) (u64 (u64 (Z.shiftl 1 l) - 1))) with (e_buf e1 mod 2 ^ l); [apply Z.mod_pos_bound, Z.pow_pos_nonneg; lia|].
  apply Z.bits_inj'. intros j Hj. rewrite Z.land_spec, testbit_mask by lia. destruct (Z.ltb_spec j l).
  - rewrite Z.mod_pow2_bits_low, andb_true_r by lia. auto.
  - rewrite Z.mod_pow2_bits_high, andb_false_r by lia. auto.
Qed.
Lemma lor_top v l : 0 <= v < 2 ^ l -> 0 <= l < 64 -> Z.lor v (u64 (Z.shiftl 1 l)) = v + 2 ^ l /\ v + 2 ^ l < 2 ^ 64 /\ Z.log2 (v + 2 ^ l) = l.
Proof.
  intros Hv Hl. assert (P : 0 < 2 ^ l <= 2 ^ 63) by (split; [apply Z.pow_pos_nonneg; lia|apply Z.pow_le_mono_r; lia]).
  rewrite Z.shiftl_1_l, u64_small by lia. split; [|split; [lia|]].
  - assert (N : Z.land v (2 ^ l) = 0).
    { apply Z.bits_inj'. intros j Hj. rewrite Z.land_spec, Z.pow2_bits_eqb, Z.bits_0 by lia. destruct (Z.eqb_spec l j) as [<-|]; [|apply andb_false_r].
      rewrite andb_true_r. destruct (Z.eq_dec v 0) as [->|]; [apply Z.bits_0|]. apply Z.bits_above_log2; [lia|]. apply Z.log2_lt_pow2; lia. }
    rewrite Z.add_nocarry_lxor, Z.lxor_lor by exact N. reflexivity.
  - apply Z.log2_unique; [lia|]. rewrite Z.pow_succ_r by lia. lia.
Qed.
Lemma gvs_ok g ys : gamma_ok 0 g ys -> forall os a b e i, ghinv 0 ys e i -> 0 <= i -> i + zlen (seen a b os) <= zlen ys ->
  forall vs, gs_calls gvs_next a b (bv_words (d64_bits (g_high g))) e os = Ok vs -> map (fun v => Z.log2 (v + 1)) vs = map (fun y => Z.log2 (y + 1)) (window ys (Z.to_nat i) (length (seen a b os))).
Proof.
  intros OK. induction os as [|[|] os IH]; intros a b e i G Hi C vs E; cbn [seen gs_calls length] in *.
  - injection E as <-. reflexivity.
  - apply bind_inv in E as ([v e'] & E1 & E). apply bind_inv in E as (vs' & E2 & E). injection E as <-.
    rewrite zlen_cons in C. pose proof (zlen_nonneg (seen a b os)).
    unfold gvs_next in E1. apply assert_inv in E1 as [_ E1].
    destruct (gh_next 0 g ys e i ltac:(auto) OK ltac:(lia) G) as (u & Eu & El & G'). rewrite Eu in E1. cbn [bind] in E1. rewrite El, Z.sub_0_r in E1.
    destruct (g_elem _ _ _ OK i ltac:(lia)) as [Hy R].
    apply bind_inv in E1 as ([ch low] & Et & E1). unfold ge_low_take in Et. destruct (ge_low e) as [le|]; [|discriminate]. apply take_range in Et; [|lia].
    rewrite shl_ok in E1 by lia. cbn [bind] in E1. injection E1 as <- <-. destruct (lor_top ch _ Et ltac:(lia)) as (L1 & L2 & L3).
    rewrite L1, sub64_ok by lia. apply (IH a b _ (i + 1) (G' _ _)) in E2; [|lia|lia].
    assert (Wn : window ys (Z.to_nat i) (S (length (seen a b os))) = W ys i :: window ys (Z.to_nat (i + 1)) (length (seen a b os))).
    { unfold window, W. replace (i <? 0) with false by lia || idtac. rewrite (skipn_nth 0 ys (Z.to_nat i)) by (unfold zlen in *; lia). cbn [firstn]. 
      replace (Z.to_nat (i + 1)) with (S (Z.to_nat i)) by lia. reflexivity. }
    rewrite Wn. cbn [map]. f_equal; [|exact E2]. replace (ch + 2 ^ code_len (W ys i) - 1 + 1) with (ch + 2 ^ code_len (W ys i)) by lia. exact L3.
  - rewrite gamma_swap_eq in E. apply (IH b a e i); auto.
Qed.
Lemma gbs_ok g ints : gamma_ok 1 g (succs ints) -> forall os a b e i, ghinv 1 (succs ints) e i -> 0 <= i -> i + zlen (seen a b os) <= zlen ints ->
  forall vs, gs_calls gbs_next a b (bv_words (d64_bits (g_high g))) e os = Ok vs -> map (fun v => Z.log2 (v + 2)) vs = map (fun y => Z.log2 (y + 2)) (window ints (Z.to_nat i) (length (seen a b os))).
Proof.
  intros OK. induction os as [|[|] os IH]; intros a b e i G Hi C vs E; cbn [seen gs_calls length] in *.
  - injection E as <-. reflexivity.
  - apply bind_inv in E as ([v e'] & E1 & E). apply bind_inv in E as (vs' & E2 & E). injection E as <-.
    rewrite zlen_cons in C. pose proof (zlen_nonneg (seen a b os)). assert (Hi' : 0 <= i < zlen (succs ints)) by (rewrite zlen_succs; lia).
    unfold gbs_next in E1. apply assert_inv in E1 as [_ E1].
    destruct (gh_next 1 g (succs ints) e i ltac:(auto) OK Hi' G) as (u & Eu & El & G'). rewrite Eu in E1. cbn [bind] in E1. rewrite El in E1.
    destruct (g_elem _ _ _ OK i Hi') as [Hy R]. replace (code_len (W (succs ints) i) - 1 + 1) with (code_len (W (succs ints) i)) in E1 by lia.
    apply bind_inv in E1 as ([ch low] & Et & E1). unfold ge_low_take in Et. destruct (ge_low e) as [le|]; [|discriminate]. apply take_range in Et; [|lia].
    rewrite shl_ok in E1 by lia. cbn [bind] in E1. injection E1 as <- <-. destruct (lor_top ch _ Et ltac:(lia)) as (L1 & L2 & L3).
    assert (2 ^ 1 <= 2 ^ code_len (W (succs ints) i)) by (apply Z.pow_le_mono_r; lia).
    rewrite L1, sub64_ok by lia. apply (IH a b _ (i + 1) (G' _ _)) in E2; [|lia|lia].
    assert (Wn : window ints (Z.to_nat i) (S (length (seen a b os))) = W ints i :: window ints (Z.to_nat (i + 1)) (length (seen a b os))).
    { unfold window, W. replace (i <? 0) with false by lia. rewrite (skipn_nth 0 ints (Z.to_nat i)) by (unfold zlen in *; lia). cbn [firstn].
      replace (Z.to_nat (i + 1)) with (S (Z.to_nat i)) by lia. reflexivity. }
    rewrite Wn. cbn [map]. f_equal; [|exact E2]. replace (ch + 2 ^ code_len (W (succs ints) i) - 2 + 2) with (ch + 2 ^ code_len (W (succs ints) i)) by lia.
    rewrite L3. rewrite W_succs by lia. unfold code_len. f_equal. lia.
  - rewrite gamma_swap_eq in E. apply (IH b a e i); auto.
Qed.
Lemma seen_len {A B} os : forall (a b : A) (c d : B), length (seen a b os) = length (seen c d os).
Proof. induction os as [|[|] os IH]; intros; cbn; auto. Qed.
Lemma geinv_high k ys e i : geinv k ys e i -> ghinv k ys e i.
Proof. intros (_ & E & U & _). split; [exact E|exact U]. Qed.
Lemma gv_swapped gr ints : Forall (fun x => 0 <= x < 2 ^ 64 - 1) ints -> zlen ints < 2 ^ 57 -> exists g, gv_build gr ints = Ok g /\
  forall i, (i < length ints)%nat -> exists e, gv_enum_new g (Z.of_nat i) = Ok e /\
  forall other os vs, (i + length (seen g other os) <= length ints)%nat -> gs_calls gvs_next g other (bv_words (d64_bits (g_high g))) e os = Ok vs ->
  map (fun v => Z.log2 (v + 1)) vs = map (fun y => Z.log2 (y + 1)) (window ints i (length (seen g other os))).
Proof.
  intros F L. destruct (gv_build_ok gr ints F L) as (g & E & OK). exists g. split; [exact E|]. intros i Hi.
  destruct (gv_enum_new_ok g ints (Z.of_nat i) OK ltac:(unfold zlen; lia)) as (e & En & I). exists e. split; [exact En|]. intros other os vs C Ev.
  pose proof (gvs_ok g ints OK os g other e _ (geinv_high _ _ _ _ I) ltac:(lia) ltac:(unfold zlen; lia) vs Ev) as P. rewrite Nat2Z.id in P. exact P.
Qed.
Lemma gb_swapped gr ints : Forall (fun x => 0 <= x < 2 ^ 64 - 2) ints -> zlen ints < 2 ^ 57 -> exists g, gb_build gr ints = Ok g /\
  forall i, (i < length ints)%nat -> exists e, gb_enum_new g (Z.of_nat i) = Ok e /\
  forall other os vs, (i + length (seen g other os) <= length ints)%nat -> gs_calls gbs_next g other (bv_words (d64_bits (g_high g))) e os = Ok vs ->
  map (fun v => Z.log2 (v + 2)) vs = map (fun y => Z.log2 (y + 2)) (window ints i (length (seen g other os))).
Proof.
  intros F L. destruct (gb_build_ok gr ints F L) as (g & E & OK). exists g. split; [exact E|]. intros i Hi.
  destruct (gb_enum_new_ok g ints (Z.of_nat i) OK ltac:(unfold zlen; lia)) as (e & En & I). exists e. split; [exact En|]. intros other os vs C Ev.
  pose proof (gbs_ok g ints OK os g other e _ (geinv_high _ _ _ _ I) ltac:(lia) ltac:(unfold zlen; lia) vs Ev) as P. rewrite Nat2Z.id in P. exact P.
Qed.

(** *** elias_fano *)
Definition shinv (l : Z) (H : list bool) (e : select_enum) (i : Z) : Prop :=
  se_i e = i /\ se_mask e = u64 (u64 (Z.shiftl 1 l) - 1) /\
  exists u s, se_high e = Some u /\ uinv u H s /\ Z.of_nat (rank true H (ustart s)) = i.
Lemma ses_ok ef vs n m l H idx : ef_ok ef vs n m l H idx -> forall os a b e i, shinv l H e i -> 0 <= i -> i + zlen (seen a b os) <= zlen vs ->
  forall rs, ses_calls a b (bv_words (ef_high ef)) l e os = Ok rs -> map (fun v => v / 2 ^ l) rs = map (fun v => v / 2 ^ l) (window vs (Z.to_nat i) (length (seen a b os))).
Proof.
  intros OK. pose proof OK as ((Hl & Hn & Hv & _) & _ & El & Eh & _). induction os as [|[|] os IH]; intros a b e i G Hi C rs E; cbn [seen ses_calls length] in *.
  - injection E as <-. reflexivity.
  - apply bind_inv in E as ([v e'] & E1 & E). apply bind_inv in E as (rs' & E2 & E). injection E as <-.
    rewrite zlen_cons in C. pose proof (zlen_nonneg (seen a b os)). assert (Hi' : 0 <= i < zlen vs) by lia.
    destruct G as (G1 & G2 & (u & s & G3 & U & Ru)). unfold ses_next in E1.
    apply bind_inv in E1 as ([buf avail] & _ & E1). rewrite G3, G1, G2, Eh in E1. cbn [canonical bv_words] in E1.
    pose proof (hp_range _ _ _ _ _ _ _ OK i Hi') as R. pose proof (hp_select _ _ _ _ _ _ _ OK i Hi') as S.
    replace (Z.to_nat i) with (rank true H (ustart s)) in S by lia.
    destruct (unary_next_ok H u s _ U S) as (u' & Eu & U'). rewrite Eu in E1. cbn [bind] in E1. rewrite Z2Nat.id in * by lia.
    apply bind_inv in E1 as (sel & _ & E1). apply assert_inv in E1 as [_ E1].
    rewrite sub64_ok in E1 by lia. rewrite (shl_high _ _ _ _ _ _ _ OK) in E1 by auto. cbn [bind] in E1. rewrite shr_ok in E1 by lia. cbn [bind] in E1. injection E1 as <- <-.
    apply (IH a b _ (i + 1)) in E2; [|split; [reflexivity|split; [reflexivity|]]|lia|lia].
    + assert (Wn : window vs (Z.to_nat i) (Datatypes.S (length (seen a b os))) = W vs i :: window vs (Z.to_nat (i + 1)) (length (seen a b os))).
      { unfold window, W. replace (i <? 0) with false by lia. rewrite (skipn_nth 0 vs (Z.to_nat i)) by (unfold zlen in *; lia). cbn [firstn].
        replace (Z.to_nat (i + 1)) with (Datatypes.S (Z.to_nat i)) by lia. reflexivity. }
      rewrite Wn. cbn [map]. f_equal; [|exact E2]. specialize (Hv i Hi').
      rewrite <- !Z.shiftr_div_pow2 by lia. apply Z.bits_inj'. intros j Hj. rewrite !Z.shiftr_spec, Z.lor_spec, Z.land_spec, testbit_mask by lia.
      replace (j + l <? l) with false by lia. rewrite andb_false_r, orb_false_r. unfold u64. destruct (Z.ltb_spec (j + l) 64).
      * rewrite Z.mod_pow2_bits_low by lia. rewrite Z.shiftl_spec, Z.shiftr_spec by lia. f_equal. lia.
      * rewrite Z.mod_pow2_bits_high by lia. symmetry. destruct (Z.eq_dec (W vs i) 0) as [->|]; [apply Z.bits_0|]. apply Z.bits_above_log2; [lia|].
        apply Z.lt_le_trans with 64; [apply Z.log2_lt_pow2; lia|lia].
    + cbn [se_high]. exists u', (hp vs l i, true). split; [auto|]. split; [auto|].
      destruct S as [S1 S2]. unfold ustart. cbn [fst snd Z.b2z].
      replace (Z.to_nat (hp vs l i + 1)) with (Datatypes.S (Z.to_nat (hp vs l i))) by lia.
      rewrite (rank_S _ _ _ _ S1), S2. cbn [eqb]. lia.
  - rewrite ef_swap_eq in E. apply (IH b a e i); auto.
Qed.
Lemma seinv_high vs l H e i : seinv vs l H e i -> shinv l H e i.
Proof. intros (A & B & _ & C & _). split; [exact A|]. split; [exact B|exact C]. Qed.
Lemma se_swapped gr n m vs idx : ef_input n m vs -> exists ef, ef_make gr n m vs idx = Ok ef /\
  forall i, (i < length vs)%nat -> exists e, se_new ef (Z.of_nat i) = Ok e /\
  forall other os rs, (i + length (seen ef other os) <= length vs)%nat -> ses_calls ef other (bv_words (ef_high ef)) (ef_l ef) e os = Ok rs ->
  map (fun v => v / 2 ^ ef_l ef) rs = map (fun v => v / 2 ^ ef_l ef) (window vs i (length (seen ef other os))).
Proof.
  intros I. destruct (ef_make_ok gr n m vs idx I) as (ef & H & E & OK). exists ef. split; [exact E|]. intros i Hi.
  destruct (se_new_ok _ _ _ _ _ _ _ (Z.of_nat i) OK ltac:(unfold zlen; lia)) as (e & En & Ie). exists e. split; [exact En|]. intros other os rs C Er.
  assert (El : ef_l ef = low_len n m) by apply OK. rewrite El in *.
  pose proof (ses_ok _ _ _ _ _ _ _ OK os ef other e _ (seinv_high _ _ _ _ _ Ie) ltac:(lia) ltac:(unfold zlen; lia) rs Er) as P. rewrite Nat2Z.id in P. exact P.
Qed.

(** *** the object holds the same contents at every call *)
Lemma gv_home g : forall os a b e, Forall (eq g) (seen a b os) -> gs_calls gvs_next a b (bv_words (d64_bits (g_high g))) e os = gv_run g e (length (seen a b os)).
Proof.
  induction os as [|[|] os IH]; intros a b e F; cbn [seen gs_calls length gv_run] in *; [reflexivity| |].
  - pose proof (Forall_inv_tail F) as F'. assert (a = g) as -> by (symmetry; exact (Forall_inv F)). change (gvs_next g (bv_words (d64_bits (g_high g))) e) with (gv_enum_next g e).
    destruct (gv_enum_next g e) as [[v e']|]; [|reflexivity]. cbn [bind]. rewrite IH by exact F'. reflexivity.
  - rewrite gamma_swap_eq. apply IH. exact F.
Qed.
Lemma gb_home g : forall os a b e, Forall (eq g) (seen a b os) ->
  gs_calls gbs_next a b (bv_words (d64_bits (g_high g))) e os = gb_run g e (repeat GNext (length (seen a b os))).
Proof.
  induction os as [|[|] os IH]; intros a b e F; cbn [seen gs_calls length gb_run repeat] in *; [reflexivity| |].
  - pose proof (Forall_inv_tail F) as F'. assert (a = g) as -> by (symmetry; exact (Forall_inv F)). change (gbs_next g (bv_words (d64_bits (g_high g))) e) with (gb_enum_next g e).
    destruct (gb_enum_next g e) as [[v e']|]; [|reflexivity]. cbn [bind]. rewrite IH by exact F'. reflexivity.
  - rewrite gamma_swap_eq. apply IH. exact F.
Qed.
Lemma se_home ef : forall os a b e, Forall (eq ef) (seen a b os) -> ses_calls a b (bv_words (ef_high ef)) (ef_l ef) e os = se_run ef e (length (seen a b os)).
Proof.
  induction os as [|[|] os IH]; intros a b e F; cbn [seen ses_calls length se_run] in *; [reflexivity| |].
  - pose proof (Forall_inv_tail F) as F'. assert (a = ef) as -> by (symmetry; exact (Forall_inv F)). change (ses_next ef (bv_words (ef_high ef)) (ef_l ef) e) with (se_next ef e).
    destruct (se_next ef e) as [[v e']|]; [|reflexivity]. cbn [bind]. rewrite IH by exact F'. reflexivity.
  - rewrite ef_swap_eq. apply IH. exact F.
Qed.

(** *** mixed values *)
Lemma gamma_mixed : exists ints ints' v, (do g <- gv_build (fun c _ => 2 * c) ints; do g' <- gv_build (fun c _ => 2 * c) ints'; do e <- gv_enum_new g 0;
   gs_calls gvs_next g g' (bv_words (d64_bits (g_high g))) e [SSwap; SCall]) = Ok [v] /\ ~ In v ints /\ ~ In v ints'.
Proof. exists [5], [14], 6. split; [vm_compute; reflexivity|]. split; intros [H|[]]; discriminate. Qed.
Lemma select_stops : exists vs vs', ef_input 100 2 vs /\ ef_input 100 2 vs' /\
  (do ef <- ef_make (fun c _ => 2 * c) 100 2 vs false; do ef' <- ef_make (fun c _ => 2 * c) 100 2 vs' false; do e <- se_new ef 0;
   ses_calls ef ef' (bv_words (ef_high ef)) (ef_l ef) e [SCall; SSwap; SCall]) = Ub AssertFailed.
Proof.
  exists [3; 5], [40; 90].
  split; [unfold ef_input; split; [lia|]; split; [lia|]; split; [vm_compute; reflexivity|]; split; [vm_compute; discriminate|];
    split; [repeat (apply Forall_cons; [lia|]); apply Forall_nil|]; repeat constructor; lia|].
  split; [unfold ef_input; split; [lia|]; split; [lia|]; split; [vm_compute; reflexivity|]; split; [vm_compute; discriminate|];
    split; [repeat (apply Forall_cons; [lia|]); apply Forall_nil|]; repeat constructor; lia|].
  vm_compute. reflexivity.
Qed.
