(** The test oracles of test_bp_vector.cpp and test_bp_vector_rmq.cpp pass for every input. *)
From Verif Require Import Base Spec Lib M_Broadword M_BitVector M_RsBitVector M_Bp M_Tests.
From Verif Require Import S_BitVector S_Bp P_BvGen P_BvLib P_BvEnum P_BvRank P_BitVector P_RsQuery P_BpWord P_BpBuild P_BpSearch P_BpSpec P_BpRmq P_Tests1.

(** [s]: the positions of the parentheses left open in [a], last first *)
Inductive opened : list bool -> list Z -> Prop :=
| op_base u : bal u -> opened u []
| op_push a s u : opened a s -> bal u -> opened (a ++ true :: u) (zlen a :: s).

Lemma bal_app u v : bal u -> bal v -> bal (u ++ v).
Proof.
  induction 1 as [|u1 u2 H1 IH1 H2 IH2]; intros Hv; auto.
  cbn [app]. rewrite <- app_assoc. cbn [app]. constructor; auto.
Qed.
Lemma bal_wrap u : bal u -> bal (true :: u ++ [false]).
Proof. intros. constructor; auto. constructor. Qed.

Lemma opened_app a s w : opened a s -> bal w -> opened (a ++ w) s.
Proof.
  intros H Hw. destruct H.
  - constructor. apply bal_app; auto.
  - rewrite <- app_assoc. cbn [app]. constructor; auto. apply bal_app; auto.
Qed.
Lemma opened_open a s : opened a s -> opened (a ++ [true]) (zlen a :: s).
Proof. intros. apply op_push; auto. constructor. Qed.
Lemma opened_close a p s : opened a (p :: s) -> opened (a ++ [false]) s.
Proof.
  inversion 1; subst. replace ((a0 ++ true :: u) ++ [false]) with (a0 ++ (true :: u ++ [false])).
  - apply opened_app; auto. apply bal_wrap; auto.
  - rewrite <- app_assoc. reflexivity.
Qed.

Lemma opened_E a s : opened a s -> E a (zlen a) = zlen s.
Proof.
  induction 1 as [u Hu|a s u Ho IH Hu].
  - destruct (bal_excess u Hu) as [-> _]. reflexivity.
  - destruct (bal_excess u Hu) as [U0 _]. pose proof (zlen_nonneg a). pose proof (zlen_nonneg u).
    rewrite E_app by (apply zlen_nonneg). rewrite zlen_app, !zlen_cons.
    destruct (Z.leb_spec (zlen a + (zlen u + 1)) (zlen a)); [lia|].
    rewrite IH, E_cons by lia. replace (zlen a + (zlen u + 1) - zlen a - 1) with (zlen u) by lia. lia.
Qed.

Lemma E_prefix a v : E (a ++ v) (zlen a) = E a (zlen a).
Proof. rewrite E_app by apply zlen_nonneg. rewrite Z.leb_refl. reflexivity. Qed.

Lemma zbit_mid a x v : zbit (a ++ x :: v) (zlen a) = x.
Proof. apply (nth_zbit (a ++ x :: v) (length a)). apply nth_mid. Qed.

(** the top of the stack is the innermost pair around an opening parenthesis *)
Lemma top_innermost l a v q s : bal l -> l = a ++ true :: v -> opened a (q :: s) -> innermost l q (zlen a).
Proof.
  intros Hl El Ho. inversion Ho as [|a0 s0 u Ho' Hu]; subst a q s0.
  destruct (bal_excess u Hu) as [U0 U1].
  pose proof (zlen_nonneg a0). pose proof (zlen_nonneg u). pose proof (zlen_nonneg v).
  assert (Za : zlen (a0 ++ true :: u) = zlen a0 + 1 + zlen u) by (rewrite zlen_app, zlen_cons; lia).
  assert (Zl : zlen l = zlen a0 + 1 + zlen u + 1 + zlen v) by (rewrite El, zlen_app, zlen_cons; lia).
  assert (Zq : zbit l (zlen a0) = true).
  { rewrite El, <- app_assoc. cbn [app]. apply zbit_mid. }
  assert (Zp : zbit l (zlen (a0 ++ true :: u)) = true) by (rewrite El; apply zbit_mid).
  assert (Ek : forall k, zlen a0 < k <= zlen a0 + 1 + zlen u -> E l k = E l (zlen a0) + 1 + E u (k - zlen a0 - 1)).
  { intros k Hk. rewrite El, <- app_assoc. cbn [app]. rewrite !(E_app a0) by lia.
    replace (k <=? zlen a0) with false by lia. rewrite Z.leb_refl. rewrite E_cons by lia.
    rewrite E_app by lia. replace (k - zlen a0 - 1 <=? zlen u) with true by lia. lia. }
  assert (Ep : E l (zlen a0 + 1 + zlen u) = E l (zlen a0) + 1).
  { rewrite (Ek (zlen a0 + 1 + zlen u)) by lia. replace (zlen a0 + 1 + zlen u - zlen a0 - 1) with (zlen u) by lia. lia. }
  assert (Hlow : forall k, zlen a0 < k <= zlen a0 + 1 + zlen u -> E l (zlen a0) < E l k).
  { intros k Hk. rewrite (Ek k) by lia. specialize (U1 (k - zlen a0 - 1) ltac:(lia)). lia. }
  destruct (open_matched l (zlen a0) Hl ltac:(lia) Zq) as (m & HM).
  pose proof HM as HM'. apply matches_excess in HM'. destruct HM' as (M0 & M1 & M2 & F0 & F1 & F2).
  rewrite Za in *. apply (bhit_innermost l _ (zlen a0)); auto; [lia| |].
  - exists m. split; auto. split; [lia|].
    destruct (Z_lt_le_dec (zlen a0 + 1 + zlen u) m); auto. exfalso.
    assert (m + 1 <= zlen a0 + 1 + zlen u \/ m = zlen a0 + 1 + zlen u) as [C|C] by lia.
    + specialize (Hlow (m + 1) ltac:(lia)). lia.
    + subst m. rewrite E_succ, Zp in F1 by lia. lia.
  - split; [lia|]. split; [lia|]. intros k Hk. specialize (Hlow k ltac:(lia)). lia.
Qed.

Lemma top_none l a v : bal l -> l = a ++ true :: v -> opened a [] -> forall q, ~ encloses l q (zlen a).
Proof.
  intros Hl El Ho q (m & HM & Hq). apply opened_E in Ho. change (zlen (@nil Z)) with 0 in Ho.
  destruct (bal_excess l Hl) as [_ L1]. apply matches_excess in HM. destruct HM as (M0 & M1 & M2 & F0 & F1 & F2).
  assert (E l (zlen a) = 0) by (rewrite El, E_prefix; auto).
  specialize (L1 q ltac:(lia)). specialize (F2 (zlen a) ltac:(lia)). lia.
Qed.

Lemma close_matches l a v q s : l = a ++ false :: v -> opened a (q :: s) -> matches l q (zlen a).
Proof.
  intros El Ho. inversion Ho as [|a0 s0 u Ho' Hu]; subst a q s0.
  exists a0, u, v. split; [rewrite El, <- app_assoc; reflexivity|]. split; [auto|]. split; [auto|].
  rewrite zlen_app, zlen_cons. lia.
Qed.

(** what the arrays hold once the first [n] parentheses have been read *)
Definition arrays_ok (l : list bool) (n : Z) (open close enc : list Z) : Prop :=
  zlen open = zlen l /\ zlen close = zlen l /\ zlen enc = zlen l /\
  (forall p m, matches l p m -> m < n -> W close p = m /\ W open m = p) /\
  (forall i, 0 <= i < n -> zbit l i = true ->
    (W enc i = 2 ^ 64 - 1 /\ forall q, ~ encloses l q i) \/ innermost l (W enc i) i) /\
  (forall i, n <= i < zlen l -> W enc i = 2 ^ 64 - 1).

Lemma stack_loop_ok l : bal l -> forall v a s open close enc, l = a ++ v -> opened a s -> arrays_ok l (zlen a) open close enc ->
  exists open' close' enc', stack_loop v (zlen a) s open close enc = Ok (Some ([], open', close', enc')) /\
    arrays_ok l (zlen l) open' close' enc'.
Proof.
  intros Hl. induction v as [|x v IH]; intros a s open close enc El Ho HA; cbn [stack_loop].
  - rewrite app_nil_r in El. subst a. apply opened_E in Ho. destruct (bal_excess l Hl) as [L0 _].
    destruct s as [|? s]; [|rewrite zlen_cons in Ho; pose proof (zlen_nonneg s); lia].
    do 3 eexists. split; [reflexivity|exact HA].
  - pose proof HA as (A1 & A2 & A3 & A4 & A5 & A6). pose proof (zlen_nonneg a). pose proof (zlen_nonneg v).
    assert (Zl : zlen l = zlen a + 1 + zlen v) by (rewrite El, zlen_app, zlen_cons; lia).
    assert (Zx : zbit l (zlen a) = x) by (rewrite El; apply zbit_mid).
    rewrite <- (zlen_snoc a x). destruct x.
    + assert (exists enc', (match s with [] => Ok enc | top :: _ => wr enc (zlen a) top end) = Ok enc' /\
        arrays_ok l (zlen (a ++ [true])) open close enc') as (enc' & -> & HA').
      { assert (A4' : forall p m, matches l p m -> m < zlen a + 1 -> W close p = m /\ W open m = p).
        { intros p m HM Hm. apply A4; auto. destruct (Z.eq_dec m (zlen a)) as [->|]; [|lia]. exfalso.
          destruct HM as (a' & u & b & E1 & _ & _ & E2). rewrite E2 in Zx.
          rewrite E1 in Zx. replace (zlen a' + 1 + zlen u) with (zlen (a' ++ true :: u)) in Zx by (rewrite zlen_app, zlen_cons; lia).
          replace (a' ++ true :: u ++ false :: b) with ((a' ++ true :: u) ++ false :: b) in Zx by (rewrite <- app_assoc; reflexivity).
          rewrite zbit_mid in Zx. discriminate. }
        destruct s as [|q s].
        - exists enc. split; [reflexivity|]. rewrite zlen_snoc. repeat split; auto; try apply A4'; auto.
          + intros i Hi Zi. destruct (Z.eq_dec i (zlen a)) as [->|]; [|apply A5; auto; lia].
            left. split; [apply A6; lia|]. eapply top_none; eauto.
          + intros i Hi. apply A6. lia.
        - rewrite wr_ok by lia. exists (upd enc (Z.to_nat (zlen a)) q). split; [reflexivity|]. rewrite zlen_snoc.
          repeat split; auto; try apply A4'; auto; [rewrite zlen_upd; auto| |].
          + intros i Hi Zi. rewrite W_upd by lia. destruct (Z.eqb_spec i (zlen a)) as [->|]; [|apply A5; auto; lia].
            right. eapply top_innermost; eauto.
          + intros i Hi. rewrite W_upd by lia. replace (i =? zlen a) with false by lia. apply A6. lia. }
      cbn [bind]. apply IH; auto; [rewrite El; apply app_snoc|]. apply opened_open; auto.
    + destruct s as [|q s].
      { exfalso. apply opened_E in Ho. change (zlen (@nil Z)) with 0 in Ho. destruct (bal_excess l Hl) as [_ L1].
        specialize (L1 (zlen a + 1) ltac:(lia)). rewrite E_succ, Zx in L1 by lia.
        rewrite El, E_prefix in L1. lia. }
      pose proof (close_matches l a v q s El Ho) as HM. pose proof HM as HM'. apply matches_excess in HM'.
      destruct HM' as (M0 & M1 & M2 & F0 & _). rewrite !wr_ok by lia. cbn [bind].
      apply IH; [rewrite El; apply app_snoc|eapply opened_close; eauto|]. rewrite zlen_snoc.
      repeat split; auto; try (rewrite zlen_upd; auto).
      * rewrite W_upd by lia. destruct (Z.eqb_spec p q) as [->|Hp]; [eapply matches_unique; eauto|].
        apply A4; auto. destruct (Z.eq_dec m (zlen a)) as [->|]; [|lia]. elim Hp. eapply matches_unique_open; eauto.
      * rewrite W_upd by lia. destruct (Z.eqb_spec m (zlen a)) as [->|Hm]; [eapply matches_unique_open; eauto|].
        apply A4; auto. lia.
      * intros i Hi Zi. apply A5; auto. destruct (Z.eq_dec i (zlen a)) as [->|]; [congruence|lia].
      * intros i Hi. apply A6. lia.
Qed.

Lemma parentheses_loop_ok f l bp open close enc : bal l -> bp_ok l bp -> arrays_ok l (zlen l) open close enc ->
  forall v a, l = a ++ v -> parentheses_loop (loose_shift f) bp v (zlen a) open close enc = Ok true.
Proof.
  intros Hl HB (A1 & A2 & A3 & A4 & A5 & A6). induction v as [|x v IH]; intros a El; cbn [parentheses_loop]; auto.
  pose proof (zlen_nonneg a). pose proof (zlen_nonneg v).
  assert (Zl : zlen l = zlen a + 1 + zlen v) by (rewrite El, zlen_app, zlen_cons; lia).
  assert (Zx : zbit l (zlen a) = x) by (rewrite El; apply zbit_mid).
  specialize (IH (a ++ [x])). rewrite zlen_snoc in IH. specialize (IH ltac:(rewrite El; apply app_snoc)).
  destruct x.
  - rewrite W_rd by lia. cbn [bind].
    replace (if W enc (zlen a) =? 2 ^ 64 - 1 then Ok (W enc (zlen a)) else enclose (loose_shift f) bp (zlen a)) with (Ok (W enc (zlen a))).
    2:{ destruct (Z.eqb_spec (W enc (zlen a)) (2 ^ 64 - 1)) as [|C]; auto.
        destruct (A5 (zlen a) ltac:(lia) Zx) as [(C' & _)|I]; [congruence|].
        destruct (enclose_ok f l bp (W enc (zlen a)) (zlen a) HB ltac:(lia) Zx (proj1 I)) as (r & -> & I').
        f_equal. eapply innermost_unique; eauto. }
    cbn [bind]. rewrite Z.eqb_refl, W_rd by lia. cbn [bind].
    destruct (open_matched l (zlen a) Hl ltac:(lia) Zx) as (m & HM).
    pose proof HM as HM'. apply matches_excess in HM'. destruct HM' as (_ & M1 & _).
    rewrite (find_close_matches f l bp _ m HB HM). cbn [bind]. destruct (A4 _ _ HM M1) as [-> _].
    rewrite Z.eqb_refl. exact IH.
  - rewrite W_rd by lia. cbn [bind].
    destruct (close_matched l (zlen a) (bal_prefix_ok l Hl) ltac:(lia) Zx) as (p & HM).
    rewrite (find_open_matches f l bp p _ HB HM). cbn [bind]. destruct (A4 _ _ HM ltac:(lia)) as [_ ->].
    rewrite Z.eqb_refl. exact IH.
Qed.

Lemma zlen_repeat' {A} (x : A) n : zlen (repeat x n) = Z.of_nat n.
Proof. unfold zlen. rewrite repeat_length. reflexivity. Qed.

Lemma test_parentheses_ok f uninit h h0 l : zlen l < 2 ^ 31 -> bal l -> exists bp,
  bp_build uninit (bv_range l) h h0 = Ok bp /\ bp_size bp = zlen l /\ test_parentheses (loose_shift f) l bp = Ok true.
Proof.
  intros Hs Hl. pose proof (bal_prefix_ok l Hl) as HP.
  destruct (bp_build_ok l uninit h h0 Hs (proj1 (prefix_ok_nonneg l) HP)) as (bp & Eb & HB).
  exists bp. split; [auto|]. split; [destruct HB as (HR & _); unfold bp_size; rewrite (proj1 HR); reflexivity|].
  unfold test_parentheses.
  destruct (stack_loop_ok l Hl l [] [] (repeat 0 (length l)) (repeat 0 (length l)) (repeat (2 ^ 64 - 1) (length l)))
    as (open & close & enc & Es & HA); auto.
  - constructor. constructor.
  - repeat split; try apply zlen_repeat'.
    + exfalso. apply matches_excess in H. destruct H as (P0 & _ & _ & F0 & _). change (zlen (@nil bool)) with 0 in H0. lia.
    + exfalso. apply matches_excess in H. destruct H as (P0 & _ & _ & F0 & _). change (zlen (@nil bool)) with 0 in H0. lia.
    + intros i Hi. change (zlen (@nil bool)) with 0 in Hi. lia.
    + intros i Hi. unfold W. change (zlen (@nil bool)) with 0 in Hi. replace (i <? 0) with false by lia.
      rewrite (nth_indep _ 0 (2 ^ 64 - 1)) by (rewrite repeat_length; unfold zlen in Hi; lia). apply nth_repeat.
  - change (zlen (@nil bool)) with 0 in Es. rewrite Es. cbn [bind]. change (zlen (@nil Z) =? 0) with true. cbn iota.
    apply (parentheses_loop_ok f l bp open close enc Hl HB HA l []). reflexivity.
Qed.

(** ** excess_rmq *)
Lemma argmin_step g a b i : a <= b -> argmin g a b i ->
  argmin g a (b + 1) (if g (b + 1) <? g i then b + 1 else i).
Proof.
  intros Hab (A0 & A1 & A2). destruct (Z.ltb_spec (g (b + 1)) (g i)) as [C|C].
  - split; [lia|]. split; intros j Hj.
    + destruct (Z.eq_dec j (b + 1)) as [->|]; [lia|]. specialize (A1 j ltac:(lia)). lia.
    + specialize (A1 j ltac:(lia)). lia.
  - split; [lia|]. split; intros j Hj.
    + destruct (Z.eq_dec j (b + 1)) as [->|]; [lia|]. apply A1. lia.
    + apply A2. lia.
Qed.
Lemma argmin_unique g a b i j : argmin g a b i -> argmin g a b j -> i = j.
Proof.
  intros (A0 & A1 & A2) (B0 & B1 & B2). destruct (Z.lt_total i j) as [C|[C|C]]; auto.
  - specialize (B2 i ltac:(lia)). specialize (A1 j ltac:(lia)). lia.
  - specialize (A2 j ltac:(lia)). specialize (B1 i ltac:(lia)). lia.
Qed.
Lemma argmin_single g a : argmin g a a a.
Proof. split; [lia|]. split; intros j Hj; [replace j with a by lia|]; lia. Qed.

Lemma enum_new_ok l pos : 0 <= pos -> einv (enum_new pos) l (pos, false).
Proof.
  intros. apply einv_intro; try lia; [unfold is_u64; lia|]. intros _ i Hi. rewrite Z.testbit_0_l. replace (i <? 0) with false by lia. reflexivity.
Qed.

Lemma bp_rmq_loop_ok l bp : bp_ok l bp -> room l -> forall n a b it i st,
  0 <= a < b -> Z.of_nat n = zlen l - b \/ n = 0%nat -> argmin (E l) a (b - 1) i -> einv it l (b - 1, st) ->
  bp_rmq_loop true bp n a b it (E l (b - 1)) (E l i) i = Ok true.
Proof.
  intros HB HR. pose proof HB as (HRs & Hsz & _). induction n as [|n IH]; intros a b it i st Ha Hn HA HI; cbn [bp_rmq_loop]; auto.
  destruct Hn as [Hn|]; [|discriminate].
  rewrite (proj1 HRs).
  destruct (enum_next_ok l it (b - 1) st (zbit l (b - 1)) HI) as (it' & -> & HI').
  { rewrite zbit_nth_error by lia. reflexivity. }
  cbn [bind]. pose proof (E_succ l (b - 1) ltac:(lia)) as X. replace (b - 1 + 1) with b in * by lia.
  replace (if zbit l (b - 1) then E l (b - 1) + 1 else E l (b - 1) - 1) with (E l b) by (destruct (zbit l (b - 1)); lia).
  specialize (HR b ltac:(lia)) as HRb. rewrite int32_ok by lia. cbn [bind].
  replace (if E l b <? E l i then excess bp b else Ok (E l b)) with (Ok (E l b)).
  2:{ destruct (E l b <? E l i); auto. rewrite (excess_ok l) by (auto; lia). reflexivity. }
  cbn [bind]. rewrite assert_true by lia.
  pose proof (argmin_step (E l) a (b - 1) i ltac:(lia) HA) as HA'. replace (b - 1 + 1) with b in * by lia.
  destruct (excess_rmq_ok l bp a b HB HR ltac:(lia) ltac:(lia)) as (p & -> & Hp). cbn [bind].
  rewrite (argmin_unique _ _ _ _ _ HA' Hp), Z.eqb_refl.
  pose proof (argmin_unique _ _ _ _ _ HA' Hp) as <-.
  replace (if E l b <? E l i then E l b else E l i) with (E l (if E l b <? E l i then b else i)) by (destruct (E l b <? E l i); auto).
  pose proof (IH a (b + 1) it' (if E l b <? E l i then b else i) false) as R.
  replace (b + 1 - 1) with b in R by lia. apply R; auto; lia.
Qed.

Lemma bp_rmq_tests_ok l bp : bp_ok l bp -> room l -> forall tests, Forall (fun a => 0 <= a) tests ->
  bp_rmq_tests true (zlen l) bp tests = Ok true.
Proof.
  intros HB HR. pose proof HB as (HRs & Hsz & _). induction 1 as [|a tests Ha HF IH]; cbn [bp_rmq_tests]; auto.
  destruct (Z.ltb_spec (zlen l) a) as [C|C]; auto.
  rewrite (excess_ok l) by (auto; lia). cbn [bind].
  destruct (excess_rmq_ok l bp a a HB HR ltac:(lia) ltac:(lia)) as (p & -> & (P0 & _)). cbn [bind].
  replace p with a by lia. rewrite Z.eqb_refl.
  pose proof (bp_rmq_loop_ok l bp HB HR (Z.to_nat (zlen l - (a + 1))) a (a + 1) (enum_new a) a false) as R.
  replace (a + 1 - 1) with a in R by lia.
  rewrite R; [exact IH|lia|lia|apply argmin_single|apply enum_new_ok; lia].
Qed.

Lemma test_bp_rmq_ok uninit h h0 l : zlen l < 2 ^ 31 -> prefix_ok l ->
  (bal l \/ forall p, 0 <= p <= zlen l -> depth l p < 2 ^ 31 - 64) ->
  exists bp, bp_build uninit (bv_range l) h h0 = Ok bp /\ forall rands, test_bp_rmq true rands l bp = Ok true.
Proof.
  intros Hs HP HD. pose proof (proj1 (prefix_ok_nonneg l) HP) as HN. destruct (bp_build_ok l uninit h h0 Hs HN) as (bp & Eb & HB).
  exists bp. split; [exact Eb|].
  assert (HR : room l).
  { destruct HD as [HD|HD]; [apply bal_room; auto|]. intros p Hp. specialize (HN p Hp). specialize (HD p Hp). rewrite <- E_depth in HD by lia. lia. }
  intros rands. unfold test_bp_rmq. destruct (Z.eqb_spec (zlen l) 0) as [|C]; auto. pose proof (zlen_nonneg l).
  apply bp_rmq_tests_ok; auto. apply Forall_app. split; [repeat constructor; lia|].
  apply Forall_map, Forall_forall. intros r _. apply Z.mod_pos_bound. lia.
Qed.

(** the nested parentheses of test_bp_vector.cpp:78-91, size 512 *)
Lemma test_parentheses_strict : let l := repeat true 256 ++ repeat false 256 in
  (do bp <- bp_build 0 (bv_range l) false false; test_parentheses strict_shift l bp) = Ub BadShift.
Proof. vm_compute. reflexivity. Qed.
(** where char is unsigned *)
Lemma test_bp_rmq_unsigned : exists l rands, bal l /\
  (do bp <- bp_build 0 (bv_range l) false false; test_bp_rmq false rands l bp) = Ok false.
Proof.
  exists (repeat true 16 ++ repeat false 16 ++ [true; false]), [16]. split; [|vm_compute; reflexivity].
  apply balb_sound. reflexivity.
Qed.
