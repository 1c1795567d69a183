(** The oracles of test_bp_vector_rmq.cpp, test_cartesian_tree.cpp and test_topk_vector.cpp: what a passing test establishes. *)
From Verif Require Import Base Spec Lib M_Broadword M_BitVector M_RsBitVector M_Bp M_Cartesian M_Topk M_Tests.
From Verif Require Import S_BitVector S_Bp S_Cartesian S_Topk P_BvLib P_BvEnum P_BvProps P_BitVector P_RsQuery P_BpBuild P_BpSpec P_BpWord P_BpRmq P_Cartesian P_Topk P_EliasFano2 P_Tests1 P_Tests2 P_Tests3 P_Oracle.

(** ** cartesian_tree *)
Section Ct.
Context {T : Type} (comp : T -> T -> bool) (v : list T).
Hypothesis HO : strict_weak_order comp.
Variables (cs : bool) (tree : bp_vector).

Definition ct_right (a b : nat) : Prop := exists m, ct_rmq cs tree (Z.of_nat a) (Z.of_nat b) = Ok (Z.of_nat m) /\ leftmost_min comp v a b m.

Lemma ct_loop_iff : forall n a b m x, (a <= b)%nat -> (n + S b)%nat = length v ->
  leftmost_min comp v a b m -> nth_error v m = Some x ->
  ct_rmq_loop cs comp v tree n (Z.of_nat a) (Z.of_nat b + 1) (Z.of_nat m) x = Ok true <->
  forall b', (b < b' < length v)%nat -> ct_right a b'.
Proof.
  induction n as [|n IH]; intros a b m x Hab Hn HM Hx; cbn [ct_rmq_loop].
  { split; auto. intros _ b' Hb'. lia. }
  destruct (nth_error v (S b)) as [y|] eqn:Hy; [|apply nth_error_None in Hy; lia].
  replace (Z.of_nat b + 1) with (Z.of_nat (S b)) by lia. rewrite (rd_nth v (S b) y Hy). cbn [bind].
  pose proof (lm_step comp v HO a b m x y Hab HM Hx Hy) as HM'.
  replace (if comp y x then Z.of_nat (S b) else Z.of_nat m) with (Z.of_nat (if comp y x then S b else m)) by (destruct (comp y x); auto).
  assert (Hx' : nth_error v (if comp y x then S b else m) = Some (if comp y x then y else x)) by (destruct (comp y x); auto).
  set (m' := if comp y x then S b else m) in *. set (x' := if comp y x then y else x) in *.
  pose proof (IH a (S b) m' x' ltac:(lia) ltac:(lia) HM' Hx') as R. split.
  - destruct (ct_rmq cs tree (Z.of_nat a) (Z.of_nat (S b))) as [f|u] eqn:E; cbn [bind]; [|discriminate].
    destruct (Z.eqb_spec (Z.of_nat m') f) as [C|C]; [|discriminate]. intros HL0. pose proof (proj1 R HL0) as HL.
    intros b' Hb'. destruct (Nat.eq_dec b' (S b)) as [->|]; [|apply HL; lia]. exists m'. subst f. auto.
  - intros HR. destruct (HR (S b) ltac:(lia)) as (m2 & -> & HM2). cbn [bind].
    rewrite (lm_unique comp v _ _ _ _ HM2 HM'), Z.eqb_refl. apply R. intros b' Hb'. apply HR. lia.
Qed.

Lemma ct_tests_iff : forall tests, Forall (fun a => 0 <= a) tests ->
  ct_rmq_tests cs comp v tree tests = Ok true <->
  ~ In (zlen v) tests /\ forall a b, In (Z.of_nat a) tests -> (a <= b < length v)%nat -> ct_right a b.
Proof.
  induction 1 as [|a tests Ha HF IH]; cbn [ct_rmq_tests].
  { split; auto. intros _. split; [auto|]. intros a b []. }
  destruct (Z.ltb_spec (zlen v) a) as [C|C].
  { rewrite IH. split; intros [H1 H2]; (split; [intros D; apply H1|]).
    - destruct D as [D|D]; [lia|exact D].
    - intros k b [D|D] Hb; [unfold zlen in C; lia|]. apply H2; auto.
    - right. exact D.
    - intros k b D. apply H2. right. exact D. }
  destruct (Z.eq_dec a (zlen v)) as [->|C'].
  { rewrite rd_oob by lia. cbn [bind]. split; [discriminate|]. intros [H1 _]. elim H1. left. reflexivity. }
  unfold zlen in C, C'.
  destruct (nth_error v (Z.to_nat a)) as [x|] eqn:Hx; [|apply nth_error_None in Hx; lia].
  rewrite <- (Z2Nat.id a) by lia. set (k := Z.to_nat a) in *.
  rewrite (rd_nth v k x Hx). cbn [bind]. pose proof (lm_single comp v HO k x Hx) as HM.
  pose proof (ct_loop_iff (Z.to_nat (zlen v - (Z.of_nat k + 1))) k k k x ltac:(lia) ltac:(unfold zlen; lia) HM Hx) as R. split.
  - destruct (ct_rmq cs tree (Z.of_nat k) (Z.of_nat k)) as [f|u] eqn:E; cbn [bind]; [|discriminate].
    destruct (Z.eqb_spec (Z.of_nat k) f) as [D|D]; [|discriminate].
    destruct (ct_rmq_loop _ _ _ _ _ _ _ _ _) as [[|]|] eqn:EL; cbn [bind]; try discriminate. intros HT0.
    pose proof (proj1 IH HT0) as HT. destruct HT as [H1 H2]. split.
    + intros [F|F]; [unfold zlen in F; lia|auto].
    + intros a' b [F|F] Hb; [|apply H2; auto]. apply Nat2Z.inj in F. subst a'.
      destruct (Nat.eq_dec b k) as [->|]; [exists k; subst f; auto|]. apply (proj1 R eq_refl). lia.
  - intros [H1 H2]. destruct (H2 k k) as (m & -> & (M & _)); [left; auto|lia|]. cbn [bind].
    replace m with k by lia. rewrite Z.eqb_refl.
    rewrite (proj2 R); [|intros b' Hb'; apply H2; [left; auto|lia]]. cbn [bind].
    apply IH. split; [intros F; apply H1; right; exact F|]. intros a' b F. apply H2. right. exact F.
Qed.

Lemma min_element_lm : forall rest i best x, (best <= i)%nat -> skipn (S i) v = rest -> nth_error v best = Some x ->
  leftmost_min comp v 0 i best -> (S i <= length v)%nat ->
  exists m, min_element comp rest (Z.of_nat i + 1) (Z.of_nat best) x = Z.of_nat m /\ leftmost_min comp v 0 (length v - 1) m.
Proof.
  induction rest as [|y rest IH]; intros i best x Hb Hs Hx HM Hi; cbn [min_element].
  - exists best. split; auto. assert (L : length (skipn (S i) v) = 0%nat) by (rewrite Hs; reflexivity).
    rewrite skipn_length in L. replace (length v - 1)%nat with i by lia. exact HM.
  - assert (Hy : nth_error v (S i) = Some y).
    { rewrite <- (firstn_skipn (S i) v). rewrite nth_error_app2; rewrite firstn_length_le by lia; [|lia].
      rewrite Nat.sub_diag, Hs. reflexivity. }
    assert (Hl : (S i < length v)%nat) by (apply nth_error_Some; congruence).
    assert (Hs' : skipn (S (S i)) v = rest) by (rewrite (skipn_nth y v (S i) Hl) in Hs; congruence).
    pose proof (lm_step comp v HO 0 i best x y ltac:(lia) HM Hx Hy) as HM'.
    replace (Z.of_nat i + 1) with (Z.of_nat (S i)) by lia.
    destruct (comp y x).
    + apply IH; auto; lia.
    + apply IH; auto; lia.
Qed.
End Ct.

Lemma cartesian_iff T (comp : T -> T -> bool) cs rands v tree : strict_weak_order comp ->
  test_ct_rmq cs comp rands v tree = Ok true <->
  ct_size tree = zlen v /\ zlen v <> 1 /\
  forall a b, (a = 0%nat \/ a = 1%nat \/ leftmost_min comp v 0 (length v - 1) a \/ exists r, In r rands /\ Z.of_nat a = u64 r mod zlen v) ->
    (a <= b < length v)%nat -> exists m, ct_rmq cs tree (Z.of_nat a) (Z.of_nat b) = Ok (Z.of_nat m) /\ leftmost_min comp v a b m.
Proof.
  intros HO. unfold test_ct_rmq. destruct (Z.eqb_spec (zlen v) (ct_size tree)) as [C|C].
  2:{ split; [discriminate|]. intros (D & _). congruence. }
  destruct v as [|x rest] eqn:Ev.
  { split; auto. intros _. split; [auto|]. split; [discriminate|]. intros a b _ Hb. cbn in Hb. lia. }
  rewrite <- Ev in *.
  assert (Hv : 0 < zlen v) by (subst v; rewrite zlen_cons; pose proof (zlen_nonneg rest); lia).
  destruct (min_element_lm comp v HO rest 0 0 x) as (m & Em & HM); auto; try (subst v; reflexivity).
  { apply lm_single with x; auto. subst v. reflexivity. }
  { unfold zlen in Hv. lia. }
  change (Z.of_nat 0 + 1) with 1 in Em. change (Z.of_nat 0) with 0 in Em. rewrite Em.
  assert (HF : Forall (fun a => 0 <= a) ([0; 1; Z.of_nat m] ++ map (fun r => u64 r mod zlen v) rands)).
  { apply Forall_app. split; [repeat constructor; lia|]. apply Forall_map, Forall_forall. intros r _. apply Z.mod_pos_bound. lia. }
  rewrite (ct_tests_iff comp v HO cs tree _ HF). destruct HM as (M0 & M1 & M2).
  assert (HI : forall a, (a < length v)%nat -> In (Z.of_nat a) ([0; 1; Z.of_nat m] ++ map (fun r => u64 r mod zlen v) rands) <->
     (a = 0%nat \/ a = 1%nat \/ leftmost_min comp v 0 (length v - 1) a \/ exists r, In r rands /\ Z.of_nat a = u64 r mod zlen v)).
  { intros a Ha. cbn [app In]. rewrite in_map_iff. split.
    - intros [D|[D|[D|(r & D & Hr)]]]; [left; lia|right; left; lia| |do 3 right; exists r; auto].
      do 2 right. left. apply Nat2Z.inj in D. subst a. split; auto.
    - intros [D|[D|[D|(r & Hr & D)]]]; [left; lia|right; left; lia| |do 3 right; exists r; auto].
      do 2 right. left. rewrite (lm_unique comp v _ _ _ _ D (conj M0 (conj M1 M2))). reflexivity. }
  split.
  - intros [H1 H2]. split; [auto|]. split; [intros D; apply H1; rewrite D; right; left; auto|].
    intros a b Ha Hb. apply H2; auto. apply HI; auto. lia.
  - intros (_ & H1 & H2). split.
    + cbn [app In]. rewrite in_map_iff. unfold zlen in *. intros [D|[D|[D|(r & D & Hr)]]];
        [lia|lia|lia|pose proof (Z.mod_pos_bound (u64 r) (Z.of_nat (length v)) ltac:(lia)); lia].
    + intros a b Ha Hb. apply H2; auto. apply HI; auto. lia.
Qed.

(** ** topk_vector *)
Definition entry_same {T} (eq : T -> T -> bool) (e : T * Z) (f : option (T * Z)) : Prop :=
  exists x, f = Some (x, snd e) /\ eq (fst e) x = true.

Lemma same_entries_iff {T} (eq : T -> T -> bool) xs : forall ys, same_entries eq xs ys = true <-> Forall2 (entry_same eq) xs ys.
Proof.
  induction xs as [|e xs IH]; intros [|[f|] ys]; cbn [same_entries]; split; intros H; try discriminate; try (inversion H; fail); auto.
  - apply andb_true_iff in H. destruct H as [H1 H2]. apply andb_true_iff in H1. destruct H1 as [H0 H1].
    constructor; [|apply IH; auto]. apply Z.eqb_eq in H1. exists (fst f). split; auto. rewrite H1. destruct f; auto.
  - inversion H as [|? ? ? ? (x & [= ->] & Hx) HF]; subst. cbn [fst snd]. rewrite Hx, Z.eqb_refl. cbn. apply IH. auto.
  - inversion H as [|? ? ? ? (x & D & _) HF]; subst. discriminate.
Qed.

Lemma topk_iff T cs (lt eq : T -> T -> bool) h v (tk : topk_vector T) rands : strict_weak_order lt -> eq_agrees lt eq ->
  test_topk cs lt eq h v tk rands = Ok true <->
  tk_size tk = zlen v /\
  forall r1 r2 a b r, In (r1, r2) rands -> v <> [] -> Z.of_nat a = u64 r1 mod zlen v -> Z.of_nat b = Z.of_nat a + u64 r2 mod (zlen v - Z.of_nat a) ->
    ranking lt v a b r -> exists found, topk cs h tk (Z.of_nat a) (Z.of_nat b) 10 = Ok found /\
      Forall2 (fun e f => exists x, f = Some (x, snd e) /\ eq (fst e) x = true) (firstn 10 r) found.
Proof.
  intros HO HE. unfold test_topk. destruct (Z.eqb_spec (zlen v) (tk_size tk)) as [C|C].
  2:{ split; [discriminate|]. intros (D & _). congruence. }
  destruct (Z.eqb_spec (zlen v) 0) as [Z0|Z0].
  { split; auto. intros _. split; [auto|]. intros r1 r2 a b r _ Hv. destruct v; [congruence|]. rewrite zlen_cons in Z0. pose proof (zlen_nonneg v). lia. }
  assert (Hv : v <> []) by (intros ->; apply Z0; reflexivity). pose proof (zlen_nonneg v).
  induction rands as [|[r1 r2] rands IH]; cbn [topk_tests].
  { split; auto. intros _. split; [auto|]. intros r1 r2 a b r []. }
  pose proof (Z.mod_pos_bound (u64 r1) (zlen v) ltac:(lia)) as Ba.
  remember (u64 r1 mod zlen v) as a eqn:Ea.
  pose proof (Z.mod_pos_bound (u64 r2) (zlen v - a) ltac:(lia)) as Bb.
  remember (a + u64 r2 mod (zlen v - a)) as b eqn:Eb. assert (Hab : a <= b < zlen v) by lia. unfold zlen in Hab.
  pose proof (Z2Nat.id a ltac:(lia)) as Ia. pose proof (Z2Nat.id b ltac:(lia)) as Ib.
  set (a' := Z.to_nat a) in *. set (b' := Z.to_nat b) in *. rewrite <- Ia, <- Ib in *.
  replace (Z.to_nat (Z.of_nat b' + 1 - Z.of_nat a')) with (b' + 1 - a')%nat by lia.
  rewrite expected_loop_ok by lia. cbn [bind]. fold (entries v a' b').
  pose proof (sort_ranking lt eq HO HE v a' b') as HS. set (s := sort_entries _ _) in *.
  rewrite firstn_min by lia. change (Z.to_nat 10) with 10%nat. split.
  - destruct (topk cs h tk (Z.of_nat a') (Z.of_nat b') 10) as [found|u] eqn:E; cbn [bind]; [|discriminate].
    destruct (same_entries eq (firstn 10 s) found) eqn:ES; [|discriminate]. intros HT0. pose proof (proj1 IH HT0) as HT. destruct HT as [_ HT].
    split; [auto|]. intros q1 q2 i j r [D|D] _ Hi Hj HR; [|eapply HT; eauto].
    injection D as <- <-. assert (i = a') by (apply Nat2Z.inj; congruence). subst i.
    assert (j = b') by (apply Nat2Z.inj; congruence). subst j.
    exists found. split; [auto|]. rewrite (ranking_unique lt v a' b' r s HO HR HS). apply same_entries_iff. exact ES.
  - intros [_ HT]. destruct (HT r1 r2 a' b' s) as (found & -> & HF); auto; [left; auto|]. cbn [bind].
    rewrite (proj2 (same_entries_iff eq _ _) HF). apply IH. split; [auto|]. intros q1 q2 i j r D. apply (HT q1 q2). right. exact D.
Qed.

(** ** excess_rmq *)
Section Rmq.
Variables (l : list bool) (bp : bp_vector) (cs : bool).
Hypothesis HR : rs_ok l (bp_rs bp).
Hypothesis HS : zlen l < 2 ^ 31.

Definition rmq_right (a b : Z) : Prop := exists p e, excess_rmq cs bp a b = Ok (p, e) /\ argmin (E l) a b p.

Lemma rmq_loop_iff : forall n a b it i st,
  0 <= a < b -> Z.of_nat n = Z.max 0 (zlen l - b) -> argmin (E l) a (b - 1) i -> einv it l (b - 1, st) ->
  bp_rmq_loop cs bp n a b it (E l (b - 1)) (E l i) i = Ok true <-> forall b', b <= b' < zlen l -> rmq_right a b'.
Proof.
  induction n as [|n IH]; intros a b it i st Ha Hn HA HI; cbn [bp_rmq_loop].
  { split; auto. intros _ b' Hb'. lia. }
  rewrite (proj1 HR).
  destruct (enum_next_ok l it (b - 1) st (zbit l (b - 1)) HI) as (it' & -> & HI').
  { rewrite zbit_nth_error by lia. reflexivity. }
  cbn [bind]. pose proof (E_succ l (b - 1) ltac:(lia)) as X. replace (b - 1 + 1) with b in * by lia.
  replace (if zbit l (b - 1) then E l (b - 1) + 1 else E l (b - 1) - 1) with (E l b) by (destruct (zbit l (b - 1)); lia).
  pose proof (E_bound l b ltac:(lia)) as EB. rewrite int32_ok by lia. cbn [bind].
  replace (if E l b <? E l i then excess bp b else Ok (E l b)) with (Ok (E l b)).
  2:{ destruct (E l b <? E l i); auto. rewrite (excess_ok l) by (auto; lia). reflexivity. }
  cbn [bind]. rewrite assert_true by lia.
  pose proof (argmin_step (E l) a (b - 1) i ltac:(lia) HA) as HA'. replace (b - 1 + 1) with b in * by lia.
  replace (if E l b <? E l i then E l b else E l i) with (E l (if E l b <? E l i then b else i)) by (destruct (E l b <? E l i); auto).
  set (i' := if E l b <? E l i then b else i) in *.
  pose proof (IH a (b + 1) it' i' false) as R. replace (b + 1 - 1) with b in R by lia.
  specialize (R ltac:(lia) ltac:(lia) HA' HI'). split.
  - destruct (excess_rmq cs bp a b) as [[p e]|u] eqn:Er; cbn [bind]; [|discriminate].
    destruct (Z.eqb_spec i' p) as [C|C]; [|discriminate]. intros HL b' Hb'.
    destruct (Z.eq_dec b' b) as [->|]; [exists p, e; subst p; auto|]. apply (proj1 R HL). lia.
  - intros HT. destruct (HT b ltac:(lia)) as (p & e & -> & Hp). cbn [bind].
    rewrite (argmin_unique _ _ _ _ _ HA' Hp), Z.eqb_refl. rewrite <- (argmin_unique _ _ _ _ _ HA' Hp).
    apply R. intros b' Hb'. apply HT. lia.
Qed.

Lemma rmq_tests_iff : forall tests, Forall (fun a => 0 <= a) tests ->
  bp_rmq_tests cs (zlen l) bp tests = Ok true <->
  forall a b, In a tests -> a <= b -> (b < zlen l \/ b = a /\ a = zlen l) -> rmq_right a b.
Proof.
  induction 1 as [|a tests Ha HF IH]; cbn [bp_rmq_tests].
  { split; auto. intros _ a b []. }
  destruct (Z.ltb_spec (zlen l) a) as [C|C].
  { rewrite IH. split; intros H1 k b; [intros [D|D]; [lia|apply H1; auto]|intros D; apply H1; right; auto]. }
  rewrite (excess_ok l) by (auto; lia). cbn [bind].
  pose proof (rmq_loop_iff (Z.to_nat (zlen l - (a + 1))) a (a + 1) (enum_new a) a false) as R.
  replace (a + 1 - 1) with a in R by lia.
  specialize (R ltac:(lia) ltac:(lia) (argmin_single _ _) (enum_new_ok l a Ha)). split.
  - destruct (excess_rmq cs bp a a) as [[p e]|u] eqn:Er; cbn [bind]; [|discriminate].
    destruct (Z.eqb_spec a p) as [D|D]; [|discriminate].
    destruct (bp_rmq_loop _ _ _ _ _ _ _ _ _) as [[|]|] eqn:EL; cbn [bind]; try discriminate. intros HT0.
    pose proof (proj1 IH HT0) as HT.
    intros k b [F|F] Hk Hb; [|apply HT; auto]. subst k.
    destruct (Z.eq_dec b a) as [->|]; [exists p, e; split; auto; rewrite <- D; apply argmin_single|]. apply (proj1 R eq_refl). lia.
  - intros HT. destruct (HT a a) as (p & e & -> & (P0 & _)); [left; auto|lia|lia|]. cbn [bind].
    replace p with a by lia. rewrite Z.eqb_refl.
    rewrite (proj2 R); [|intros b' Hb'; apply HT; [left; auto|lia|lia]]. cbn [bind].
    apply IH. intros k b F. apply HT. right. exact F.
Qed.
End Rmq.

Lemma argmin_depth l a b p : 0 <= a -> a <= b <= zlen l -> argmin (E l) a b p <-> leftmost_min_depth l a b p.
Proof.
  intros Ha Hb. unfold argmin, leftmost_min_depth. split; intros (H0 & H1 & H2); (split; [lia|]); split; intros q Hq.
  - rewrite <- !E_depth by lia. apply H1. lia.
  - rewrite <- !E_depth by lia. apply H2. lia.
  - rewrite !E_depth by lia. apply H1. lia.
  - rewrite !E_depth by lia. apply H2. lia.
Qed.

Lemma excess_rmq_iff cs rands h h0 l bp : zlen l < 2 ^ 31 -> rs_build (bv_range l) h h0 = Ok (bp_rs bp) ->
  test_bp_rmq cs rands l bp = Ok true <->
  forall a b, (a = 1 \/ a = 8 \/ a = 64 \/ a = 8192 \/ a = zlen l \/ exists r, In r rands /\ a = u64 r mod zlen l) ->
    a <= b -> b < zlen l \/ b = a /\ a = zlen l /\ 0 < a -> exists p e, excess_rmq cs bp a b = Ok (p, e) /\ leftmost_min_depth l a b p.
Proof.
  intros HS HB. rewrite bv_range_ok in HB. destruct (rs_build_ok l h h0) as (rs & E & HR). rewrite HB in E. injection E as E. rewrite <- E in HR. clear E rs HB.
  unfold test_bp_rmq. pose proof (zlen_nonneg l).
  destruct (Z.eqb_spec (zlen l) 0) as [C|C].
  { split; auto. intros _ a b Ha Hb Hc. exfalso.
    destruct Ha as [->|[->|[->|[->|[->|(r & _ & Ha)]]]]]; try lia.
    rewrite C, Zmod_0_r in Ha. pose proof (Z.mod_pos_bound r (2 ^ 64) ltac:(lia)). unfold u64 in Ha. lia. }
  assert (HF : Forall (fun a => 0 <= a) ([1; 8; 64; 8192; zlen l] ++ map (fun r => u64 r mod zlen l) rands)).
  { apply Forall_app. split; [repeat constructor; lia|]. apply Forall_map, Forall_forall. intros r _. apply Z.mod_pos_bound. lia. }
  rewrite (rmq_tests_iff l bp cs HR HS _ HF).
  assert (HI : forall a, In a ([1; 8; 64; 8192; zlen l] ++ map (fun r => u64 r mod zlen l) rands) <->
    (a = 1 \/ a = 8 \/ a = 64 \/ a = 8192 \/ a = zlen l \/ exists r, In r rands /\ a = u64 r mod zlen l)).
  { intros a. cbn [app In]. rewrite in_map_iff. split.
    - intros [D|[D|[D|[D|[D|(r & D & Hr)]]]]]; try (subst a; tauto). do 5 right. exists r. auto.
    - intros [D|[D|[D|[D|[D|(r & Hr & D)]]]]]; try (subst a; tauto). do 5 right. exists r. auto. }
  rewrite Forall_forall in HF. split.
  - intros HT a b Ha Hb Hc. apply HI in Ha. specialize (HF a Ha).
    destruct (HT a b Ha Hb ltac:(lia)) as (p & e & E1 & E2). exists p, e. split; auto. apply argmin_depth in E2; auto. lia.
  - intros HT a b Ha Hb Hc. pose proof (HF a Ha). apply HI in Ha.
    destruct (HT a b Ha Hb ltac:(lia)) as (p & e & E1 & E2). exists p, e. split; auto. apply argmin_depth; auto. lia.
Qed.
