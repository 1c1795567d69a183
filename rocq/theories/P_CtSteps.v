(** Proofs for C91 *)
From Verif Require Import Base Lib M_BitVector M_RsBitVector M_Bp M_Cartesian M_CtSteps.

Section S.
Context {T : Type} (gr : growth) (comp : T -> T -> bool).

Lemma pop_same val : forall stack b k r, (do (s, b, _, _) <- cb_pop_c gr comp val stack b k r; Ok (s, b)) = cb_pop gr comp val stack b.
Proof.
  induction stack as [|y s IH]; intros b k r; cbn; [auto|]. destruct (comp val y); [|auto].
  destruct (push_back gr b true) as [b1|]; cbn; auto.
Qed.
Lemma pop_count val : forall stack b k r s b' k' r', cb_pop_c gr comp val stack b k r = Ok (s, b', k', r') ->
  r' = r + zlen stack - zlen s /\ zlen s <= zlen stack /\
  k + (r' - r) <= k' <= k + (r' - r) + 1 /\ (stack = [] -> k' = k) /\ (stack <> [] -> k + 1 <= k').
Proof.
  induction stack as [|y s IH]; intros b k r s' b' k' r' H; cbn in H.
  - injection H as <- <- <- <-. intuition lia.
  - destruct (comp val y).
    + apply bind_inv in H. destruct H as (b1 & E & H). apply IH in H. rewrite !zlen_cons. intuition (try discriminate; lia).
    + injection H as <- <- <- <-. rewrite zlen_cons. pose proof (zlen_nonneg s). intuition (try discriminate; lia).
Qed.
Lemma pop_all val : forall stack b k r s b' k' r', cb_pop_c gr comp val stack b k r = Ok (s, b', k', r') -> s = [] -> k' - k = r' - r.
Proof.
  induction stack as [|y s IH]; intros b k r s' b' k' r' H E; cbn in H.
  - injection H as <- <- <- <-. lia.
  - destruct (comp val y).
    + apply bind_inv in H. destruct H as (b1 & _ & H). apply IH in H; [lia|auto].
    + injection H as <- <- <- <-. discriminate.
Qed.
Lemma pushes_same : forall v c k r, (do (c, _, _) <- cb_pushes_c gr comp c v k r; Ok c) = cb_pushes gr comp c v.
Proof.
  induction v as [|x v IH]; intros c k r; cbn; [auto|]. unfold cb_push_c, cb_push.
  destruct (push_back gr (cb_bp c) false) as [b|]; cbn; [|auto]. rewrite <- (pop_same x (cb_stack c) b k r).
  destruct (cb_pop_c gr comp x (cb_stack c) b k r) as [(((s & b') & k') & r')|]; cbn; auto.
Qed.
Lemma pushes_count : forall v c k r c' k' r', cb_pushes_c gr comp c v k r = Ok (c', k', r') ->
  r' = r + zlen v + zlen (cb_stack c) - zlen (cb_stack c') /\
  (v <> [] \/ 1 <= zlen (cb_stack c) -> 1 <= zlen (cb_stack c')) /\
  k + zlen v - (if (zlen (cb_stack c) =? 0) && negb (zlen v =? 0) then 1 else 0) <= k' /\
  k' <= k + (r' - r) + zlen v - (if (zlen (cb_stack c) =? 0) && negb (zlen v =? 0) then 1 else 0).
Proof.
  induction v as [|x v IH]; intros c k r c' k' r' H; cbn in H.
  - injection H as <- <- <-. change (zlen (@nil T)) with 0. cbn. rewrite andb_false_r. split; [lia|]. split; [intuition congruence|]. lia.
  - apply bind_inv in H. destruct H as (((c1 & k1) & r1) & E & H). unfold cb_push_c in E.
    apply bind_inv in E. destruct E as (b & _ & E). apply bind_inv in E. destruct E as ((((s & b') & k2) & r2) & E & X). injection X as <- <- <-.
    apply pop_count in E. apply IH in H. cbn [cb_stack] in H. rewrite zlen_cons in *. pose proof (zlen_nonneg s). pose proof (zlen_nonneg v).
    replace (zlen s + 1 =? 0) with false in H by lia. replace (zlen v + 1 =? 0) with false by lia. cbn [andb negb] in *. rewrite andb_true_r.
    destruct E as (E1 & E2 & E3 & E4 & E5). destruct H as (K1 & K2 & K3 & K4).
    assert (X : cb_stack c = [] \/ cb_stack c <> []) by (destruct (cb_stack c); [left; auto|right; discriminate]).
    split; [lia|]. split.
    { intros _. apply K2. right. lia. }
    destruct X as [X|X].
    + specialize (E4 X). rewrite X in *. change (zlen (@nil T)) with 0 in *. cbn [Z.eqb] in *. destruct (Z.eqb_spec (zlen v) 0); lia.
    + specialize (E5 X). assert (1 <= zlen (cb_stack c)) by (destruct (cb_stack c); [congruence|rewrite zlen_cons; pose proof (zlen_nonneg l); lia]).
      replace (zlen (cb_stack c) =? 0) with false by lia. destruct (Z.eqb_spec (zlen v) 0); lia.
Qed.
Lemma pushes_tight : forall v c k r c' k' r' m, cb_pushes_c gr comp c v k r = Ok (c', k', r') -> 1 <= zlen (cb_stack c) -> k <= r + m - 1 ->
  k' <= r' + (m + zlen v) - 1 /\ (v <> [] -> 2 <= zlen (cb_stack c') \/ k' <= r' + (m + zlen v) - 2).
Proof.
  induction v as [|x v IH]; intros c k r c' k' r' m H S J; cbn in H.
  - injection H as <- <- <-. change (zlen (@nil T)) with 0. split; [lia|congruence].
  - apply bind_inv in H. destruct H as (((c1 & k1) & r1) & E & H). unfold cb_push_c in E.
    apply bind_inv in E. destruct E as (b & _ & E). apply bind_inv in E. destruct E as ((((s & b') & k2) & r2) & E & X). injection X as <- <- <-.
    pose proof (pop_all _ _ _ _ _ _ _ _ _ E) as A. apply pop_count in E. destruct E as (E1 & E2 & E3 & _).
    pose proof (zlen_nonneg s). pose proof (IH _ _ _ _ _ _ (m + 1) H ltac:(cbn; rewrite zlen_cons; lia) ltac:(lia)) as (K1 & K2).
    rewrite zlen_cons. replace (m + (zlen v + 1)) with (m + 1 + zlen v) by lia. split; [lia|]. intros _.
    destruct v as [|y v]; [|apply K2; discriminate]. cbn in H. injection H as <- <- <-. cbn [cb_stack].
    change (zlen (@nil T)) with 0. rewrite zlen_cons. destruct s as [|z s].
    + right. specialize (A eq_refl). lia.
    + left. rewrite zlen_cons in *. pose proof (zlen_nonneg s). lia.
Qed.
Lemma flush_same : forall (stack : list T) b r, (do (b, _) <- cb_flush_c gr stack b r; Ok b) = cb_flush gr stack b.
Proof.
  induction stack as [|y s IH]; intros b r; cbn; [auto|]. destruct (push_back gr b true); cbn; auto.
Qed.
Lemma flush_count : forall (stack : list T) b r b' r', cb_flush_c gr stack b r = Ok (b', r') -> r' = r + zlen stack.
Proof.
  induction stack as [|y s IH]; intros b r b' r' H; cbn in H.
  - injection H as <- <-. change (zlen (@nil T)) with 0. lia.
  - apply bind_inv in H. destruct H as (b1 & _ & H). apply IH in H. rewrite zlen_cons. lia.
Qed.

Lemma build_same uninit e v : (do (bp, _, _) <- ct_build_c gr uninit comp e v; Ok bp) = ct_build gr uninit comp e v.
Proof.
  unfold ct_build_c, ct_build, ct_of_builder, cb_finalize_c, cb_finalize. destruct (cb_new gr e) as [c|]; cbn; [|auto].
  rewrite <- (pushes_same v c 0 0). destruct (cb_pushes_c gr comp c v 0 0) as [((c1 & k) & r)|]; cbn; [|auto].
  destruct (push_back gr (cb_bp c1) false) as [b|]; cbn; [|auto]. rewrite <- (flush_same (cb_stack c1) b r).
  destruct (cb_flush_c gr (cb_stack c1) b r) as [(b1 & r1)|]; cbn; [|auto]. destruct (push_back gr b1 true) as [b2|]; cbn; [|auto].
  destruct (reverse b2) as [b3|]; cbn; [|auto]. destruct (bv_of_builder b3) as [bv|]; cbn; [|auto]. destruct (bp_build uninit bv false true); cbn; auto.
Qed.
Lemma new_stack e c : cb_new (T := T) gr e = Ok c -> cb_stack c = [].
Proof. unfold cb_new. intros H. apply bind_inv in H. destruct H as (b & _ & H). injection H as <-. reflexivity. Qed.
Lemma build_count uninit e v bp k r : ct_build_c gr uninit comp e v = Ok (bp, k, r) ->
  r = zlen v /\ (2 <= zlen v -> zlen v - 1 <= k <= 2 * zlen v - 3) /\ (zlen v <= 1 -> k = 0).
Proof.
  intros H. apply bind_inv in H. destruct H as (c & E & H). apply new_stack in E.
  apply bind_inv in H. destruct H as (((c1 & k1) & r1) & P & H). apply bind_inv in H. destruct H as ((b & r2) & F & H).
  apply bind_inv in H. destruct H as (bv & _ & H). apply bind_inv in H. destruct H as (bp' & _ & H). injection H as <- <- <-.
  unfold cb_finalize_c in F. apply bind_inv in F. destruct F as (b0 & _ & F). apply bind_inv in F. destruct F as ((b1 & r3) & F & X).
  apply bind_inv in X. destruct X as (b2 & _ & X). apply bind_inv in X. destruct X as (b3 & _ & X). injection X as <- <-.
  apply flush_count in F. destruct v as [|x v].
  { cbn in P. injection P as <- <- <-. rewrite E in F. change (zlen (@nil T)) with 0 in *. lia. }
  pose proof P as Q. apply pushes_count in P. rewrite E in P. rewrite zlen_cons in *. change (zlen (@nil T)) with 0 in P.
  pose proof (zlen_nonneg v). replace (zlen v + 1 =? 0) with false in P by lia. cbn in P.
  destruct P as (P1 & P2 & P3 & P4). specialize (P2 ltac:(left; discriminate)). split; [lia|]. split.
  - intros L. split; [lia|]. cbn in Q. unfold cb_push_c in Q. rewrite E in Q. cbn [cb_pop_c] in Q.
    destruct (push_back gr (cb_bp c) false) as [b4|]; [|discriminate]. cbn [bind] in Q.
    apply pushes_tight with (m := 1) in Q; [|cbn; rewrite zlen_cons; change (zlen (@nil T)) with 0; lia|lia].
    destruct Q as (Q1 & Q2). assert (v <> []) as N by (intros ->; change (zlen (@nil T)) with 0 in L; lia). specialize (Q2 N). lia.
  - intros L. lia.
Qed.
End S.

Lemma ct_cost {T} (gr : growth) uninit (comp : T -> T -> bool) e v :
  (do (bp, _, _) <- ct_build_c gr uninit comp e v; Ok bp) = ct_build gr uninit comp e v /\
  forall bp k r, ct_build_c gr uninit comp e v = Ok (bp, k, r) ->
    r = zlen v /\ (2 <= zlen v -> zlen v - 1 <= k <= 2 * zlen v - 3) /\ (zlen v <= 1 -> k = 0).
Proof. split; [apply build_same|apply build_count]. Qed.
