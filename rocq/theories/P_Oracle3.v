(** What the oracles of test_darray.cpp, test_delta and test_select_enumeration accept. *)
From Verif Require Import Base Spec Lib M_BitVector M_Darray M_EliasFano M_Tests P_BvLib P_BvRank P_BitVector S_BitVector S_EliasFano P_Darray P_Tests1 P_Oracle.

(** ** test_darray.cpp *)
Lemma darray_loop_sound bv d1 d0 l : forall v a x y, l = a ++ v ->
  darray_test_loop bv d1 d0 v (zlen a) (Z.of_nat (count true a)) (Z.of_nat (count false a)) = Ok (Some (x, y)) ->
  x = Z.of_nat (count true l) /\ y = Z.of_nat (count false l) /\
  (forall k q, (length a <= q)%nat -> is_select true l k q -> darray1_select d1 bv (Z.of_nat k) = Ok (Z.of_nat q)) /\
  (forall k q, (length a <= q)%nat -> is_select false l k q -> darray0_select d0 bv (Z.of_nat k) = Ok (Z.of_nat q)).
Proof.
  induction v as [|b v IH]; intros a x y E H; cbn [darray_test_loop] in H.
  { rewrite app_nil_r in E. subst a. injection H as <- <-. split; [reflexivity|]. split; [reflexivity|].
    split; intros k q Hq S; apply is_select_bound in S; lia. }
  assert (Sx : is_select b l (count b a) (length a)).
  { split; [rewrite E; apply nth_mid|]. rewrite E, rank_app1, rank_all; auto. }
  apply bind_ok in H. destruct H as (s & Es & H). destruct (Z.eqb_spec (zlen a) s) as [D|]; [|discriminate]. subst s.
  specialize (IH (a ++ [b]) x y ltac:(rewrite E; apply app_snoc)). rewrite zlen_snoc, !count_app, app_length in IH. cbn [length] in IH.
  assert (P : forall b' k q, is_select b' l k q -> q = length a -> b' = b /\ k = count b a).
  { intros b' k q S ->. assert (b' = b) by (destruct S as (S & _), Sx as (X & _); congruence). subst b'. split; [reflexivity|].
    destruct S as (_ & <-), Sx as (_ & <-). reflexivity. }
  destruct b; cbn [count] in IH.
  - replace (Z.of_nat (count true a) + 1) with (Z.of_nat (count true a + 1)) in H by lia.
    change (count true [true]) with 1%nat in IH. change (count false [true]) with 0%nat in IH. rewrite Nat.add_0_r in IH.
    destruct (IH H) as (I1 & I2 & I3 & I4). split; [exact I1|]. split; [exact I2|].
    split; intros k q Hq S; (destruct (Nat.eq_dec q (length a)) as [D|D]; [|first [apply I3|apply I4]; auto; lia]);
      destruct (P _ _ _ S D) as (P1 & ->); try discriminate P1. subst q. exact Es.
  - replace (Z.of_nat (count false a) + 1) with (Z.of_nat (count false a + 1)) in H by lia.
    change (count true [false]) with 0%nat in IH. change (count false [false]) with 1%nat in IH. rewrite Nat.add_0_r in IH.
    destruct (IH H) as (I1 & I2 & I3 & I4). split; [exact I1|]. split; [exact I2|].
    split; intros k q Hq S; (destruct (Nat.eq_dec q (length a)) as [D|D]; [|first [apply I3|apply I4]; auto; lia]);
      destruct (P _ _ _ S D) as (P1 & ->); try discriminate P1. subst q. exact Es.
Qed.
Lemma darray_loop_complete bv l d1 d0 :
  (forall k q, is_select true l k q -> darray1_select d1 bv (Z.of_nat k) = Ok (Z.of_nat q)) ->
  (forall k q, is_select false l k q -> darray0_select d0 bv (Z.of_nat k) = Ok (Z.of_nat q)) ->
  forall v a, l = a ++ v ->
  darray_test_loop bv d1 d0 v (zlen a) (Z.of_nat (count true a)) (Z.of_nat (count false a)) =
  Ok (Some (Z.of_nat (count true l), Z.of_nat (count false l))).
Proof.
  intros H1 H0. induction v as [|x v IH]; intros a E; cbn [darray_test_loop].
  { rewrite E, app_nil_r. reflexivity. }
  assert (Sx : is_select x l (count x a) (length a)).
  { split; [rewrite E; apply nth_mid|]. rewrite E, rank_app1, rank_all; auto. }
  pose proof (IH (a ++ [x])) as R. rewrite zlen_snoc, !count_app in R.
  destruct x.
  - rewrite (H1 _ _ Sx). cbn [bind]. unfold zlen at 1. rewrite Z.eqb_refl.
    change (count true [true]) with 1%nat in R. change (count false [true]) with 0%nat in R.
    rewrite Nat.add_0_r in R. replace (Z.of_nat (count true a) + 1) with (Z.of_nat (count true a + 1)) by lia.
    apply R. rewrite E. apply app_snoc.
  - rewrite (H0 _ _ Sx). cbn [bind]. unfold zlen at 1. rewrite Z.eqb_refl.
    change (count true [false]) with 0%nat in R. change (count false [false]) with 1%nat in R.
    rewrite Nat.add_0_r in R. replace (Z.of_nat (count false a) + 1) with (Z.of_nat (count false a + 1)) by lia.
    apply R. rewrite E. apply app_snoc.
Qed.
Lemma darray_iff bv d1 d0 l : test_darray_of bv d1 d0 l = Ok true <->
  da_positions d1 = Z.of_nat (count true l) /\ da_positions d0 = Z.of_nat (count false l) /\
  (forall k q, is_select true l k q -> darray1_select d1 bv (Z.of_nat k) = Ok (Z.of_nat q)) /\
  (forall k q, is_select false l k q -> darray0_select d0 bv (Z.of_nat k) = Ok (Z.of_nat q)).
Proof.
  unfold test_darray_of. split.
  - intros H. apply bind_ok in H. destruct H as ([[x y]|] & E & H); [|discriminate].
    req H. apply Z.eqb_eq in D. req H. apply Z.eqb_eq in D0.
    destruct (darray_loop_sound bv d1 d0 l l [] x y eq_refl E) as (I1 & I2 & I3 & I4).
    split; [congruence|]. split; [congruence|]. split; intros k q S; [apply I3|apply I4]; auto; cbn [length]; lia.
  - intros (H1 & H2 & H3 & H4). pose proof (darray_loop_complete bv l d1 d0 H3 H4 l [] eq_refl) as E.
    change (darray_test_loop bv d1 d0 l 0 0 0 = Ok (Some (Z.of_nat (count true l), Z.of_nat (count false l)))) in E. rewrite E. cbn [bind]. rewrite H1, H2, !Z.eqb_refl. reflexivity.
Qed.

(** ** test_delta *)
Lemma delta_loop_iff ef : forall n i, 0 <= i -> delta_loop ef n i = Ok true <->
  forall j, i <= j < i + Z.of_nat n -> exists x y, ef_select ef j = Ok x /\ (if j =? 0 then y = 0 else ef_select ef (j - 1) = Ok y) /\
    ef_delta ef j = Ok (sub64 x y).
Proof.
  induction n as [|n IH]; intros i Hi; cbn [delta_loop].
  { split; [intros _ j Hj; lia|reflexivity]. }
  split.
  - intros H. apply bind_ok in H. destruct H as (x & Ex & H). apply bind_ok in H. destruct H as (y & Ey & H).
    apply bind_ok in H. destruct H as (d & Ed & H). req H. apply Z.eqb_eq in D. subst d.
    intros j Hj. destruct (Z.eq_dec j i) as [->|N]; [|apply (proj1 (IH (i + 1) ltac:(lia)) H); lia].
    exists x, y. split; [exact Ex|]. split; [|exact Ed]. destruct (i =? 0); [congruence|exact Ey].
  - intros H. destruct (H i ltac:(lia)) as (x & y & Ex & Ey & Ed). rewrite Ex. cbn [bind].
    assert (Ey' : (if i =? 0 then Ok 0 else ef_select ef (i - 1)) = Ok y) by (destruct (i =? 0); congruence).
    rewrite Ey'. cbn [bind]. rewrite Ed. cbn [bind]. rewrite Z.eqb_refl.
    apply IH; [lia|]. intros j Hj. apply H. lia.
Qed.
Lemma delta_iff ef : test_delta ef = Ok true <->
  forall j, 0 <= j < ef_num_ones ef -> exists x y, ef_select ef j = Ok x /\ (if j =? 0 then y = 0 else ef_select ef (j - 1) = Ok y) /\
    ef_delta ef j = Ok (sub64 x y).
Proof.
  unfold test_delta. rewrite (delta_loop_iff ef _ 0) by lia. split; intros H j Hj; apply H; lia.
Qed.

(** ** test_select_enumeration *)
Lemma select_enum_loop_iff ef : forall v i it, select_enum_loop ef v i it = Ok true <->
  se_run ef it (count true v) = Ok (positions v i).
Proof.
  induction v as [|b v IH]; intros i it; cbn [select_enum_loop positions].
  { cbn. split; reflexivity. }
  destruct b.
  - change (count true (true :: v)) with (S (count true v)). cbn [se_run]. split.
    + intros H. apply bind_ok in H. destruct H as ([x it'] & Ex & H). req H. apply Z.eqb_eq in D. subst x.
      rewrite Ex. cbn [bind]. apply IH in H. rewrite H. reflexivity.
    + intros H. apply bind_ok in H. destruct H as ([x it'] & Ex & H). apply bind_ok in H. destruct H as (xs & Er & H).
      injection H as -> ->. rewrite Ex. cbn [bind]. rewrite Z.eqb_refl. apply IH. exact Er.
  - change (count true (false :: v)) with (count true v). apply IH.
Qed.
Lemma positions_nth l k q : is_select true l k q -> nth_error (positions l 0) k = Some (Z.of_nat q).
Proof.
  intros S. pose proof (sel_count _ _ _ _ S) as C.
  assert (Hk : 0 <= Z.of_nat k < zlen (positions l 0)) by (rewrite zlen_positions; lia).
  destruct (positions_select l 0 (Z.of_nat k) Hk) as (q' & E & S'). rewrite Nat2Z.id in S'. rewrite (is_select_unique _ _ _ _ _ S S').
  replace (Z.of_nat q') with (W (positions l 0) (Z.of_nat k)) by lia. unfold W. rewrite Nat2Z.id. replace (Z.of_nat k <? 0) with false by (symmetry; apply Z.ltb_ge; lia). apply nth_error_nth'. unfold zlen in Hk. lia.
Qed.
Lemma select_exists l k : (k < count true l)%nat -> exists q, is_select true l k q.
Proof.
  intros H. destruct (positions_select l 0 (Z.of_nat k)) as (q & _ & S); [rewrite zlen_positions; lia|]. rewrite Nat2Z.id in S. eauto.
Qed.
Lemma se_run_length ef : forall k it xs, se_run ef it k = Ok xs -> length xs = k.
Proof.
  induction k as [|k IH]; intros it xs H; cbn [se_run] in H; [injection H as <-; reflexivity|].
  apply bind_ok in H. destruct H as ([x it'] & _ & H). apply bind_ok in H. destruct H as (ys & E & H). injection H as <-. cbn [length]. f_equal. eauto.
Qed.
Lemma nth_error_same {A} : forall l m : list A, (forall k, nth_error l k = nth_error m k) -> l = m.
Proof.
  induction l as [|x l IH]; intros [|y m] H; [reflexivity|specialize (H 0%nat); discriminate H|specialize (H 0%nat); discriminate H|].
  pose proof (H 0%nat) as H0. cbn in H0. injection H0 as ->. f_equal. apply IH. intros k. exact (H (S k)).
Qed.
Lemma select_enumeration_iff v ef : test_select_enumeration v ef = Ok true <->
  exists it xs, se_new ef 0 = Ok it /\ se_run ef it (count true v) = Ok xs /\
    forall k q, is_select true v k q -> nth_error xs k = Some (Z.of_nat q).
Proof.
  unfold test_select_enumeration. split.
  - intros H. apply bind_ok in H. destruct H as (it & E & H). exists it, (positions v 0). split; [exact E|].
    split; [apply select_enum_loop_iff; exact H|apply positions_nth].
  - intros (it & xs & E & H & HN). rewrite E. cbn [bind]. apply select_enum_loop_iff. rewrite H. f_equal.
    pose proof (se_run_length _ _ _ _ H) as L. pose proof (zlen_positions v 0) as L'.
    apply nth_error_same. intros k. destruct (Nat.lt_ge_cases k (count true v)) as [C|C].
    + destruct (select_exists v k C) as (q & S). rewrite (HN k q S). symmetry. apply positions_nth. exact S.
    + rewrite (proj2 (nth_error_None _ _)) by lia. symmetry. apply nth_error_None. unfold zlen in L'. lia.
Qed.
