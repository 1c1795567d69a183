(** The enumerator tests of test_bit_vector.cpp. *)
From Verif Require Import Base Spec Lib M_Broadword M_BitVector M_EliasFano M_Tests.
From Verif Require Import S_BitVector P_Broadword2 P_BvLib P_Builder P_BitVector P_BvEnum P_BvRank P_BvProps P_BvGen P_Tests1 P_Tests2 P_Tests3 P_EliasFano2.

Lemma test_bit_enumerator_ok v rands : test_bit_enumerator v rands = Ok true.
Proof.
  unfold test_bit_enumerator. rewrite P_BitVector.bv_range_ok.
  apply (reposition_ok eqb (fun pos => Ok (enum_new pos)) (enum_next (canonical v)) v) with (pos := 0%nat); [| |lia|reflexivity].
  - intros []; reflexivity.
  - intros pos Hp. eexists. split; [reflexivity|]. intros x Hx.
    destruct (enum_next_ok v (enum_new (Z.of_nat pos)) (Z.of_nat pos) false x) as (e' & -> & _); [apply enum_new_ok; lia|rewrite Nat2Z.id; auto|eauto].
Qed.

(** [os] are the positions of the ones from number [r] on *)
Definition ones_from (l : list bool) (r : nat) (os : list Z) : Prop :=
  forall k o, nth_error os k = Some o -> exists q, o = Z.of_nat q /\ is_select true l (r + k) q.
Lemma ones_from_cons l r o os : ones_from l r (o :: os) ->
  (exists q, o = Z.of_nat q /\ is_select true l r q) /\ ones_from l (S r) os.
Proof.
  intros H. split.
  - destruct (H 0%nat o eq_refl) as (q & E & S). rewrite Nat.add_0_r in S. eauto.
  - intros k x Hx. destruct (H (S k) x Hx) as (q & E & S). rewrite Nat.add_succ_r in S. eauto.
Qed.
Lemma nth_firstn {A} : forall n (l : list A) k x, nth_error (firstn n l) k = Some x -> nth_error l k = Some x.
Proof.
  induction n as [|n IH]; intros [|y l] [|k] x H; try discriminate; cbn in *; auto.
Qed.
Lemma ones_from_firstn l r n os : ones_from l r os -> ones_from l r (firstn n os).
Proof. intros H k o Hk. apply H. eapply nth_firstn; eauto. Qed.

Lemma ones_loop_ok l : forall n i, (i + n)%nat = length l -> exists os, ones_loop (canonical l) n (Z.of_nat i) = Ok os /\
  ones_from l (rank true l i) os.
Proof.
  induction n as [|n IH]; intros i Hi; cbn [ones_loop]; [exists []; split; auto; intros [|k] o H; discriminate|].
  destruct (nth_error l i) as [x|] eqn:Ex; [|apply nth_error_None in Ex; lia].
  rewrite (bv_get_nth l i x) by auto. cbn [bind].
  destruct (IH (S i) ltac:(lia)) as (os & E & H). replace (Z.of_nat i + 1) with (Z.of_nat (S i)) by lia. rewrite E. cbn [bind].
  eexists. split; [reflexivity|]. rewrite (rank_S true l i x Ex) in H. destruct x; cbn [eqb] in H.
  - intros [|k] o Hk.
    + injection Hk as <-. exists i. split; auto. split; auto. 
    + destruct (H k o Hk) as (q & Eq & SS). exists q. split; auto. replace (rank true l i + S k)%nat with (rank true l i + 1 + k)%nat by lia. auto.
  - rewrite Nat.add_0_r in H. auto.
Qed.

Section U.
  Variable l : list bool.
  Definition at_one (e : unary_enum) (r : nat) : Prop := exists s, uinv e l s /\ rank true l (ustart s) = r.

  Lemma at_next e r q : at_one e r -> is_select true l r q ->
    exists e', unary_next (pack l) e = Ok (Z.of_nat q, e') /\ at_one e' (S r).
  Proof.
    intros (s & U & <-) S. destruct (unary_next_ok l e s q U S) as (e' & -> & U'). exists e'. split; auto.
    exists (Z.of_nat q, true). split; auto. unfold ustart. cbn [fst snd Z.b2z].
    replace (Z.to_nat (Z.of_nat q + 1)) with (Datatypes.S q) by lia. destruct S as (S1 & S2). rewrite (rank_S true l q true S1), S2. cbn [eqb]. apply Nat.add_1_r.
  Qed.

  Lemma unary_next_test_ok : forall os e r, at_one e r -> ones_from l r os -> unary_next_test (pack l) e os = Ok true.
  Proof.
    induction os as [|o os IH]; intros e r U H; cbn [unary_next_test]; auto.
    destruct (ones_from_cons _ _ _ _ H) as ((q & -> & S) & H').
    destruct (at_next _ _ _ U S) as (e' & -> & U'). cbn [bind]. rewrite Z.eqb_refl. eauto.
  Qed.

  Lemma unary_skips_ok e r : at_one e r -> forall os k, ones_from l (r + k) os -> unary_skips (pack l) e (Z.of_nat k) os = Ok true.
  Proof.
    intros (s & U & Hs). induction os as [|o os IH]; intros k H; cbn [unary_skips]; auto.
    destruct (ones_from_cons _ _ _ _ H) as ((q & -> & S) & H').
    destruct (unary_skip_no_move_ok l e s (Z.of_nat k) q U) as (_ & e' & -> & _ & U'); [lia|rewrite Hs, Nat2Z.id; auto|].
    cbn [bind]. destruct (at_next e' (r + k) q) as (e'' & -> & _); auto.
    { exists (Z.of_nat q, false). split; auto. unfold ustart. cbn [fst snd Z.b2z]. rewrite Z.add_0_r, Nat2Z.id. apply S. }
    cbn [bind]. rewrite Z.eqb_refl. replace (Z.of_nat k + 1) with (Z.of_nat (Datatypes.S k)) by lia.
    apply IH. rewrite Nat.add_succ_r. auto.
  Qed.
  Lemma unary_skip_test_ok : forall os e r, at_one e r -> ones_from l r os -> unary_skip_test (pack l) e os = Ok true.
  Proof.
    induction os as [|o os IH]; intros e r U H; cbn [unary_skip_test]; auto.
    rewrite (unary_skips_ok e r U _ 0%nat) by (rewrite Nat.add_0_r; apply ones_from_firstn; auto). cbn [bind].
    destruct (ones_from_cons _ _ _ _ H) as ((q & -> & S) & H').
    destruct (at_next _ _ _ U S) as (e' & -> & U'). cbn [bind]. eauto.
  Qed.

  Lemma unary_skips_no_move_ok e r q0 : at_one e r -> is_select true l r q0 -> forall os k, ones_from l (r + k) os ->
    unary_skips_no_move (pack l) e (Z.of_nat q0) (Z.of_nat k) os = Ok true.
  Proof.
    intros U S0. pose proof U as (s & Us & Hs). induction os as [|o os IH]; intros k H; cbn [unary_skips_no_move]; auto.
    destruct (ones_from_cons _ _ _ _ H) as ((q & -> & S) & H').
    destruct (unary_skip_no_move_ok l e s (Z.of_nat k) q Us) as (-> & _); [lia|rewrite Hs, Nat2Z.id; auto|].
    cbn [bind]. destruct (at_next e r q0) as (e'' & -> & _); auto.
    cbn [bind]. rewrite !Z.eqb_refl. replace (Z.of_nat k + 1) with (Z.of_nat (Datatypes.S k)) by lia.
    apply IH. rewrite Nat.add_succ_r. auto.
  Qed.
  Lemma unary_skip_no_move_test_ok : forall os e r, at_one e r -> ones_from l r os -> unary_skip_no_move_test (pack l) e os = Ok true.
  Proof.
    induction os as [|o os IH]; intros e r U H; cbn [unary_skip_no_move_test]; auto.
    destruct (ones_from_cons _ _ _ _ H) as ((q & -> & S) & H').
    rewrite (unary_skips_no_move_ok e r q U S _ 0%nat) by (rewrite Nat.add_0_r; apply ones_from_firstn; auto). cbn [bind].
    destruct (at_next _ _ _ U S) as (e' & -> & U'). cbn [bind]. eauto.
  Qed.
End U.

Lemma pack_block l pos : 0 <= pos < zlen l -> pos / 64 < zlen (pack l).
Proof. intros H. destruct (words_ok_pack l) as (_ & -> & _). dlia. Qed.

Lemma test_unary_ok v : v <> [] -> test_unary v = Ok true.
Proof.
  intros Hv. unfold test_unary. rewrite P_BitVector.bv_range_ok. destruct (ones_loop_ok v (length v) 0 eq_refl) as (os & E & H).
  change (Z.of_nat 0) with 0 in E. rewrite E. cbn [bind canonical bv_words].
  destruct (unary_new_ok v 0 ltac:(lia)) as (e & -> & U).
  { apply pack_block. destruct v; [congruence|]. rewrite zlen_cons. pose proof (zlen_nonneg v). lia. }
  cbn [bind]. assert (A : at_one v e (rank true v 0)) by (exists (0, false); split; auto).
  unfold then_. rewrite (unary_next_test_ok v os e _ A H). cbn [bind].
  rewrite (unary_skip_test_ok v os e _ A H). cbn [bind]. apply (unary_skip_no_move_test_ok v os e _ A H).
Qed.

(** ** skip0 *)
Lemma first_or_none l p : 0 <= p -> (exists q, is_select true l (rank true l (Z.to_nat p)) q /\ p <= Z.of_nat q < zlen l /\
    forall j, p <= j <= Z.of_nat q -> zbit l j = (j =? Z.of_nat q)) \/
  (forall j, p <= j < zlen l -> zbit l j = false).
Proof.
  intros Hp. destruct (Nat.lt_ge_cases (rank true l (Z.to_nat p)) (count true l)) as [C|C].
  - left. destruct (select_exists true l _ C) as (q & S). destruct (first_one _ _ _ S) as (F1 & F2 & F3). exists q.
    pose proof (is_select_bound _ _ _ _ S). split; auto. split; [unfold zlen; lia|]. intros j Hj.
    destruct (Z.eqb_spec j (Z.of_nat q)) as [->|N]; auto. apply F3. lia.
  - right. intros j Hj. destruct (zbit l j) eqn:E; auto. exfalso.
    pose proof (zbit_nth_error l j ltac:(lia)) as E'. rewrite E in E'.
    pose proof (rank_S true l _ true E') as R. cbn [eqb] in R.
    pose proof (rank_mono true l (Z.to_nat p) (Z.to_nat j) ltac:(lia)). pose proof (rank_le_count true l (S (Z.to_nat j))). lia.
Qed.

Lemma rd_zbit l p : 0 <= p < zlen l -> rd l p = Ok (zbit l p).
Proof. intros H. unfold rd. rewrite zbit_nth_error by auto. replace (0 <=? p) with true by lia. replace (p <? zlen l) with true by lia. reflexivity. Qed.

Lemma expected_hit l q : q < zlen l -> forall n p, 0 <= p <= q -> q < p + Z.of_nat n -> (forall j, p <= j <= q -> zbit l j = (j =? q)) ->
  expected_pos_loop l n p = Ok q.
Proof.
  intros Hq. induction n as [|n IH]; intros p Hp Hn H; [lia|]. cbn [expected_pos_loop]. rewrite rd_zbit by lia. cbn [bind].
  rewrite H by lia. destruct (Z.eqb_spec p q) as [->|N]; [reflexivity|]. replace (p <? zlen l) with true by lia. cbn [negb andb].
  apply IH; try lia; intros; apply H; lia.
Qed.
Lemma expected_miss l : forall n p, 0 <= p <= zlen l -> zlen l <= p + Z.of_nat n -> (forall j, p <= j < zlen l -> zbit l j = false) ->
  expected_pos_loop l n p = Ub OutOfBounds.
Proof.
  induction n as [|n IH]; intros p Hp Hn H; cbn [expected_pos_loop].
  - rewrite rd_oob by lia. reflexivity.
  - destruct (Z.eq_dec p (zlen l)) as [->|N]; [rewrite rd_oob by lia; reflexivity|].
    rewrite rd_zbit by lia. cbn [bind]. rewrite H by lia. replace (p <? zlen l) with true by lia. cbn [negb andb].
    apply IH; try lia; intros; apply H; lia.
Qed.

Lemma skip0_tests_ok l pos : 0 <= pos < zlen l -> forall n d skip, 0 <= d -> pos + d + Z.of_nat n <= zlen l ->
  skip = Z.of_nat (rank false l (Z.to_nat (pos + d))) - Z.of_nat (rank false l (Z.to_nat pos)) ->
  let r := unary_skip0_tests l (pack l) n pos d skip in
  (r = Ok true \/ (zbit l (zlen l - 1) = false /\ r = Ub OutOfBounds)) /\
  (zbit l (zlen l - 1) = false -> (0 < n)%nat -> pos + d + Z.of_nat n = zlen l -> r = Ub OutOfBounds).
Proof.
  intros Hpos. induction n as [|n IH]; intros d skip Hd Hn Hs; cbv zeta; cbn [unary_skip0_tests]; [split; [auto|lia]|].
  rewrite rd_zbit by lia. cbn [bind].
  pose proof (zbit_nth_error l (pos + d) ltac:(lia)) as Eb.
  pose proof (rank_S false l _ _ Eb) as R. replace (S (Z.to_nat (pos + d))) with (Z.to_nat (pos + (d + 1))) in R by lia.
  destruct (zbit l (pos + d)) eqn:Ez; cbn [eqb] in R.
  - destruct (IH (d + 1) skip ltac:(lia) ltac:(lia) ltac:(lia)) as (I1 & I2). split; auto.
    intros H1 H2 H3. destruct n; [|apply I2; auto; lia]. exfalso. replace (pos + d) with (zlen l - 1) in Ez by lia. congruence.
  - destruct (unary_new_ok l pos ltac:(lia) (pack_block _ _ Hpos)) as (e & -> & U). cbn [bind].
    pose proof (rank_mono false l (Z.to_nat pos) (Z.to_nat (pos + d)) ltac:(lia)) as RM.
    destruct (unary_skip0_ok l e pos skip (Z.to_nat (pos + d)) U ltac:(lia)) as (e' & -> & _ & U').
    { split; [exact Eb|]. lia. }
    cbn [bind]. rewrite Z2Nat.id in U' by lia.
    destruct (first_or_none l (pos + d) ltac:(lia)) as [(q & S & Hq & F)|F].
    + rewrite (expected_hit l (Z.of_nat q)) by (try lia; try (intros; apply F; lia); unfold zlen in *; lia). cbn [bind].
      rewrite rd_zbit by lia. cbn [bind]. rewrite F, Z.eqb_refl by lia. cbn [negb].
      destruct (unary_next_ok l e' (pos + d, false) q U') as (e'' & -> & _).
      { unfold ustart. cbn [fst snd Z.b2z]. rewrite Z.add_0_r. auto. }
      cbn [bind]. rewrite Z.eqb_refl.
      destruct (IH (d + 1) (skip + 1) ltac:(lia) ltac:(lia) ltac:(lia)) as (I1 & I2). split; auto.
      intros H1 H2 H3. destruct n; [|apply I2; auto; lia]. exfalso.
      replace (Z.of_nat q) with (zlen l - 1) in F by lia. rewrite F, Z.eqb_refl in H1 by lia. discriminate.
    + rewrite (expected_miss l) by (auto; unfold zlen in *; lia). cbn [bind].
      split; [|auto]. right. split; auto. apply F. lia.
Qed.

Lemma skip0_test_ok l : forall n pos, 0 <= pos -> pos + Z.of_nat n = zlen l ->
  unary_skip0_test l (pack l) n pos = if (0 <? Z.of_nat n) && negb (zbit l (zlen l - 1)) then Ub OutOfBounds else Ok true.
Proof.
  induction n as [|n IH]; intros pos Hp Hn; [reflexivity|]. cbn [unary_skip0_test].
  set (m := Z.to_nat (Z.min 256 (zlen l - pos))).
  destruct (skip0_tests_ok l pos ltac:(lia) m 0 0 ltac:(lia) ltac:(unfold m; lia)) as (H1 & H2).
  { rewrite Z.add_0_r. lia. }
  specialize (IH (pos + 1) ltac:(lia) ltac:(lia)). replace (0 <? Z.of_nat (S n)) with true by lia. cbn [andb].
  destruct (zbit l (zlen l - 1)) eqn:E; cbn [negb].
  - destruct H1 as [-> | (H1 & _)]; [|discriminate]. cbn [bind]. rewrite IH. rewrite andb_false_r. reflexivity.
  - destruct n as [|n].
    + rewrite H2; auto; unfold m; lia.
    + destruct H1 as [-> | (_ & ->)]; [|reflexivity]. cbn [bind]. rewrite IH. reflexivity.
Qed.

Lemma test_unary_skip0_ok v : test_unary_skip0 (v ++ [true]) = Ok true /\ test_unary_skip0 (v ++ [false]) = Ub OutOfBounds.
Proof.
  assert (H : forall x, test_unary_skip0 (v ++ [x]) = if negb x then Ub OutOfBounds else Ok true).
  { intros x. unfold test_unary_skip0. rewrite P_BitVector.bv_range_ok. cbn [canonical bv_words].
    rewrite skip0_test_ok by (unfold zlen; lia). rewrite app_length. cbn [length]. replace (0 <? Z.of_nat (length v + 1)) with true by lia.
    cbn [andb]. rewrite zlen_snoc. replace (zlen v + 1 - 1) with (zlen v) by lia. rewrite zbit_mid. reflexivity. }
  rewrite !H. auto.
Qed.

Lemma test_efc gr ints : Forall (fun x => 0 <= x < 2 ^ 64 - 1) ints -> zlen ints < 2 ^ 57 -> exists c,
  efc_build gr ints = Ok c /\ test_list (efc_size c) (efc_get c) ints = Ok true.
Proof.
  intros H1 H2. destruct (efc_all gr ints H1 H2) as (c & E & Z & G). exists c. split; auto. apply test_list_ok; auto.
Qed.
Lemma test_enumerators v : v <> [] -> (forall rands, test_bit_enumerator v rands = Ok true) /\ test_unary v = Ok true.
Proof. intros H. split; [apply test_bit_enumerator_ok|apply test_unary_ok; auto]. Qed.
