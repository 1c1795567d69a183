(** The test oracles accept exactly the right answers. *)
From Verif Require Import Base Spec Lib M_Broadword M_BitVector M_RsBitVector M_Bp M_Tests.
From Verif Require Import S_Tests S_BitVector S_Bp P_BvLib P_BvRank P_BitVector P_BpSpec P_Tests1 P_Tests2.

Ltac req H := match type of H with
  | (if ?c then _ else Ok false) = Ok true => let D := fresh "D" in destruct c eqn:D; [|discriminate H]
  end.
Lemma bind_ok {A B} (m : res A) (k : A -> res B) r : bind m k = Ok r -> exists a, m = Ok a /\ k a = Ok r.
Proof. destruct m as [a|]; cbn; [eauto|discriminate]. Qed.

Lemma equal_bits_sound get : forall v i, equal_bits_loop get v i = Ok true ->
  forall k x, nth_error v k = Some x -> get (i + Z.of_nat k) = Ok x.
Proof.
  induction v as [|y v IH]; intros i H k x Hx; [destruct k; discriminate|]. cbn [equal_bits_loop] in H.
  apply bind_ok in H. destruct H as (z & Ez & H). req H. apply eqb_prop in D. subst z.
  destruct k as [|k].
  - injection Hx as <-. rewrite Z.add_0_r. auto.
  - replace (i + Z.of_nat (S k)) with (i + 1 + Z.of_nat k) by lia. apply IH; auto.
Qed.
Lemma equal_bits_iff v size get : test_equal_bits v size get = Ok true <->
  size = zlen v /\ forall k x, nth_error v k = Some x -> get (Z.of_nat k) = Ok x.
Proof.
  split.
  - intros H. unfold test_equal_bits in H. req H. split; [lia|]. intros k x Hx. apply (equal_bits_sound get v 0 H k x Hx).
  - intros (-> & H). apply test_equal_bits_ok. auto.
Qed.

Lemma list_sound get : forall v i, list_loop get v i = Ok true ->
  forall k x, nth_error v k = Some x -> get (i + Z.of_nat k) = Ok x.
Proof.
  induction v as [|y v IH]; intros i H k x Hx; [destruct k; discriminate|]. cbn [list_loop] in H.
  apply bind_ok in H. destruct H as (z & Ez & H). req H. apply Z.eqb_eq in D. subst z.
  destruct k as [|k].
  - injection Hx as <-. rewrite Z.add_0_r. auto.
  - replace (i + Z.of_nat (S k)) with (i + 1 + Z.of_nat k) by lia. apply IH; auto.
Qed.
Lemma list_complete get : forall v i, (forall k x, nth_error v k = Some x -> get (i + Z.of_nat k) = Ok x) -> list_loop get v i = Ok true.
Proof.
  induction v as [|y v IH]; intros i H; cbn [list_loop]; auto.
  pose proof (H 0%nat y eq_refl) as H0. change (Z.of_nat 0) with 0 in H0. rewrite Z.add_0_r in H0. rewrite H0. cbn [bind]. rewrite Z.eqb_refl.
  apply IH. intros k x Hx. replace (i + 1 + Z.of_nat k) with (i + Z.of_nat (S k)) by lia. apply H. auto.
Qed.
Lemma list_iff v size get : test_list size get v = Ok true <->
  size = zlen v /\ forall k x, nth_error v k = Some x -> get (Z.of_nat k) = Ok x.
Proof.
  unfold test_list. split.
  - intros H. req H. split; [lia|]. intros k x Hx. apply (list_sound get v 0 H k x Hx).
  - intros (-> & H). rewrite Z.eqb_refl. apply list_complete. auto.
Qed.

Section RankSelect.
Variable one : bool.
Variables rank_f select_f pred_f succ_f : Z -> res Z.
Variable l : list bool.

Lemma rank_select_sound : forall v a last, l = a ++ v -> last_ok one l (zlen a) last -> zlen l < 2 ^ 64 ->
  rank_select_loop one rank_f select_f pred_f v (zlen a) (Z.of_nat (rank one l (length a))) last = Ok true ->
  (forall p, (length a <= p < length l)%nat -> rank_f (Z.of_nat p) = Ok (Z.of_nat (rank one l p))) /\
  (forall k q, (length a <= q)%nat -> is_select one l k q -> select_f (Z.of_nat k) = Ok (Z.of_nat q)) /\
  (forall pos q, zlen a <= pos -> 0 <= q <= pos -> pos < zlen l -> nth_error l (Z.to_nat q) = Some one ->
    (forall p, q < p <= pos -> nth_error l (Z.to_nat p) = Some (negb one)) -> pred_f pos = Ok q).
Proof.
  clear succ_f. intros v a last E L Hl H. revert a last E L H. induction v as [|x v IH]; intros a last E L H; cbn [rank_select_loop] in H.
  { rewrite app_nil_r in E. subst a. split; [intros; lia|]. split; [|intros; lia].
    intros k q Hq S. apply is_select_bound in S. lia. }
  assert (Hx : nth_error l (length a) = Some x) by (rewrite E; apply nth_mid).
  assert (Hx' : nth_error l (Z.to_nat (zlen a)) = Some x) by (unfold zlen; rewrite Nat2Z.id; auto).
  assert (La : (length a < length l)%nat) by (apply nth_error_Some; congruence).
  apply bind_ok in H. destruct H as (r & Er & H). req H. apply Z.eqb_eq in D. subst r.
  apply bind_ok in H. destruct H as (s & Es & H). req H. apply Z.eqb_eq in D. subst s.
  pose proof (last_ok_step one l (zlen a) last x ltac:(unfold zlen; lia) Hx' L) as L'.
  set (last' := if eqb x one then zlen a else last) in *.
  assert (Er' : (if eqb x one then Z.of_nat (rank one l (length a)) + 1 else Z.of_nat (rank one l (length a)))
     = Z.of_nat (rank one l (length (a ++ [x])))).
  { rewrite app_length. cbn [length]. rewrite Nat.add_1_r, (rank_S one l (length a) x Hx).
    replace (eqb one x) with (eqb x one) by (destruct x, one; reflexivity).
    destruct (eqb x one); lia. }
  cbv zeta in H. rewrite Er' in H. rewrite <- !(zlen_snoc a x) in *.
  assert (HP : (last' <> 2 ^ 64 - 1 -> pred_f (zlen a) = Ok last') /\
    rank_select_loop one rank_f select_f pred_f v (zlen (a ++ [x])) (Z.of_nat (rank one l (length (a ++ [x])))) last' = Ok true).
  { destruct (Z.eqb_spec last' (2 ^ 64 - 1)) as [D|D]; [split; [congruence|exact H]|].
    apply bind_ok in H. destruct H as (p & Ep & H). req H. apply Z.eqb_eq in D0. subst p. auto. }
  destruct HP as (HP & H'). destruct (IH (a ++ [x]) last' ltac:(rewrite E; apply app_snoc) L' H') as (I1 & I2 & I3).
  rewrite zlen_snoc, app_length in *. cbn [length] in *. split; [|split].
  - intros p Hp. destruct (Nat.eq_dec p (length a)) as [->|]; [exact Er|apply I1; lia].
  - intros k q Hq S. destruct (Nat.eq_dec q (length a)) as [->|]; [|apply I2; auto; lia].
    destruct S as (S1 & <-). assert (x = one) by congruence. subst x. rewrite eqb_reflx in Es. exact Es.
  - intros pos q H1 H2 H3 H4 H5. destruct (Z.eq_dec pos (zlen a)) as [->|]; [|apply I3; auto; lia].
    destruct L' as [(L1 & L2)|(L1 & L2 & L3)].
    { rewrite L2 in H4 by lia. injection H4 as H4. destruct one; discriminate. }
    assert (last' = q) as <-; [|apply HP; lia].
    destruct (Z.lt_trichotomy last' q) as [C|[C|C]]; auto; exfalso.
    + rewrite L3 in H4 by lia. injection H4 as H4. destruct one; discriminate.
    + rewrite H5 in L2 by lia. injection L2 as L2. destruct one; discriminate.
Qed.

Lemma successor_sound : forall v b last, l = rev v ++ b -> next_ok one l (zlen v) last -> zlen l < 2 ^ 64 ->
  successor_loop one succ_f v (zlen v - 1) last = Ok true ->
  forall pos q, 0 <= pos < zlen v -> pos <= q -> nth_error l (Z.to_nat q) = Some one ->
  (forall p, pos <= p < q -> nth_error l (Z.to_nat p) = Some (negb one)) -> succ_f pos = Ok q.
Proof.
  clear rank_f select_f pred_f. intros v b last E L Hl. revert b last E L. induction v as [|x v IH]; intros b last E L H pos q Hp Hq Q1 Q2; cbn [successor_loop] in H.
  { change (zlen (@nil bool)) with 0 in Hp. lia. }
  assert (Zv : zlen (x :: v) - 1 = zlen v) by (unfold zlen; cbn [length]; lia). rewrite Zv in H.
  cbn [rev] in E. rewrite <- app_assoc in E. cbn [app] in E.
  assert (Hx : nth_error l (Z.to_nat (zlen v)) = Some x).
  { unfold zlen. rewrite Nat2Z.id, E, <- rev_length. apply nth_mid. }
  assert (Lv : 0 <= zlen v < zlen l).
  { assert (Z.to_nat (zlen v) < length l)%nat by (apply nth_error_Some; congruence). unfold zlen in *. lia. }
  replace (zlen (x :: v)) with (zlen v + 1) in * by lia.
  pose proof (next_ok_step one l (zlen v) last x Lv Hx L) as L'.
  set (last' := if eqb x one then zlen v else last) in *. cbv zeta in H.
  assert (HP : (last' <> 2 ^ 64 - 1 -> succ_f (zlen v) = Ok last') /\ successor_loop one succ_f v (zlen v - 1) last' = Ok true).
  { destruct (Z.eqb_spec last' (2 ^ 64 - 1)) as [D|D]; [split; [congruence|exact H]|].
    apply bind_ok in H. destruct H as (p & Ep & H). req H. apply Z.eqb_eq in D0. subst p. auto. }
  destruct HP as (HP & H'). destruct (Z.eq_dec pos (zlen v)) as [->|].
  2:{ eapply IH; eauto. lia. }
  assert (q < zlen l).
  { assert (Z.to_nat q < length l)%nat by (apply nth_error_Some; congruence). unfold zlen. lia. }
  destruct L' as [(L1 & L2)|(L1 & L2 & L3)].
  { rewrite L2 in Q1 by lia. injection Q1 as Q1. destruct one; discriminate. }
  assert (last' = q) as <-; [|apply HP; lia].
  destruct (Z.lt_trichotomy last' q) as [C|[C|C]]; auto; exfalso.
  + rewrite Q2 in L2 by lia. injection L2 as L2. destruct one; discriminate.
  + rewrite L3 in Q1 by lia. injection Q1 as Q1. destruct one; discriminate.
Qed.
End RankSelect.

Lemma rank_select_iff one rank_f select_f pred_f succ_f l : zlen l < 2 ^ 64 ->
  test_rank_select_of one rank_f select_f pred_f succ_f l = Ok true <->
  (forall p, (p < length l)%nat -> rank_f (Z.of_nat p) = Ok (Z.of_nat (rank one l p))) /\
  (forall k q, is_select one l k q -> select_f (Z.of_nat k) = Ok (Z.of_nat q)) /\
  (forall pos q, nearest_before one l pos q -> pred_f pos = Ok q) /\
  (forall pos q, nearest_after one l pos q -> succ_f pos = Ok q).
Proof.
  intros Hl. split.
  - unfold test_rank_select_of, then_. intros H. apply bind_ok in H. destruct H as (ok & H1 & H). req H. subst ok.
    assert (Zr : zlen l = zlen (rev l)) by (unfold zlen; rewrite rev_length; auto). rewrite Zr in H.
    destruct (rank_select_sound one rank_f select_f pred_f l l [] (2 ^ 64 - 1) eq_refl) as (I1 & I2 & I3); auto.
    { left. split; [reflexivity|]. intros p Hp. change (zlen (@nil bool)) with 0 in Hp. lia. }
    change (zlen (@nil bool)) with 0 in I3. cbn [length] in *.
    split; [intros; apply I1; lia|]. split; [intros; apply I2; auto; lia|]. split.
    + intros pos q (N1 & N2 & N3 & N4). apply I3; auto; lia.
    + intros pos q (N1 & N2 & N3).
      assert (q < zlen l).
      { assert (Z.to_nat q < length l)%nat by (apply nth_error_Some; congruence). unfold zlen. lia. }
      eapply (successor_sound one succ_f l (rev l) [] (2 ^ 64 - 1)); auto; try lia.
      * rewrite rev_involutive, app_nil_r. reflexivity.
      * left. split; [reflexivity|]. intros p Hp. lia.
  - intros (H1 & H2 & H3 & H4). apply test_rank_select_of_ok; auto.
    + intros. apply H3. repeat split; auto; lia.
    + intros. apply H4. repeat split; auto; lia.
Qed.

(** ** parentheses *)
Lemma opened_pos a q s : opened a (q :: s) -> 0 <= q < zlen a.
Proof. inversion 1; subst. rewrite zlen_app, zlen_cons. pose proof (zlen_nonneg a0). pose proof (zlen_nonneg u). lia. Qed.

Lemma stack_loop_any l : forall v a s open close enc, l = a ++ v -> opened a s ->
  zlen open = zlen l -> zlen close = zlen l -> zlen enc = zlen l ->
  stack_loop v (zlen a) s open close enc = Ok None \/
  exists s' open' close' enc', stack_loop v (zlen a) s open close enc = Ok (Some (s', open', close', enc')) /\ opened l s'.
Proof.
  induction v as [|x v IH]; intros a s open close enc El Ho H1 H2 H3; cbn [stack_loop].
  { right. rewrite app_nil_r in El. subst a. do 4 eexists. split; [reflexivity|auto]. }
  pose proof (zlen_nonneg a). pose proof (zlen_nonneg v).
  assert (Zl : zlen l = zlen a + 1 + zlen v) by (rewrite El, zlen_app, zlen_cons; lia).
  rewrite <- (zlen_snoc a x). destruct x.
  - assert (exists enc', (match s with [] => Ok enc | top :: _ => wr enc (zlen a) top end) = Ok enc' /\ zlen enc' = zlen l) as (enc' & -> & L').
    { destruct s as [|q s]; [eauto|]. rewrite wr_ok by lia. eexists. split; [reflexivity|]. rewrite zlen_upd. auto. }
    cbn [bind]. apply IH; auto; [rewrite El; apply app_snoc|]. apply opened_open; auto.
  - destruct s as [|q s]; [auto|]. pose proof (opened_pos _ _ _ Ho). rewrite !wr_ok by lia. cbn [bind].
    apply IH; auto; [rewrite El; apply app_snoc|eapply opened_close; eauto| |]; rewrite zlen_upd; auto.
Qed.

Section Par.
  Variables (sp : shift_policy) (bp : bp_vector) (l : list bool).
  Definition answers : Prop :=
    (forall p m, matches l p m -> find_close sp bp p = Ok m /\ find_open sp bp m = Ok p) /\
    (forall q p, innermost l q p -> nth_error l (Z.to_nat p) = Some true -> enclose sp bp p = Ok q).
  Variables open close enc : list Z.
  Hypothesis Hl : bal l.
  Hypothesis HL : zlen l < 2 ^ 64.
  Hypothesis HA : arrays_ok l (zlen l) open close enc.

  Lemma enc_of q p : innermost l q p -> zbit l p = true -> 0 <= p < zlen l -> W enc p = q /\ q <> 2 ^ 64 - 1.
  Proof.
    intros I Zp Hp. pose proof HA as (A1 & A2 & A3 & A4 & A5 & A6).
    destruct (A5 p Hp Zp) as [(_ & N)|I'].
    - exfalso. apply (N q). apply I.
    - split; [eapply innermost_unique; eauto|]. destruct I as ((m & HM & Hq) & _). lia.
  Qed.
  Lemma parentheses_loop_iff : forall v a, l = a ++ v ->
    parentheses_loop sp bp v (zlen a) open close enc = Ok true <->
    (forall p m, matches l p m -> (zlen a <= p -> find_close sp bp p = Ok m) /\ (zlen a <= m -> find_open sp bp m = Ok p)) /\
    (forall q p, innermost l q p -> nth_error l (Z.to_nat p) = Some true -> zlen a <= p -> enclose sp bp p = Ok q).
  Proof.
    pose proof HA as (A1 & A2 & A3 & A4 & A5 & A6).
    assert (MX : forall p m, matches l p m -> 0 <= p < m /\ m < zlen l /\ zbit l p = true /\ zbit l m = false).
    { intros p m HM. pose proof HM as HM'. apply matches_excess in HM'. destruct HM' as (M0 & M1 & M2 & F0 & _).
      split; [lia|]. split; [lia|]. split; [auto|]. destruct HM as (a' & u & b & E1 & _ & _ & E2). rewrite E2, E1.
      replace (zlen a' + 1 + zlen u) with (zlen (a' ++ true :: u)) by (rewrite zlen_app, zlen_cons; lia).
      replace (a' ++ true :: u ++ false :: b) with ((a' ++ true :: u) ++ false :: b) by (rewrite <- app_assoc; reflexivity).
      apply zbit_mid. }
    assert (IX : forall q p, innermost l q p -> 0 <= p < zlen l).
    { intros q p ((m & HM & Hq) & _). apply MX in HM. lia. }
    induction v as [|x v IH]; intros a El; cbn [parentheses_loop].
    { rewrite app_nil_r in El. subst a. split; auto. intros _. split.
      - intros p m HM. apply MX in HM. split; lia.
      - intros q p I. apply IX in I. lia. }
    pose proof (zlen_nonneg a). pose proof (zlen_nonneg v).
    assert (Zl : zlen l = zlen a + 1 + zlen v) by (rewrite El, zlen_app, zlen_cons; lia).
    assert (Zx : zbit l (zlen a) = x) by (rewrite El; apply zbit_mid).
    pose proof (zbit_nth_error l (zlen a) ltac:(lia)) as Nx. rewrite Zx in Nx.
    specialize (IH (a ++ [x])). rewrite zlen_snoc in IH. specialize (IH ltac:(rewrite El; apply app_snoc)).
    destruct x.
    - rewrite !W_rd by lia. cbn [bind].
      destruct (open_matched l (zlen a) Hl ltac:(lia) Zx) as (m & HM). pose proof (MX _ _ HM) as (M1 & M2 & M3 & M4).
      destruct (A4 _ _ HM M2) as (C1 & C2). rewrite C1.
      assert (Henc : (exists q, innermost l q (zlen a) /\ W enc (zlen a) = q /\ q <> 2 ^ 64 - 1) \/
        (W enc (zlen a) = 2 ^ 64 - 1 /\ forall q, ~ encloses l q (zlen a))).
      { destruct (A5 (zlen a) ltac:(lia) Zx) as [N|I]; [auto|]. left. exists (W enc (zlen a)). split; auto.
        apply (enc_of _ _ I); auto; lia. }
      split.
      + intros H1. apply bind_ok in H1. destruct H1 as (e & Ee & H1). req H1. apply Z.eqb_eq in D. subst e.
        apply bind_ok in H1. destruct H1 as (c & Ec & H1). req H1. apply Z.eqb_eq in D. subst c.
        destruct (proj1 IH H1) as (I1 & I2). split.
        * intros p m' HM'. pose proof (MX _ _ HM') as X. destruct (I1 p m' HM') as (J1 & J2). split.
          -- intros Hp. destruct (Z.eq_dec p (zlen a)) as [->|]; [|apply J1; lia]. rewrite Ec. f_equal. eapply matches_unique; eauto.
          -- intros Hm. apply J2. assert (m' <> zlen a) by (intros ->; destruct X as (_ & _ & _ & X); congruence). lia.
        * intros q p I Hp Hz. destruct (Z.eq_dec p (zlen a)) as [->|]; [|apply I2; auto; lia].
          destruct (enc_of q (zlen a) I Zx ltac:(lia)) as (E1 & E2). rewrite E1 in Ee.
          replace (q =? 2 ^ 64 - 1) with false in Ee by lia. exact Ee.
      + intros (H1 & H2). replace (if W enc (zlen a) =? 2 ^ 64 - 1 then Ok (W enc (zlen a)) else enclose sp bp (zlen a)) with (Ok (W enc (zlen a))).
        2:{ destruct Henc as [(q & I & E1 & E2)|(E1 & _)]; [|rewrite E1; reflexivity].
            rewrite E1. replace (q =? 2 ^ 64 - 1) with false by lia. symmetry. apply H2; auto. lia. }
        cbn [bind]. rewrite Z.eqb_refl. destruct (H1 _ _ HM) as (-> & _); [|lia]. cbn [bind]. rewrite Z.eqb_refl.
        apply IH. split.
        * intros p m' HM'. destruct (H1 p m' HM') as (J1 & J2). split; intros; [apply J1|apply J2]; lia.
        * intros q p I Hp Hz. apply H2; auto. lia.
    - rewrite W_rd by lia. cbn [bind].
      destruct (close_matched l (zlen a) (bal_prefix_ok l Hl) ltac:(lia) Zx) as (p0 & HM).
      destruct (A4 _ _ HM ltac:(lia)) as (C1 & C2). rewrite C2. split.
      + intros H1. apply bind_ok in H1. destruct H1 as (c & Ec & H1). req H1. apply Z.eqb_eq in D. subst c.
        destruct (proj1 IH H1) as (I1 & I2). split.
        * intros p m' HM'. pose proof (MX _ _ HM') as X. destruct (I1 p m' HM') as (J1 & J2). split.
          -- intros Hp. apply J1. assert (p <> zlen a) by (intros ->; destruct X as (_ & _ & X & _); congruence). lia.
          -- intros Hm. destruct (Z.eq_dec m' (zlen a)) as [->|]; [|apply J2; lia]. rewrite Ec. f_equal. eapply matches_unique_open; eauto.
        * intros q p I Hp Hz. apply I2; auto. assert (p <> zlen a) by (intros ->; congruence). lia.
      + intros (H1 & H2). destruct (H1 _ _ HM) as (_ & ->); [|lia]. cbn [bind]. rewrite Z.eqb_refl.
        apply IH. split.
        * intros p m' HM'. destruct (H1 p m' HM') as (J1 & J2). split; intros; [apply J1|apply J2]; lia.
        * intros q p I Hp Hz. apply H2; auto. lia.
  Qed.
End Par.

Lemma parentheses_iff sp bp l : zlen l < 2 ^ 64 -> test_parentheses sp l bp = Ok true <-> bal l /\ answers sp bp l.
Proof.
  intros HL. unfold test_parentheses.
  assert (ZR : forall x : Z, zlen (repeat x (length l)) = zlen l) by (intros; rewrite zlen_repeat'; reflexivity).
  assert (O0 : opened [] []) by (constructor; constructor).
  assert (Main : bal l -> (do r <- stack_loop l 0 [] (repeat 0 (length l)) (repeat 0 (length l)) (repeat (2 ^ 64 - 1) (length l));
    match r with
    | None => Ok false
    | Some (stack, open, close, enc) => require! (zlen stack =? 0); parentheses_loop sp bp l 0 open close enc
    end) = Ok true <-> answers sp bp l).
  { intros Hl. destruct (stack_loop_ok l Hl l [] [] (repeat 0 (length l)) (repeat 0 (length l)) (repeat (2 ^ 64 - 1) (length l)) eq_refl O0)
      as (open & close & enc & E & HA).
    { change (zlen (@nil bool)) with 0. repeat split; auto; try (intros; exfalso; lia).
      - apply matches_excess in H. destruct H as (? & ? & ? & ? & ?). lia.
      - apply matches_excess in H. destruct H as (? & ? & ? & ? & ?). lia.
      - intros i Hi. unfold W. replace (i <? 0) with false by lia.
        rewrite (nth_indep _ 0 (2 ^ 64 - 1)) by (rewrite repeat_length; unfold zlen in Hi; lia). apply nth_repeat. }
    change (zlen (@nil bool)) with 0 in E. rewrite E. cbn [bind]. change (zlen (@nil Z) =? 0) with true. cbv iota.
    pose proof (parentheses_loop_iff sp bp l open close enc Hl HL HA l [] eq_refl) as P. change (zlen (@nil bool)) with 0 in P.
    rewrite P. unfold answers. split; intros (H1 & H2); split.
    - intros p m HM. destruct (H1 p m HM) as (J1 & J2). apply matches_excess in HM. destruct HM as (? & ? & ? & ? & ?). split; [apply J1|apply J2]; lia.
    - intros q p I Hp. apply H2; auto. destruct I as ((m & HM & Hq) & _). apply matches_excess in HM. lia.
    - intros p m HM. destruct (H1 p m HM). auto.
    - intros q p I Hp _. auto. }
  split.
  - intros H. assert (Hl : bal l); [|split; auto; apply Main; auto].
    destruct (stack_loop_any l l [] [] (repeat 0 (length l)) (repeat 0 (length l)) (repeat (2 ^ 64 - 1) (length l)) eq_refl O0) as [E|(s & o & c & e & E & Ho)]; auto;
      change (zlen (@nil bool)) with 0 in E; rewrite E in H; cbn [bind] in H; [discriminate|]. req H.
    destruct s as [|q s]; [|rewrite zlen_cons in D; pose proof (zlen_nonneg s); lia]. inversion Ho. auto.
  - intros (Hl & HA). apply Main; auto.
Qed.

Lemma parentheses_iff' sp bp l : zlen l < 2 ^ 64 -> test_parentheses sp l bp = Ok true <->
  bal l /\ (forall p m, matches l p m -> find_close sp bp p = Ok m /\ find_open sp bp m = Ok p) /\
  (forall q p, innermost l q p -> nth_error l (Z.to_nat p) = Some true -> enclose sp bp p = Ok q).
Proof. exact (parentheses_iff sp bp l). Qed.
