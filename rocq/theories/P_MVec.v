(** Proofs about mappable_vector. *)
From Verif Require Import Base Spec Lib M_MVec S_MVec.

Lemma update_same {A} (l : list A) i x : (i < length l)%nat -> nth_error (update l i x) i = Some x.
Proof. revert i. induction l as [|y l IH]; intros [|i] H; cbn in *; try lia; auto. apply IH. lia. Qed.
Lemma update_other {A} (l : list A) i j x : i <> j -> nth_error (update l i x) j = nth_error l j.
Proof. revert i j. induction l as [|y l IH]; intros [|i] [|j] H; cbn in *; try congruence; auto. Qed.
Lemma assigned_same {A} (f : nat -> A) i x : assigned f i x i = x.
Proof. unfold assigned. rewrite Nat.eqb_refl. reflexivity. Qed.
Lemma assigned_other {A} (f : nat -> A) i j x : j <> i -> assigned f i x j = f j.
Proof. intros H. unfold assigned. apply Nat.eqb_neq in H. rewrite H. reflexivity. Qed.

(** how a vector holds its elements *)
Definition holds (h : heap) (v : vec) (xs : list Z) : Prop :=
  m_size v = zlen xs /\
  ((exists b, m_deleter v = Some b /\ m_data v = Heap b /\ nth_error h b = Some (Some xs)) \/
   (m_deleter v = None /\ m_data v = File xs) \/
   (m_deleter v = None /\ m_data v = Null /\ xs = [])).

Lemma zlen_0 {A} (xs : list A) : zlen xs = 0 -> xs = [].
Proof. destruct xs; auto. rewrite zlen_cons. pose proof (zlen_nonneg xs). lia. Qed.
Lemma holds_deref h v xs a n : holds h v xs -> 0 <= a -> 0 <= n -> a + n <= zlen xs ->
  deref h (m_data v) a n = Ok (firstn (Z.to_nat n) (skipn (Z.to_nat a) xs)).
Proof.
  intros (Hs & H) Ha Hn Hb. unfold deref. destruct (Z.eqb_spec n 0) as [->|N]; [reflexivity|].
  destruct H as [(b & _ & -> & ->)|[(_ & ->)|(_ & -> & ->)]]; cbn [bind].
  - replace ((0 <=? a) && (0 <=? n) && (a + n <=? zlen xs)) with true by lia. reflexivity.
  - replace ((0 <=? a) && (0 <=? n) && (a + n <=? zlen xs)) with true by lia. reflexivity.
  - rewrite zlen_nil in Hb. lia.
Qed.
Lemma holds_shows h v xs : holds h v xs -> shows h v xs.
Proof.
  intros H. pose proof H as (Hs & _). split; [auto|]. intros i x Hx.
  assert (L : (i < length xs)%nat) by (apply nth_error_Some; congruence). unfold vec_get.
  replace ((0 <=? Z.of_nat i) && (Z.of_nat i <? m_size v)) with true by (rewrite Hs; unfold zlen; lia). unfold assert_. cbv iota.
  rewrite (holds_deref _ _ _ _ _ H) by (unfold zlen; lia). cbn [bind]. rewrite Nat2Z.id.
  change (Z.to_nat 1) with 1%nat. apply nth_error_split in Hx. destruct Hx as (p & q & -> & <-). rewrite skipn_app, skipn_all, Nat.sub_diag. reflexivity.
Qed.

(** the state after a history *)
Definition inv (s : state) (c : contents) : Prop :=
  (forall i, match st_vecs s i, ct_vecs c i with
             | Some v, Some xs => holds (st_heap s) v xs
             | None, None => True
             | _, _ => False
             end) /\
  (forall i j v w b, st_vecs s i = Some v -> st_vecs s j = Some w -> owns v b -> owns w b -> i = j) /\
  (forall b, unreleased (st_heap s) b -> exists i v, st_vecs s i = Some v /\ owns v b) /\
  (forall k, st_std s k = ct_std c k).

Lemma inv_alive s c i : inv s c -> alive c i -> exists v xs, st_vecs s i = Some v /\ ct_vecs c i = Some xs /\ holds (st_heap s) v xs.
Proof.
  intros (H & _) A. specialize (H i). unfold alive in A. destruct (st_vecs s i) as [v|], (ct_vecs c i) as [xs|]; try contradiction; try congruence. eauto.
Qed.
Lemma inv_dead s c i : inv s c -> ~ alive c i -> st_vecs s i = None.
Proof.
  intros (H & _) A. specialize (H i). unfold alive in A. destruct (st_vecs s i) as [v|], (ct_vecs c i) as [xs|]; try contradiction; try congruence.
  exfalso. apply A. discriminate.
Qed.

(** destroying the vector [i] *)
Lemma destroy_ok h vs sv c i v : inv (mk_st h vs sv) c -> vs i = Some v ->
  exists h', vec_destroy h v = Ok h' /\ inv (mk_st h' (assigned vs i None) sv) (mk_ct (assigned (ct_vecs c) i None) (ct_std c)).
Proof.
  intros (H1 & H2 & H3 & H4) Hv. cbn [st_heap st_vecs st_std] in *. unfold vec_destroy.
  destruct (m_deleter v) as [b|] eqn:D.
  - pose proof (H1 i) as Hi. rewrite Hv in Hi. destruct (ct_vecs c i) as [xs|] eqn:C; [|contradiction].
    destruct Hi as (_ & [(b' & D' & _ & E)|[(D' & _)|(D' & _)]]); try congruence. assert (b' = b) by congruence. subst b'.
    unfold free. rewrite E. eexists. split; [reflexivity|].
    assert (L : (b < length h)%nat) by (apply nth_error_Some; congruence).
    split; [|split; [|split]]; cbn [st_heap st_vecs st_std ct_vecs ct_std]; auto.
    + intros j. destruct (Nat.eq_dec j i) as [->|N]; [rewrite !assigned_same; exact I|]. rewrite !assigned_other by auto.
      pose proof (H1 j) as Hj. destruct (vs j) as [w|] eqn:W, (ct_vecs c j) as [ys|]; auto.
      destruct Hj as (S & [(b' & D2 & P & E2)|K]); (split; [auto|]); [left|right; auto]. exists b'. split; [auto|]. split; [auto|].
      rewrite update_other; [auto|]. intros ->. apply N. apply (H2 j i w v b'); auto.
    + intros j k w u b' Hj Hk. destruct (Nat.eq_dec j i) as [->|Nj]; [rewrite assigned_same in Hj; discriminate|].
      destruct (Nat.eq_dec k i) as [->|Nk]; [rewrite assigned_same in Hk; discriminate|]. rewrite assigned_other in Hj, Hk by auto. eauto.
    + intros b' (ys & U). destruct (Nat.eq_dec b b') as [<-|N]; [rewrite update_same in U by auto; discriminate|].
      rewrite update_other in U by auto. destruct (H3 b') as (j & w & Hj & O); [exists ys; auto|]. exists j, w. split; [|auto].
      rewrite assigned_other; [auto|]. intros ->. unfold owns in O. congruence.
  - eexists. split; [reflexivity|]. split; [|split; [|split]]; cbn [st_heap st_vecs st_std ct_vecs ct_std]; auto.
    + intros j. destruct (Nat.eq_dec j i) as [->|N]; [rewrite !assigned_same; exact I|]. rewrite !assigned_other by auto. apply H1.
    + intros j k w u b' Hj Hk. destruct (Nat.eq_dec j i) as [->|Nj]; [rewrite assigned_same in Hj; discriminate|].
      destruct (Nat.eq_dec k i) as [->|Nk]; [rewrite assigned_same in Hk; discriminate|]. rewrite assigned_other in Hj, Hk by auto. eauto.
    + intros b' U. destruct (H3 b' U) as (j & w & Hj & O). exists j, w. split; [|auto].
      rewrite assigned_other; [auto|]. intros ->. unfold owns in O. congruence.
Qed.

(** giving the dead name [i] a vector without buffer *)
Lemma put_plain h vs sv c i v xs : inv (mk_st h vs sv) c -> vs i = None -> m_deleter v = None -> holds h v xs ->
  inv (mk_st h (assigned vs i (Some v)) sv) (mk_ct (assigned (ct_vecs c) i (Some xs)) (ct_std c)).
Proof.
  intros (H1 & H2 & H3 & H4) Hi D Hh. cbn [st_heap st_vecs st_std] in *. split; [|split; [|split]]; cbn [st_heap st_vecs st_std ct_vecs ct_std]; auto.
  - intros j. destruct (Nat.eq_dec j i) as [->|N]; [rewrite !assigned_same; auto|]. rewrite !assigned_other by auto. apply H1.
  - intros j k w u b Hj Hk Oj Ok. destruct (Nat.eq_dec j i) as [->|Nj]; [rewrite assigned_same in Hj; unfold owns in Oj; congruence|].
    destruct (Nat.eq_dec k i) as [->|Nk]; [rewrite assigned_same in Hk; unfold owns in Ok; congruence|]. rewrite assigned_other in Hj, Hk by auto. eauto.
  - intros b U. destruct (H3 b U) as (j & w & Hj & O). exists j, w. split; [|auto]. rewrite assigned_other; [auto|congruence].
Qed.
(** ... with a new buffer *)
Lemma put_new h vs sv c i xs : inv (mk_st h vs sv) c -> vs i = None ->
  inv (mk_st (h ++ [Some xs]) (assigned vs i (Some (mk_vec (Heap (length h)) (zlen xs) (Some (length h))))) sv)
      (mk_ct (assigned (ct_vecs c) i (Some xs)) (ct_std c)).
Proof.
  intros (H1 & H2 & H3 & H4) Hi. cbn [st_heap st_vecs st_std] in *.
  assert (Old : forall j v b, vs j = Some v -> owns v b -> (b < length h)%nat).
  { intros j v b Hj O. specialize (H1 j). rewrite Hj in H1. destruct (ct_vecs c j); [|contradiction]. unfold owns in O.
    destruct H1 as (_ & [(b' & D & _ & E)|[(D & _)|(D & _)]]); try congruence. assert (b' = b) by congruence. subst. apply nth_error_Some. congruence. }
  split; [|split; [|split]]; cbn [st_heap st_vecs st_std ct_vecs ct_std]; auto.
  - intros j. destruct (Nat.eq_dec j i) as [->|N].
    + rewrite !assigned_same. split; [reflexivity|]. left. exists (length h). split; [auto|]. split; [auto|]. rewrite nth_error_app2, Nat.sub_diag; auto.
    + rewrite !assigned_other by auto. pose proof (H1 j) as Hj. destruct (vs j) as [w|] eqn:W, (ct_vecs c j) as [ys|]; auto.
      destruct Hj as (S & [(b' & D2 & P & E2)|K]); (split; [auto|]); [left|right; auto]. exists b'. split; [auto|]. split; [auto|].
      rewrite nth_error_app1; [auto|]. apply nth_error_Some. congruence.
  - intros j k w u b Hj Hk Oj Ok.
    destruct (Nat.eq_dec j i) as [->|Nj]; [rewrite assigned_same in Hj|rewrite assigned_other in Hj by auto];
      (destruct (Nat.eq_dec k i) as [->|Nk]; [rewrite assigned_same in Hk|rewrite assigned_other in Hk by auto]); auto.
    + injection Hj as <-. unfold owns in Oj. cbn in Oj. pose proof (Old k u b Hk Ok). injection Oj as <-. lia.
    + injection Hk as <-. unfold owns in Ok. cbn in Ok. pose proof (Old j w b Hj Oj). injection Ok as <-. lia.
    + eauto.
  - intros b (ys & U). destruct (Nat.lt_ge_cases b (length h)) as [L|G].
    + rewrite nth_error_app1 in U by auto. destruct (H3 b) as (j & w & Hj & O); [exists ys; auto|]. exists j, w. split; [|auto].
      rewrite assigned_other; [auto|congruence].
    + exists i. eexists. rewrite assigned_same. split; [reflexivity|]. unfold owns. cbn. f_equal.
      assert (b < length (h ++ [Some xs]))%nat by (apply nth_error_Some; congruence). rewrite app_length in H. cbn in H. lia.
Qed.

(** names other than [i] matter only by their values *)
Lemma inv_ext h vs vs' sv sv' c c' : inv (mk_st h vs sv) c -> (forall j, vs' j = vs j) -> (forall j, ct_vecs c' j = ct_vecs c j) ->
  (forall k, sv' k = ct_std c' k) -> inv (mk_st h vs' sv') c'.
Proof.
  intros (H1 & H2 & H3 & H4) Ev Ec Es. cbn [st_heap st_vecs st_std] in *. split; [|split; [|split]]; cbn [st_heap st_vecs st_std].
  - intros j. rewrite Ev, Ec. apply H1.
  - intros j k w u b Hj Hk. rewrite Ev in Hj, Hk. eauto.
  - intros b U. destruct (H3 b U) as (j & w & Hj & O). exists j, w. rewrite Ev. auto.
  - auto.
Qed.
Lemma assigned_twice {A} (f : nat -> A) i x y j : assigned (assigned f i x) i y j = assigned f i y j.
Proof. unfold assigned. destruct (Nat.eqb j i); auto. Qed.

Lemma default_holds h : holds h vec_default [].
Proof. split; [reflexivity|]. right. right. auto. Qed.

(** swap *)
Lemma vec_swap_ok v w : vec_swap v w = (w, v).
Proof. destruct v, w. reflexivity. Qed.

(** clear *)
Lemma clear_ok h vs sv c i v : inv (mk_st h vs sv) c -> vs i = Some v ->
  exists h', vec_clear h v = Ok (h', vec_default) /\ inv (mk_st h' (assigned vs i None) sv) (mk_ct (assigned (ct_vecs c) i None) (ct_std c)).
Proof.
  intros H Hv. destruct (destroy_ok _ _ _ _ _ _ H Hv) as (h' & E & I). exists h'. unfold vec_clear. rewrite vec_swap_ok, E. auto.
Qed.

Lemma elements_ok h vs sv c r : inv (mk_st h vs sv) c -> range_legal c r ->
  exists a, pass vs r = Ok a /\ elements h vs a = Ok (range_value c r).
Proof.
  intros H L. destruct r as [xs|j|j a b]; cbn [pass range_legal range_value] in *.
  - exists (AList xs). auto.
  - destruct (inv_alive _ _ _ H L) as (v & xs & E1 & E2 & Hh). cbn [st_vecs st_heap] in *. exists (AVec j). split; [auto|]. cbn [elements]. rewrite E1, E2. cbn [the bind].
    pose proof (zlen_nonneg xs). rewrite (proj1 Hh). rewrite (holds_deref _ _ _ _ _ Hh) by lia. change (Z.to_nat 0) with 0%nat. cbn [skipn]. unfold zlen. rewrite Nat2Z.id, firstn_all. reflexivity.
  - destruct L as (xs & E2 & Hb). assert (A : alive c j) by (unfold alive; congruence).
    destruct (inv_alive _ _ _ H A) as (v & xs' & E1 & E2' & Hh). cbn [st_vecs st_heap] in *. assert (xs' = xs) by congruence. subst xs'.
    rewrite E1, E2. cbn [the bind]. eexists. split; [reflexivity|]. cbn [elements]. apply holds_deref; auto; lia.
Qed.
(** clearing another vector does not change what an argument denotes *)
Lemma elements_frame h vs sv c r i v : inv (mk_st h vs sv) c -> range_legal c r -> ~ range_of r i -> vs i = Some v ->
  exists a h', pass vs r = Ok a /\ vec_clear h v = Ok (h', vec_default) /\
  elements h' (assigned vs i (Some vec_default)) a = Ok (range_value c r) /\
  inv (mk_st h' (assigned vs i None) sv) (mk_ct (assigned (ct_vecs c) i None) (ct_std c)).
Proof.
  intros H L N Hv. destruct (clear_ok _ _ _ _ _ _ H Hv) as (h' & E & I).
  assert (L' : range_legal (mk_ct (assigned (ct_vecs c) i None) (ct_std c)) r).
  { destruct r as [xs|j|j a b]; cbn [range_legal range_of] in *; auto.
    - unfold alive in *. cbn [ct_vecs]. rewrite assigned_other by auto. auto.
    - cbn [ct_vecs]. rewrite assigned_other by auto. auto. }
  destruct (elements_ok _ _ _ _ _ I L') as (a & P & Q). exists a, h'.
  assert (P' : pass vs r = Ok a).
  { rewrite <- P. destruct r as [xs|j|j x y]; cbn [pass range_of] in *; auto. rewrite assigned_other by auto. reflexivity. }
  split; [auto|]. split; [auto|]. split; [|auto].
  replace (range_value c r) with (range_value (mk_ct (assigned (ct_vecs c) i None) (ct_std c)) r).
  2:{ destruct r as [xs|j|j x y]; cbn [range_value range_of ct_vecs] in *; auto; rewrite assigned_other by auto; reflexivity. }
  rewrite <- Q. destruct r as [xs|j|j x y]; cbn [pass range_of] in *.
  - injection P as <-. reflexivity.
  - injection P as <-. cbn [elements]. rewrite !assigned_other by auto. reflexivity.
  - rewrite assigned_other in P by auto. destruct (vs j); cbn in P; [|discriminate]. injection P as <-. reflexivity.
Qed.

Lemma set_assigned {A} (f : nat -> A) i x : set f i x = assigned f i x.
Proof. reflexivity. Qed.

Lemma step_ok s c o : inv s c -> allowed c o -> exists s', step s o = Ok s' /\ inv s' (meaning c o).
Proof.
  destruct s as [h vs sv]. intros H A. pose proof H as (_ & _ & _ & Hstd). cbn [st_std] in Hstd.
  destruct o as [i|i r|i|i j|i|i k|i r|i xs|k xs]; cbn [allowed step meaning] in *; change @set with @assigned.
  - pose proof (inv_dead _ _ _ H A) as D. cbn [st_vecs] in D. eexists. split; [reflexivity|]. apply put_plain; auto. apply default_holds.
  - destruct A as (A & L). pose proof (inv_dead _ _ _ H A) as D. destruct (elements_ok _ _ _ _ _ H L) as (a & -> & E). cbn [bind]. rewrite E. cbn [bind].
    unfold vec_of, alloc. eexists. split; [reflexivity|]. apply put_new; auto.
  - destruct (inv_alive _ _ _ H A) as (v & xs & E1 & E2 & Hh). cbn [st_vecs st_heap] in *. rewrite E1. cbn [the bind].
    destruct (destroy_ok _ _ _ _ _ _ H E1) as (h' & -> & I). cbn [bind]. eexists. split; [reflexivity|]. exact I.
  - destruct A as (A1 & A2). destruct (inv_alive _ _ _ H A1) as (v & xs & E1 & E2 & Hh). destruct (inv_alive _ _ _ H A2) as (w & ys & E3 & E4 & Hk).
    cbn [st_vecs st_heap] in *. rewrite E1, E3. cbn [the bind]. rewrite vec_swap_ok. eexists. split; [reflexivity|]. rewrite E2, E4. change @set with @assigned.
    destruct H as (H1 & H2 & H3 & H4). cbn [st_heap st_vecs st_std] in *.
    assert (S : forall k, exists k', (assigned (assigned vs i (Some w)) j (Some v)) k = vs k' /\ (assigned (assigned (ct_vecs c) i (Some ys)) j (Some xs)) k = ct_vecs c k'
      /\ ((k = i /\ k' = j) \/ (k = j /\ k' = i) \/ (k = k' /\ k <> i /\ k <> j))).
    { intros k. destruct (Nat.eq_dec k j) as [->|Nj]; [exists i; rewrite !assigned_same, E1, E2; auto 10|].
      destruct (Nat.eq_dec k i) as [->|Ni]; [exists j; rewrite !(assigned_other _ j i), !assigned_same, E3, E4 by auto; auto 10|]. exists k. rewrite !assigned_other by auto. auto 10. }
    split; [|split; [|split]]; cbn [st_heap st_vecs st_std ct_vecs ct_std]; auto.
    + intros k. destruct (S k) as (k' & Ek & Ek' & _). rewrite Ek, Ek'. apply H1.
    + intros k l u u' b Hu Hu' Ou Ou'. destruct (S k) as (k' & Ek & _ & K). destruct (S l) as (l' & El & _ & K'). rewrite Ek in Hu. rewrite El in Hu'.
      assert (k' = l') by eauto. lia.
    + intros b U. destruct (H3 b U) as (k & u & Hu & O). destruct (Nat.eq_dec k i) as [->|Ni]; [|destruct (Nat.eq_dec k j) as [->|Nj]].
      * exists j, u. rewrite assigned_same. split; [congruence|auto].
      * exists i, u. rewrite assigned_other, assigned_same by auto. split; [congruence|auto].
      * exists k, u. rewrite !assigned_other by auto. auto.
  - destruct (inv_alive _ _ _ H A) as (v & xs & E1 & E2 & Hh). cbn [st_vecs st_heap] in *. rewrite E1. cbn [the bind].
    destruct (clear_ok _ _ _ _ _ _ H E1) as (h' & -> & I). cbn [bind]. eexists. split; [reflexivity|].
    eapply inv_ext; [eapply (put_plain _ _ _ _ i vec_default []); [exact I|apply assigned_same|reflexivity|apply default_holds]| | |auto];
      intros; cbn [ct_vecs]; rewrite assigned_twice; reflexivity.
  - destruct (inv_alive _ _ _ H A) as (v & xs & E1 & E2 & Hh). cbn [st_vecs st_heap] in *. rewrite E1. cbn [the bind]. unfold vec_steal.
    destruct (clear_ok _ _ _ _ _ _ H E1) as (h' & -> & I). cbn [bind m_data m_size m_deleter vec_default]. rewrite Hstd.
    destruct (Z.eqb_spec (zlen (ct_std c k)) 0) as [Z0|NZ].
    + apply zlen_0 in Z0. rewrite Z0. cbn [bind]. eexists. split; [reflexivity|]. change @set with @assigned.
      eapply inv_ext; [eapply (put_plain _ _ _ _ i vec_default []); [exact I|apply assigned_same|reflexivity|apply default_holds]| | |];
        intros; cbn [ct_vecs ct_std]; rewrite ?assigned_twice; try reflexivity.
      unfold assigned. destruct (Nat.eqb _ _); auto.
    + unfold alloc. cbn [bind]. eexists. split; [reflexivity|]. change @set with @assigned.
      eapply inv_ext; [eapply (put_new _ _ _ _ i (ct_std c k)); [exact I|apply assigned_same]| | |];
        intros; cbn [ct_vecs ct_std]; rewrite ?assigned_twice; try reflexivity.
      unfold assigned. destruct (Nat.eqb _ _); auto.
  - destruct A as (A & L & N). destruct (inv_alive _ _ _ H A) as (v & xs & E1 & E2 & Hh). cbn [st_vecs st_heap] in *.
    destruct (elements_frame _ _ _ _ _ _ _ H L N E1) as (a & h' & -> & Ec & Ee & I). cbn [bind]. rewrite E1. cbn [the bind]. rewrite Ec. cbn [bind].
    change @set with @assigned. rewrite Ee. cbn [bind]. unfold vec_of, alloc. rewrite vec_swap_ok. unfold vec_destroy at 1. cbn [vec_default m_deleter bind].
    eexists. split; [reflexivity|]. change @set with @assigned.
    eapply inv_ext; [eapply (put_new _ _ _ _ i (range_value c r)); [exact I|apply assigned_same]| | |auto];
      intros; cbn [ct_vecs ct_std]; rewrite ?assigned_twice; reflexivity.
  - destruct (inv_alive _ _ _ H A) as (v & ys & E1 & E2 & Hh). cbn [st_vecs st_heap] in *. rewrite E1. cbn [the bind]. unfold vec_map_file.
    destruct (clear_ok _ _ _ _ _ _ H E1) as (h' & -> & I). cbn [bind vec_default m_deleter]. eexists. split; [reflexivity|].
    eapply inv_ext; [eapply (put_plain _ _ _ _ i (mk_vec (File xs) (zlen xs) None) xs); [exact I|apply assigned_same|reflexivity|]| | |auto];
      try (intros; cbn [ct_vecs]; rewrite assigned_twice; reflexivity).
    split; [reflexivity|]. right. left. auto.
  - eexists. split; [reflexivity|]. change @set with @assigned. eapply inv_ext; [exact H|auto|auto|]. intros l. cbn [ct_std]. unfold assigned. destruct (Nat.eqb l k); auto.
Qed.

Lemma run_ok os : forall s c c', inv s c -> history c os c' -> exists s', run s os = Ok s' /\ inv s' c'.
Proof.
  induction os as [|o os IH]; intros s c c' H L; cbn [history run] in *.
  - subst. eauto.
  - destruct L as (A & L). destruct (step_ok _ _ _ H A) as (s' & -> & I). cbn [bind]. eauto.
Qed.
Lemma start_inv : inv start nothing.
Proof.
  split; [|split; [|split]]; cbn; auto; try discriminate. intros b (xs & U). destruct b; discriminate.
Qed.

Lemma history_ok os c : history nothing os c -> exists s, run start os = Ok s /\
  (forall i xs, ct_vecs c i = Some xs -> exists v, st_vecs s i = Some v /\ shows (st_heap s) v xs) /\
  (forall b, unreleased (st_heap s) b <-> exists i v, ct_vecs c i <> None /\ st_vecs s i = Some v /\ owns v b) /\
  (forall i j v w b, st_vecs s i = Some v -> st_vecs s j = Some w -> owns v b -> owns w b -> i = j).
Proof.
  intros L. destruct (run_ok _ _ _ _ start_inv L) as (s & E & H). exists s. split; [auto|].
  pose proof H as (H1 & H2 & H3 & _). split; [|split].
  - intros i xs C. destruct (inv_alive _ _ i H) as (v & ys & V & C' & Hh); [unfold alive; congruence|].
    exists v. assert (ys = xs) by congruence. subst. auto using holds_shows.
  - intros b. split.
    + intros U. destruct (H3 b U) as (i & v & V & O). exists i, v. split; [|auto]. specialize (H1 i). rewrite V in H1. destruct (ct_vecs c i); [discriminate|contradiction].
    + intros (i & v & C & V & O). specialize (H1 i). rewrite V in H1. destruct (ct_vecs c i) as [xs|]; [|contradiction]. unfold owns in O.
      destruct H1 as (_ & [(b' & D & _ & U)|[(D & _)|(D & _)]]); try congruence. assert (b' = b) by congruence. subst. exists xs. auto.
  - auto.
Qed.
Lemma all_released os c : history nothing os c -> (forall i, ct_vecs c i = None) ->
  exists s, run start os = Ok s /\ forall b, ~ unreleased (st_heap s) b.
Proof.
  intros L N. destruct (history_ok _ _ L) as (s & E & _ & H & _). exists s. split; [auto|]. intros b U. apply H in U.
  destruct U as (i & v & C & _). auto.
Qed.

(** assigning a vector to itself *)
Lemma self_assign os c i xs : history nothing os c -> ct_vecs c i = Some xs ->
  exists s v, run start (os ++ [VAssign i (RVec i)]) = Ok s /\ st_vecs s i = Some v /\ m_size v = 0.
Proof.
  intros L C. destruct (run_ok _ _ _ _ start_inv L) as (s & E & H).
  assert (R : forall os s, run s (os ++ [VAssign i (RVec i)]) = do s <- run s os; step s (VAssign i (RVec i))).
  { clear. induction os as [|o os IH]; intros s; cbn [app run].
    - cbn [bind]. destruct (step s _); reflexivity.
    - destruct (step s o); cbn [bind]; auto. }
  rewrite R, E. cbn [bind]. destruct (inv_alive _ _ i H) as (v & ys & V & _); [unfold alive; congruence|].
  destruct s as [h vs sv]. cbn [st_vecs st_heap] in *. cbn [step pass bind]. rewrite V. cbn [the bind].
  destruct (clear_ok _ _ _ _ _ _ H V) as (h' & -> & _). cbn [bind elements]. change @set with @assigned. rewrite assigned_same. cbn [the bind vec_default m_data m_size].
  unfold deref. cbn [Z.eqb bind]. unfold vec_of, alloc. rewrite vec_swap_ok. unfold vec_destroy. cbn [vec_default m_deleter bind].
  eexists _, _. split; [reflexivity|]. cbn [st_vecs]. change @set with @assigned. rewrite assigned_same. split; [reflexivity|]. reflexivity.
Qed.
Lemma iter_assign os c i xs a b v s : history nothing os c -> ct_vecs c i = Some xs -> 0 <= a < b -> b <= zlen xs ->
  run start os = Ok s -> st_vecs s i = Some v -> m_deleter v <> None ->
  run start (os ++ [VAssign i (RIter i a b)]) = Ub Dangling.
Proof.
  intros L C Ha Hb E V D. destruct (run_ok _ _ _ _ start_inv L) as (s' & E' & H). assert (s' = s) by congruence. subst s'.
  assert (R : forall o os s, run s (os ++ [o]) = do s <- run s os; step s o).
  { clear. induction os as [|o' os IH]; intros s; cbn [app run].
    - cbn [bind]. destruct (step s _); reflexivity.
    - destruct (step s o'); cbn [bind]; auto. }
  rewrite R, E. cbn [bind]. destruct (inv_alive _ _ i H) as (w & ys & W & _ & Hh); [unfold alive; congruence|].
  destruct s as [h vs sv]. cbn [st_vecs st_heap] in *. assert (w = v) by congruence. subst w. cbn [step pass]. rewrite V. cbn [the bind].
  unfold vec_clear. rewrite vec_swap_ok. unfold vec_destroy. destruct Hh as (_ & [(n & Dn & P & U)|[(Dn & _)|(Dn & _)]]); try congruence. rewrite Dn, P. unfold free. rewrite U. cbn [bind elements].
  unfold deref. replace (b - a =? 0) with false by lia. rewrite update_same by (apply nth_error_Some; congruence). reflexivity.
Qed.
