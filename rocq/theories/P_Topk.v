(** Proofs about topk_vector. *)
From Verif Require Import Base Spec Lib M_BitVector M_RsBitVector M_Bp M_Cartesian M_Topk S_Cartesian S_Topk P_BvLib P_RsBuild P_Cartesian.

Lemma NoDup_app_remove_l {A} (l l' : list A) : NoDup (l ++ l') -> NoDup l'.
Proof. induction l as [|x l IH]; [auto|]. cbn. intros H. inversion H. auto. Qed.

(** ** heaps *)
Section Heap.
Context {A : Type} (comp : A -> A -> bool).
Hypothesis neg_trans : forall x y z, comp x y = false -> comp y z = false -> comp x z = false.

Lemma heap_top x l : is_heap comp (x :: l) -> forall y, In y l -> comp x y = false.
Proof.
  intros H y Hy. destruct (In_nth_error l y Hy) as (i & Ei). change (nth_error l i) with (nth_error (x :: l) (S i)) in Ei.
  revert y Hy Ei. induction i as [i IH] using (well_founded_induction lt_wf). intros y Hy Ei.
  assert (L : (i < length l)%nat). { cbn in Ei. apply nth_error_Some. congruence. }
  pose proof (Nat.div_mod i 2 ltac:(lia)) as D. pose proof (Nat.mod_upper_bound i 2 ltac:(lia)) as D2.
  replace (S i) with (S i) in H by reflexivity.
  destruct (nth_error (x :: l) (i / 2)) as [z|] eqn:Ez.
  2:{ apply nth_error_None in Ez. cbn [length] in Ez. lia. }
  pose proof (H (S i) z y ltac:(lia)) as C. replace (S i - 1)%nat with i in C by lia. specialize (C Ez Ei).
  destruct (i / 2)%nat as [|p] eqn:Ep.
  - cbn in Ez. congruence.
  - apply (neg_trans x z y); [|exact C]. apply (IH p); [lia| |exact Ez]. cbn in Ez. eapply nth_error_In; eauto.
Qed.
End Heap.

Lemma heap_one {A} (comp : A -> A -> bool) z : is_heap comp [z].
Proof. intros i x y Hi _ H. destruct i; [lia|]. destruct i; discriminate. Qed.

Section Topk.
Context {T : Type} (lt eq : T -> T -> bool) (h : heap_ops (queue_element T)).
Hypothesis Hlt : strict_weak_order lt.
Hypothesis Heq : eq_agrees lt eq.
Let vic := value_index_comparator lt eq.
Hypothesis Hpush : push_heap_ok vic (push_heap h).
Hypothesis Hpop : pop_heap_ok vic (pop_heap h).

Lemma lt_irr x : lt x x = false.
Proof. apply Hlt. Qed.
Lemma lt_trans x y z : lt x y = true -> lt y z = true -> lt x z = true.
Proof. apply Hlt. Qed.
Lemma lt_asym x y : lt x y = true -> lt y x = false.
Proof. intros H. destruct (lt y x) eqn:E; [|auto]. pose proof (lt_trans x y x H E). rewrite lt_irr in *. congruence. Qed.
Lemma lt_neg x y z : lt x y = false -> lt y z = false -> lt x z = false.
Proof.
  intros H1 H2. destruct (lt x z) eqn:E; [|auto].
  destruct (lt y x) eqn:A; [rewrite (lt_trans y x z A E) in H2; congruence|].
  destruct (lt z y) eqn:B; [rewrite (lt_trans x z y E B) in H1; congruence|].
  destruct Hlt as (_ & _ & N). destruct (N x y z H1 A H2 B). congruence.
Qed.

Lemma before_trans e f g : before lt e f -> before lt f g -> before lt e g.
Proof.
  unfold before. destruct e as [x i], f as [y j], g as [z k]; cbn [fst snd].
  intros [A|(A1 & A2 & A3)] [B|(B1 & B2 & B3)].
  - left. apply (lt_trans z y x); auto.
  - left. destruct (lt z x) eqn:E; [auto|]. pose proof (lt_neg y z x B1 E). congruence.
  - left. destruct (lt z x) eqn:E; [auto|]. pose proof (lt_neg z x y E A1). congruence.
  - right. split; [eapply lt_neg; eauto|]. split; [eapply lt_neg; eauto|lia].
Qed.

Definition head (e : queue_element T) : T * Z := let '(x, m, _, _) := e in (x, m).
Lemma vic_before e f : vic e f = false -> snd (head e) <> snd (head f) -> before lt (head e) (head f).
Proof.
  destruct e as [[[x i] a] b], f as [[[y j] a'] b']. unfold vic, value_index_comparator, head, before; cbn [fst snd]. rewrite Heq.
  destruct (lt x y), (lt y x); cbn; try discriminate; auto. intros. right. repeat split; auto. lia.
Qed.
Lemma vic_neg x y z : vic x y = false -> vic y z = false -> vic x z = false.
Proof.
  destruct x as [[[x i] ?] ?], y as [[[y j] ?] ?], z as [[[z k] ?] ?]. unfold vic, value_index_comparator. rewrite !Heq.
  destruct (lt x y) eqn:XY; [discriminate|]. destruct (lt y z) eqn:YZ; [discriminate|]. rewrite (lt_neg x y z XY YZ). cbn [orb negb andb].
  intros H1 H2. destruct (lt z x) eqn:ZX; [reflexivity|]. cbn [negb andb].
  pose proof (lt_neg z x y ZX XY) as ZY. pose proof (lt_neg y z x YZ ZX) as YX. rewrite ZY, YX in *. cbn in *. lia.
Qed.

(** ** entries *)
Context (v : list T).
Definition ent (a n : nat) : list (T * Z) := combine (window v a n) (map Z.of_nat (seq a n)).

Lemma window_split {A} (l : list A) : forall a k n x, nth_error l (a + k) = Some x ->
  window l a (k + S n) = window l a k ++ x :: window l (S (a + k)) n.
Proof.
  intros a k n x H. unfold window. revert a H. intros a. revert l. induction a as [|a IH]; intros l H.
  - cbn [skipn Nat.add] in *. revert l H. induction k as [|k IHk]; intros [|y l] H; try discriminate; cbn in *.
    + inversion H; subst. reflexivity.
    + f_equal. rewrite IHk by auto. reflexivity.
  - destruct l as [|y l]; [destruct k; discriminate|]. cbn [skipn Nat.add] in *. apply IH. auto.
Qed.
Lemma window_len {A} (l : list A) a n : (a + n <= length l)%nat -> length (window l a n) = n.
Proof. intros H. unfold window. rewrite firstn_length, skipn_length. lia. Qed.
Lemma combine_app {A B} (l1 l2 : list A) (m1 m2 : list B) : length l1 = length m1 -> combine (l1 ++ l2) (m1 ++ m2) = combine l1 m1 ++ combine l2 m2.
Proof. revert m1. induction l1 as [|x l1 IH]; intros [|y m1] H; try discriminate; [reflexivity|]. cbn. f_equal. apply IH. cbn in H. lia. Qed.

Lemma ent_split a k n x : nth_error v (a + k) = Some x -> (a + k + n < length v)%nat ->
  ent a (k + S n) = ent a k ++ (x, Z.of_nat (a + k)) :: ent (S (a + k)) n.
Proof.
  intros H Hl. unfold ent. rewrite (window_split v a k n x H), seq_app, map_app.
  rewrite combine_app by (rewrite window_len, map_length, seq_length; lia). cbn [seq map combine]. reflexivity.
Qed.
Lemma ent_in y i : forall a n, (a + n <= length v)%nat -> In (y, i) (ent a n) -> exists j, i = Z.of_nat j /\ (a <= j < a + n)%nat /\ nth_error v j = Some y.
Proof.
  intros a n. revert a. induction n as [|n IH]; intros a Hl H.
  - unfold ent in H. destruct (window v a 0) in H; destruct H.
  - destruct (nth_error v a) as [x|] eqn:Ex; [|apply nth_error_None in Ex; lia].
    pose proof (ent_split a 0 n x) as S. rewrite Nat.add_0_r in S. cbn [Nat.add] in S. rewrite S in H by (auto; lia).
    apply in_app_iff in H. destruct H as [H|[H|H]].
    + unfold ent in H. destruct (window v a 0) in H; destruct H.
    + inversion H; subst. exists a. split; [auto|]. split; [lia|auto].
    + destruct (IH (Datatypes.S a) ltac:(lia) H) as (j & ? & ? & ?). exists j. split; [auto|]. split; [lia|auto].
Qed.
Lemma ent_snd a n : (a + n <= length v)%nat -> map snd (ent a n) = map Z.of_nat (seq a n).
Proof.
  intros H. unfold ent. pose proof (window_len v a n H) as L. assert (L2 : length (map Z.of_nat (seq a n)) = n) by (rewrite map_length, seq_length; auto).
  revert L L2. generalize (window v a n), (map Z.of_nat (seq a n)). intros l m. revert n H m.
  induction l as [|x l IH]; intros n H [|y m] L L2; cbn in *; try lia; auto. f_equal. destruct n; [lia|]. apply (IH n); lia.
Qed.
Lemma ent_nodup a n : (a + n <= length v)%nat -> NoDup (map snd (ent a n)).
Proof. intros H. rewrite ent_snd by auto. apply FinFun.Injective_map_NoDup; [intros ? ?; lia|apply seq_NoDup]. Qed.
Lemma ent_len a n : (a + n <= length v)%nat -> length (ent a n) = n.
Proof. intros H. rewrite <- (map_length snd), ent_snd, map_length, seq_length; auto. Qed.
Lemma ent_0 a : ent a 0 = [].
Proof. unfold ent. destruct (window v a 0); reflexivity. Qed.

(** ** the queue *)
Definition rng (e : queue_element T) : list (T * Z) := let '(_, _, a, b) := e in ent (Z.to_nat a) (Z.to_nat b + 1 - Z.to_nat a).
Definition qok (e : queue_element T) : Prop := exists a b m x, e = (x, Z.of_nat m, Z.of_nat a, Z.of_nat b) /\
  (b < length v)%nat /\ lm (fun x y => lt y x) v a b m /\ nth_error v m = Some x.

Lemma qok_rng e : qok e -> exists a b m x, e = (x, Z.of_nat m, Z.of_nat a, Z.of_nat b) /\ (a <= m <= b)%nat /\ (b < length v)%nat /\
  nth_error v m = Some x /\ rng e = ent a (m - a) ++ head e :: ent (S m) (b - m).
Proof.
  intros (a & b & m & x & -> & Hb & Hm & Ex). exists a, b, m, x. split; [auto|]. pose proof Hm as (Ham & _). split; [auto|]. split; [auto|]. split; [auto|].
  unfold rng, head. rewrite !Nat2Z.id. replace (b + 1 - a)%nat with ((m - a) + S (b - m))%nat by lia.
  rewrite (ent_split a (m - a) (b - m) x); replace (a + (m - a))%nat with m by lia; auto. lia.
Qed.
Lemma qok_head e f : qok e -> In f (rng e) -> f = head e \/ before lt (head e) f.
Proof.
  intros (a & b & m & x & -> & Hb & (Ham & x' & Ex' & H1 & H2) & Ex) Hf. rewrite Ex in Ex'. inversion Ex'; subst x'.
  unfold rng in Hf. rewrite !Nat2Z.id in Hf. destruct f as [y i]. destruct (ent_in y i a (b + 1 - a) ltac:(lia) Hf) as (j & -> & Hj & Ey).
  unfold head, before; cbn [fst snd]. destruct (lt_eq_lt_dec j m) as [[L| ->]|L].
  - right. left. apply (H1 j); auto. lia.
  - left. congruence.
  - right. pose proof (H2 j y ltac:(lia) Ey) as C. cbv beta in C. destruct (lt y x) eqn:D; [auto|]. right. repeat split; auto. lia.
Qed.

Context (tk : topk_vector T).
Hypothesis Hv : tk_v tk = v.
Hypothesis Hlen : zlen v < 2 ^ 31.
Hypothesis Hct : forall a b, (a <= b)%nat -> (b < length v)%nat ->
  exists m, ct_rmq true (tk_tree tk) (Z.of_nat a) (Z.of_nat b) = Ok (Z.of_nat m) /\ lm (fun x y => lt y x) v a b m.

Lemma new_element a b : (a <= b)%nat -> (b < length v)%nat -> exists m x, ct_rmq true (tk_tree tk) (Z.of_nat a) (Z.of_nat b) = Ok (Z.of_nat m) /\
  rd (tk_v tk) (Z.of_nat m) = Ok x /\ qok (x, Z.of_nat m, Z.of_nat a, Z.of_nat b).
Proof.
  intros Ha Hb. destruct (Hct a b Ha Hb) as (m & E & Hm). destruct (nth_error v m) as [x|] eqn:Ex.
  2:{ destruct Hm as (Hm & _). apply nth_error_None in Ex. lia. }
  exists m, x. split; [auto|]. split.
  - rewrite Hv. unfold rd. rewrite Nat2Z.id, Ex. pose proof Hm as (Hm' & _). unfold zlen. replace ((0 <=? Z.of_nat m) && (Z.of_nat m <? Z.of_nat (length v))) with true by lia. reflexivity.
  - exists a, b, m, x. auto.
Qed.

Definition qinv (q : list (queue_element T)) : Prop := Forall qok q /\ is_heap vic q.

Lemma te_push_ok q a b : qinv q -> (a <= b)%nat -> (b < length v)%nat ->
  exists q', te_push true h tk q (Z.of_nat a) (Z.of_nat b) = Ok q' /\ qinv q' /\ Permutation (flat_map rng q') (flat_map rng q ++ ent a (b + 1 - a)).
Proof.
  intros (HQ & HH) Ha Hb. destruct (new_element a b Ha Hb) as (m & x & E1 & E2 & HE). unfold te_push. rewrite E1. cbn [bind]. rewrite E2. cbn [bind].
  set (e := (x, Z.of_nat m, Z.of_nat a, Z.of_nat b)) in *. destruct (Hpush q e HH) as (H1 & H2). eexists. split; [reflexivity|]. split.
  - split; [|exact H1]. apply (Permutation_Forall (Permutation_sym H2)). apply Forall_app. auto.
  - rewrite (Permutation_flat_map rng H2). rewrite flat_map_app. cbn [flat_map]. rewrite app_nil_r. replace (rng e) with (ent a (b + 1 - a)) by (unfold rng, e; rewrite !Nat2Z.id; reflexivity). reflexivity.
Qed.

(** out: the entries so far *)
Definition inv (a b : nat) (out : list (T * Z)) (q : list (queue_element T)) : Prop :=
  qinv q /\ Permutation (out ++ flat_map rng q) (entries v a b) /\ StronglySorted (before lt) out /\
  forall e f, In e out -> In f (flat_map rng q) -> before lt e f.

Lemma sorted_snoc out e : StronglySorted (before lt) out -> (forall f, In f out -> before lt f e) -> StronglySorted (before lt) (out ++ [e]).
Proof.
  induction 1 as [|f out H IH Hf]; intros G; cbn [app]; [repeat constructor|].
  constructor; [apply IH; intros; apply G; right; auto|]. apply Forall_app. split; [auto|]. constructor; [apply G; left; auto|constructor].
Qed.

Lemma next_ok a b out s : (a <= b)%nat -> (b < length v)%nat -> inv a b out (te_q s) -> te_q s <> [] ->
  exists e s', te_next true h tk s = Ok (true, s') /\ te_cur s' = Some e /\ inv a b (out ++ [e]) (te_q s').
Proof.
  intros Hab Hb ((HQ & HH) & HP & HS & HB) Hne. destruct s as [q cur]; cbn [te_q] in *. destruct q as [|e q]; [congruence|].
  unfold te_next. cbn [te_q]. destruct (Hpop e q HH) as (q1 & -> & HH1 & P1). rewrite rev_unit, removelast_last.
  inversion HQ as [|? ? He HQ']; subst.
  assert (HQ1 : qinv q1) by (split; [apply (Permutation_Forall (Permutation_sym P1)); auto|auto]).
  pose proof (heap_top vic vic_neg e q HH) as Top. pose proof (qok_head e) as Hhd.
  destruct (qok_rng e He) as (a' & b' & m & x & Ee & Hm & Hb' & Ex & Er).
  assert (L : exists q2, (if Z.of_nat m =? Z.of_nat a' then Ok q1 else te_push true h tk q1 (Z.of_nat a') (sub64 (Z.of_nat m) 1)) = Ok q2 /\ qinv q2 /\
    Permutation (flat_map rng q2) (flat_map rng q1 ++ ent a' (m - a'))).
  { destruct (Z.eqb_spec (Z.of_nat m) (Z.of_nat a')).
    - exists q1. replace (m - a')%nat with 0%nat by lia. rewrite ent_0, app_nil_r. auto.
    - rewrite sub64_ok by lia. replace (Z.of_nat m - 1) with (Z.of_nat (m - 1)) by lia.
      destruct (te_push_ok q1 a' (m - 1) HQ1 ltac:(lia) ltac:(lia)) as (q2 & E2 & I2 & P2). replace (m - 1 + 1 - a')%nat with (m - a')%nat in P2 by lia. eauto. }
  destruct L as (q2 & E2 & I2 & P2).
  assert (R : exists q3, (if Z.of_nat m =? Z.of_nat b' then Ok q2 else te_push true h tk q2 (u64 (Z.of_nat m + 1)) (Z.of_nat b')) = Ok q3 /\ qinv q3 /\
    Permutation (flat_map rng q3) (flat_map rng q2 ++ ent (S m) (b' - m))).
  { destruct (Z.eqb_spec (Z.of_nat m) (Z.of_nat b')).
    - exists q2. replace (b' - m)%nat with 0%nat by lia. rewrite ent_0, app_nil_r. auto.
    - unfold zlen in Hlen. rewrite u64_small by lia. replace (Z.of_nat m + 1) with (Z.of_nat (S m)) by lia.
      destruct (te_push_ok q2 (S m) b' I2 ltac:(lia) ltac:(lia)) as (q3 & E3 & I3 & P3). replace (b' + 1 - S m)%nat with (b' - m)%nat in P3 by lia. eauto. }
  destruct R as (q3 & E3 & I3 & P3).
  rewrite Ee. rewrite E2. cbn [bind]. rewrite E3. cbn [bind].
  exists (head e), (mk_te q3 (Some (x, Z.of_nat m))). split; [reflexivity|]. split; [rewrite Ee; reflexivity|]. cbn [te_q].
  assert (PP : Permutation (head e :: flat_map rng q3) (flat_map rng (e :: q))).
  { cbn [flat_map]. rewrite Er, P3, P2, (Permutation_flat_map rng P1).
    transitivity (head e :: (ent a' (m - a') ++ ent (S m) (b' - m)) ++ flat_map rng q).
    - apply perm_skip. rewrite <- app_assoc. apply Permutation_app_comm.
    - rewrite <- !app_assoc. cbn [app]. apply Permutation_middle. }
  assert (ND : NoDup (map snd (out ++ flat_map rng (e :: q)))).
  { apply (Permutation_NoDup (Permutation_map snd (Permutation_sym HP))). apply ent_nodup. lia. }
  (* the head of the top comes before all others *)
  assert (HF : forall f, In f (flat_map rng q3) -> before lt (head e) f).
  { intros f Hf. assert (In f (flat_map rng (e :: q))) as Hf2 by (eapply Permutation_in; [exact PP|right; exact Hf]).
    assert (ND2 : NoDup (map snd (head e :: flat_map rng q3))).
    { apply (Permutation_NoDup (Permutation_map snd (Permutation_sym PP))). rewrite map_app in ND. apply NoDup_app_remove_l in ND. exact ND. }
    cbn [map] in ND2. apply NoDup_cons_iff in ND2. destruct ND2 as [Hni _].
    assert (f <> head e) as Nf by (intros ->; apply Hni, in_map; auto).
    cbn [flat_map] in Hf2. apply in_app_iff in Hf2. destruct Hf2 as [Hf2|Hf2].
    - destruct (Hhd f He Hf2); [congruence|auto].
    - apply in_flat_map in Hf2. destruct Hf2 as (g & Hg & Hfg).
      assert (Hgok : qok g) by (rewrite Forall_forall in HQ'; auto).
      assert (Hg0 : before lt (head e) (head g)).
      { apply vic_before; [apply Top; auto|]. destruct (qok_rng g Hgok) as (? & ? & ? & ? & _ & _ & _ & _ & Eg).
        intros X. cbn [flat_map] in ND. rewrite map_app in ND. apply NoDup_app_remove_l in ND. rewrite map_app, Er, map_app in ND. cbn [map] in ND.
        rewrite <- app_assoc in ND. cbn [app] in ND. apply NoDup_remove_2 in ND. apply ND. rewrite in_app_iff. right. rewrite in_app_iff. right.
        rewrite X. apply in_map. apply in_flat_map. exists g. split; [auto|]. rewrite Eg. apply in_app_iff. right. left. reflexivity. }
      destruct (qok_head g f Hgok Hfg) as [->|Hgf]; [auto|]. eapply before_trans; eauto. }
  assert (HO : forall f, In f out -> before lt f (head e)).
  { intros f Hf. apply HB; [auto|]. eapply Permutation_in; [exact PP|left; reflexivity]. }
  split; [exact I3|]. split; [|split].
  - rewrite <- app_assoc. cbn [app]. rewrite PP. exact HP.
  - apply sorted_snoc; auto.
  - intros g f Hg Hf. apply in_app_iff in Hg. destruct Hg as [Hg|[<-|[]]]; [|auto]. apply HB; [auto|].
    eapply Permutation_in; [exact PP|right; exact Hf].
Qed.

Lemma set_ok a b s : (a <= b)%nat -> (b < length v)%nat -> exists s', te_set true tk s (Z.of_nat a) (Z.of_nat b) = Ok s' /\ inv a b [] (te_q s').
Proof.
  intros Ha Hb. unfold te_set. replace (Z.of_nat a <=? Z.of_nat b) with true by lia. unfold assert_. cbv iota.
  destruct (new_element a b Ha Hb) as (m & x & E1 & E2 & HE). rewrite E1. cbn [bind]. rewrite E2. cbn [bind]. eexists. split; [reflexivity|].
  cbn [te_q te_clear app]. split; [|split; [|split]].
  - split; [constructor; [exact HE|constructor]|apply heap_one].
  - cbn [app flat_map]. rewrite app_nil_r. unfold rng, entries, ent. rewrite !Nat2Z.id. reflexivity.
  - constructor.
  - intros e f [].
Qed.

Lemma inv_len a b out q : (a <= b)%nat -> (b < length v)%nat -> inv a b out q -> (length out <= b + 1 - a)%nat /\ (q = [] <-> length out = (b + 1 - a)%nat).
Proof.
  intros Ha Hb ((HQ & _) & HP & _). apply Permutation_length in HP. rewrite app_length in HP.
  change (entries v a b) with (ent a (b + 1 - a)) in HP. rewrite ent_len in HP by lia. split; [lia|]. split.
  - intros ->. cbn in HP. lia.
  - intros E. destruct q as [|e q]; [auto|]. exfalso. inversion HQ as [|? ? He _]; subst.
    destruct (qok_rng e He) as (? & ? & ? & ? & _ & _ & _ & _ & Er). cbn [flat_map] in HP. rewrite Er, !app_length in HP. cbn [length] in HP. lia.
Qed.

(** run to the end *)
Lemma run_all a b : (a <= b)%nat -> (b < length v)%nat -> forall n out s, inv a b out (te_q s) -> (length out + n = b + 1 - a)%nat ->
  exists r, length r = n /\ ranking lt v a b (out ++ r) /\
  forall k, (k <= n)%nat -> exists s', topk_loop true h tk k s = Ok (map Some (firstn k r), s') /\
    inv a b (out ++ firstn k r) (te_q s').
Proof.
  intros Ha Hb. induction n as [|n IH]; intros out s HI Hn.
  - exists []. split; [auto|]. rewrite app_nil_r. pose proof (inv_len a b out (te_q s) Ha Hb HI) as (_ & EQ).
    pose proof HI as (_ & HP & HS & _). rewrite (proj2 EQ) in HP by lia. cbn in HP. rewrite app_nil_r in HP. split; [split; auto|].
    intros k Hk. replace k with 0%nat by lia. exists s. cbn [firstn topk_loop map]. rewrite app_nil_r. auto.
  - pose proof (inv_len a b out (te_q s) Ha Hb HI) as (_ & EQ).
    destruct (next_ok a b out s Ha Hb HI) as (e & s1 & E1 & Ec & HI1). { intros X. rewrite (proj1 EQ X) in Hn. lia. }
    destruct (IH (out ++ [e]) s1 HI1) as (r & Hr & HR & HK). { rewrite app_length. cbn [length]. lia. }
    exists (e :: r). split; [cbn; lia|]. rewrite <- app_assoc in HR. split; [exact HR|].
    intros [|k] Hk.
    + exists s. cbn [firstn topk_loop map]. rewrite app_nil_r. auto.
    + destruct (HK k ltac:(lia)) as (s2 & E2 & HI2). exists s2. cbn [firstn map topk_loop]. rewrite E1. cbn [bind].
      unfold assert_. cbv iota. rewrite E2. cbn [bind]. rewrite Ec, <- app_assoc in *. auto.
Qed.

Lemma next_end a b out s : (a <= b)%nat -> (b < length v)%nat -> inv a b out (te_q s) -> length out = (b + 1 - a)%nat -> te_next true h tk s = Ok (false, s).
Proof.
  intros Ha Hb HI Hn. pose proof (inv_len a b out (te_q s) Ha Hb HI) as (_ & EQ). unfold te_next. rewrite (proj2 EQ Hn). reflexivity.
Qed.

Lemma topk_all a b : (a <= b)%nat -> (b < length v)%nat -> exists r, ranking lt v a b r /\
  forall k, 0 <= k -> topk true h tk (Z.of_nat a) (Z.of_nat b) k = Ok (map Some (firstn (Z.to_nat k) r)).
Proof.
  intros Ha Hb. destruct (set_ok a b te_new Ha Hb) as (s0 & E0 & HI0).
  destruct (run_all a b Ha Hb (b + 1 - a) [] s0 HI0 eq_refl) as (r & Hr & HR & HK). cbn [app] in *.
  exists r. split; [auto|].
  intros k Hk. unfold topk. rewrite E0. cbn [bind]. unfold zlen in Hlen. rewrite sub64_ok, u64_small by lia.
  set (size := Z.min _ k). destruct (HK (Z.to_nat size) ltac:(lia)) as (s' & E & HI). rewrite E. cbn [bind].
  replace (firstn (Z.to_nat size) r) with (firstn (Z.to_nat k) r) in *.
  2:{ destruct (Z_le_gt_dec k (Z.of_nat b - Z.of_nat a + 1)); [f_equal; lia|]. rewrite !firstn_all2 by lia. reflexivity. }
  destruct (Z.eqb_spec size k); [reflexivity|]. rewrite (next_end a b _ s' Ha Hb HI). 2:{ rewrite firstn_all2; lia. }
  reflexivity.
Qed.

Lemma enum_run a b : (a <= b)%nat -> (b < length v)%nat -> forall n out s, inv a b out (te_q s) -> (length out + n = b + 1 - a)%nat ->
  exists r, length r = n /\ ranking lt v a b (out ++ r) /\
  forall k, te_run true h tk k s = Ok (firstn k (map Some r ++ repeat None k)).
Proof.
  intros Ha Hb. induction n as [|n IH]; intros out s HI Hn.
  - exists []. split; [auto|]. rewrite app_nil_r. pose proof (inv_len a b out (te_q s) Ha Hb HI) as (_ & EQ).
    pose proof HI as (_ & HP & HS & _). rewrite (proj2 EQ) in HP by lia. cbn in HP. rewrite app_nil_r in HP. split; [split; auto|].
    cbn [map app]. intros k. rewrite firstn_all2 by (rewrite repeat_length; lia). induction k as [|k IHk]; [reflexivity|].
    cbn [te_run repeat]. rewrite (next_end a b out s Ha Hb HI) by lia. cbn [bind]. rewrite IHk. reflexivity.
  - pose proof (inv_len a b out (te_q s) Ha Hb HI) as (_ & EQ).
    destruct (next_ok a b out s Ha Hb HI) as (e & s1 & E1 & Ec & HI1). { intros X. rewrite (proj1 EQ X) in Hn. lia. }
    destruct (IH (out ++ [e]) s1 HI1) as (r & Hr & HR & HK). { rewrite app_length. cbn [length]. lia. }
    exists (e :: r). split; [cbn; lia|]. rewrite <- app_assoc in HR. split; [exact HR|].
    intros [|k]; [reflexivity|]. cbn [te_run map app firstn]. rewrite E1. cbn [bind]. rewrite HK, Ec. cbn [bind]. do 2 f_equal.
    cbn [repeat]. rewrite (repeat_cons k None). rewrite app_assoc. set (l := map Some r ++ repeat None k).
    rewrite firstn_app. replace (k - length l)%nat with 0%nat. 2:{ subst l. rewrite app_length, repeat_length. lia. }
    cbn [firstn]. rewrite app_nil_r. reflexivity.
Qed.
Lemma enum_all a b s : (a <= b)%nat -> (b < length v)%nat -> exists s' r, te_set true tk s (Z.of_nat a) (Z.of_nat b) = Ok s' /\
  ranking lt v a b r /\ forall n, te_run true h tk n s' = Ok (firstn n (map Some r ++ repeat None n)).
Proof.
  intros Ha Hb. destruct (set_ok a b s Ha Hb) as (s' & E & HI).
  destruct (enum_run a b Ha Hb (b + 1 - a) [] s' HI eq_refl) as (r & Hr & HR & HK). exists s', r. auto.
Qed.
End Topk.

Lemma ranking_unique {T} (lt : T -> T -> bool) v a b r r' : strict_weak_order lt -> ranking lt v a b r -> ranking lt v a b r' -> r = r'.
Proof.
  intros HO (P1 & S1) (P2 & S2). assert (P : Permutation r r') by (rewrite P1, P2; reflexivity). clear P1 P2.
  revert r' P S2. induction S1 as [|e r S1 IH H1]; intros r' P S2.
  - apply Permutation_nil in P. auto.
  - destruct S2 as [|f r' S2 H2]; [apply Permutation_sym, Permutation_nil in P; discriminate|].
    assert (e = f).
    { rewrite Forall_forall in *. destruct (Permutation_in e P ltac:(left; auto)) as [|He]; [auto|].
      destruct (Permutation_in f (Permutation_sym P) ltac:(left; auto)) as [|Hf]; [auto|]. exfalso.
      pose proof (H1 f Hf) as B1. pose proof (H2 e He) as B2. pose proof (before_trans lt HO e f e B1 B2) as B.
      destruct HO as (I & _). unfold before in B. rewrite I in B. destruct B as [B|(_ & _ & B)]; [congruence|lia]. }
    subst f. f_equal. apply IH; auto. apply Permutation_cons_inv in P. auto.
Qed.

Lemma topk_ok {T} (lt eq : T -> T -> bool) gr uninit (v : list T) h : strict_weak_order lt -> eq_agrees lt eq ->
  push_heap_ok (value_index_comparator lt eq) (push_heap h) -> pop_heap_ok (value_index_comparator lt eq) (pop_heap h) ->
  2 * zlen v + 2 < 2 ^ 31 ->
  exists tk, tk_build gr uninit lt v = Ok tk /\ tk_size tk = zlen v /\
  (forall i x, nth_error v i = Some x -> tk_get tk (Z.of_nat i) = Ok x) /\
  forall a b, (a <= b)%nat -> (b < length v)%nat -> exists r, ranking lt v a b r /\
    (forall k, 0 <= k -> topk true h tk (Z.of_nat a) (Z.of_nat b) k = Ok (map Some (firstn (Z.to_nat k) r))) /\
    (forall s, exists s', te_set true tk s (Z.of_nat a) (Z.of_nat b) = Ok s' /\
      forall n, te_run true h tk n s' = Ok (firstn n (map Some r ++ repeat None n))).
Proof.
  intros HO HE HPu HPo Hn. pose proof (zlen_nonneg v).
  destruct (cartesian_lm (fun x y => lt y x) gr uninit 0 v) as (ct & E & _ & Hct); [|lia|].
  { destruct HO as (I & T0 & N). split; [auto|]. split; [intros x y z A B; exact (T0 z y x B A)|].
    intros x y z A B C D. destruct (N x y z B A D C). auto. }
  unfold tk_build. rewrite E. cbn [bind]. exists (mk_tk v ct). split; [reflexivity|]. split; [reflexivity|]. split.
  { intros i x Hi. unfold tk_get. cbn [tk_v]. unfold rd, zlen. rewrite Nat2Z.id, Hi.
    assert (i < length v)%nat by (apply nth_error_Some; congruence). replace ((0 <=? Z.of_nat i) && (Z.of_nat i <? Z.of_nat (length v))) with true by lia. reflexivity. }
  intros a b Ha Hb.
  destruct (topk_all lt eq h HO HE HPu HPo v (mk_tk v ct) eq_refl ltac:(lia) Hct a b Ha Hb) as (r & HR & HK).
  exists r. split; [auto|]. split; [auto|]. intros s.
  destruct (enum_all lt eq h HO HE HPu HPo v (mk_tk v ct) eq_refl ltac:(lia) Hct a b s Ha Hb) as (s' & r' & Es & HR' & HK').
  rewrite (ranking_unique lt v a b r r' HO HR HR'). eauto.
Qed.

(** a heap for the examples: the sorted array *)
Section SortedHeap.
Context {A : Type} (comp : A -> A -> bool).
Fixpoint insert (x : A) (l : list A) : list A :=
  match l with
  | [] => [x]
  | y :: r => if comp x y then y :: insert x r else x :: l
  end.
Definition sort (l : list A) : list A := fold_right insert [] l.
Definition sorted_heap : heap_ops A :=
  mk_heap A sort (fun l => match l with [] => [] | x :: l => sort l ++ [x] end).

Hypothesis neg_trans : forall x y z, comp x y = false -> comp y z = false -> comp x z = false.
Hypothesis asym : forall x y, comp x y = true -> comp y x = false.

Lemma insert_perm x l : Permutation (insert x l) (x :: l).
Proof. induction l as [|y l IH]; cbn; [auto|]. destruct (comp x y); [|auto]. rewrite IH. apply perm_swap. Qed.
Lemma insert_sorted x l : StronglySorted (fun a b => comp a b = false) l -> StronglySorted (fun a b => comp a b = false) (insert x l).
Proof.
  induction 1 as [|y l H IH Hy]; cbn; [repeat constructor|]. destruct (comp x y) eqn:C.
  - constructor; [exact IH|]. rewrite insert_perm. constructor; auto.
  - constructor; [constructor; auto|]. constructor; [auto|]. rewrite Forall_forall in *. intros z Hz. eapply neg_trans; eauto.
Qed.
Lemma sort_perm l : Permutation (sort l) l.
Proof. induction l as [|x l IH]; cbn; [auto|]. rewrite insert_perm, IH. auto. Qed.
Lemma sort_sorted l : StronglySorted (fun a b => comp a b = false) (sort l).
Proof. induction l as [|x l IH]; cbn; [constructor|]. apply insert_sorted. exact IH. Qed.
Lemma sorted_nth l : StronglySorted (fun a b => comp a b = false) l -> forall i j x y, (i < j)%nat -> nth_error l i = Some x -> nth_error l j = Some y -> comp x y = false.
Proof.
  induction 1 as [|z l H IH Hz]; intros i j x y Hij Ex Ey; [destruct i; discriminate|]. destruct j as [|j]; [lia|]. cbn in Ey.
  destruct i as [|i]; cbn in Ex.
  - inversion Ex; subst. rewrite Forall_forall in Hz. apply Hz. eapply nth_error_In; eauto.
  - apply (IH i j); auto. lia.
Qed.
Lemma sort_heap l : is_heap comp (sort l).
Proof.
  intros i x y Hi Ex Ey. apply (sorted_nth (sort l) (sort_sorted l) ((i - 1) / 2) i); auto.
  pose proof (Nat.div_le_upper_bound (i - 1) 2 (i - 1) ltac:(lia)). lia.
Qed.
Lemma sorted_push : push_heap_ok comp (push_heap sorted_heap).
Proof. intros l x _. split; [apply sort_heap|apply sort_perm]. Qed.
Lemma sorted_pop : pop_heap_ok comp (pop_heap sorted_heap).
Proof. intros x l _. exists (sort l). split; [reflexivity|]. split; [apply sort_heap|apply sort_perm]. Qed.
End SortedHeap.

Lemma eqb_agrees : eq_agrees Z.ltb Z.eqb.
Proof. intros x y. lia. Qed.
Lemma vic_asym (a b : queue_element Z) : value_index_comparator Z.ltb Z.eqb a b = true -> value_index_comparator Z.ltb Z.eqb b a = false.
Proof. destruct a as [[[x i] ?] ?], b as [[[y j] ?] ?]. cbn. lia. Qed.
Lemma z_heap : push_heap_ok (value_index_comparator Z.ltb Z.eqb) (push_heap (sorted_heap (value_index_comparator Z.ltb Z.eqb))) /\
  pop_heap_ok (value_index_comparator Z.ltb Z.eqb) (pop_heap (sorted_heap (value_index_comparator Z.ltb Z.eqb))).
Proof. split; [apply sorted_push|apply sorted_pop]; try (apply (vic_neg Z.ltb Z.eqb ltb_order eqb_agrees)); apply vic_asym. Qed.

Lemma tk_default_size {T} n : tk_size (@tk_default T n) = 0.
Proof. reflexivity. Qed.
