(** The test oracles of test_cartesian_tree.cpp, test_topk_vector.cpp and of the lists. *)
From Verif Require Import Base Spec Lib M_Broadword M_BitVector M_RsBitVector M_Bp M_Cartesian M_Topk M_EliasFano M_Gamma M_Tests.
From Verif Require Import S_BitVector S_Cartesian S_Topk S_Gamma P_BvLib P_BvEnum P_BvProps P_BitVector P_Cartesian P_Topk P_Gamma P_EliasFano2 P_Tests1 P_Tests2.

Lemma rd_nth {A} (w : list A) i x : nth_error w i = Some x -> rd w (Z.of_nat i) = Ok x.
Proof.
  intros H. assert (i < length w)%nat by (apply nth_error_Some; congruence). unfold rd, zlen.
  replace ((0 <=? Z.of_nat i) && (Z.of_nat i <? Z.of_nat (length w))) with true by lia. rewrite Nat2Z.id, H. reflexivity.
Qed.

(** ** cartesian_tree *)
Section Ct.
Context {T : Type} (comp : T -> T -> bool) (v : list T).
Hypothesis HO : strict_weak_order comp.

Lemma lm_unique a b m m' : leftmost_min comp v a b m -> leftmost_min comp v a b m' -> m = m'.
Proof.
  intros (A0 & A1 & A2) (B0 & B1 & B2). destruct (Nat.lt_total m m') as [C|[C|C]]; auto.
  - elim (B2 m); auto. lia.
  - elim (A2 m'); auto. lia.
Qed.
Lemma lm_single a x : nth_error v a = Some x -> leftmost_min comp v a a a.
Proof.
  intros Hx. split; [lia|]. split; [|intros; lia]. exists x. split; auto. intros i y Hi Hy.
  replace i with a in Hy by lia. rewrite Hx in Hy. injection Hy as <-. apply HO.
Qed.
Lemma lm_step a b m x y : (a <= b)%nat -> leftmost_min comp v a b m -> nth_error v m = Some x -> nth_error v (S b) = Some y ->
  leftmost_min comp v a (S b) (if comp y x then S b else m).
Proof.
  intros Hab (A0 & (x' & Hx' & A1) & A2) Hx Hy. rewrite Hx in Hx'. injection Hx' as <-.
  destruct HO as (I & Tr & N). destruct (comp y x) eqn:C.
  - split; [lia|]. split.
    + exists y. split; auto. intros i z Hi Hz. destruct (Nat.eq_dec i (S b)) as [->|].
      * rewrite Hy in Hz. injection Hz as <-. apply I.
      * destruct (comp z y) eqn:D; auto. rewrite <- (A1 i z ltac:(lia) Hz). symmetry. apply Tr with y; auto.
    + intros j Hj (z & Hz & Hm). specialize (Hm (S b) y ltac:(lia) Hy). specialize (A1 j z ltac:(lia) Hz).
      assert (C1 : comp z y = false).
      { destruct (comp z y) eqn:D; auto. rewrite <- A1. symmetry. apply Tr with y; auto. }
      assert (C2 : comp x z = false).
      { destruct (comp x z) eqn:D; auto. rewrite <- Hm. symmetry. apply Tr with x; auto. }
      destruct (N y z x Hm C1 A1 C2). congruence.
  - split; [lia|]. split.
    + exists x. split; auto. intros i z Hi Hz. destruct (Nat.eq_dec i (S b)) as [->|].
      * rewrite Hy in Hz. injection Hz as <-. auto.
      * apply (A1 i); auto. lia.
    + intros j Hj (z & Hz & Hm). apply (A2 j Hj). exists z. split; auto. intros i w Hi. apply Hm. lia.
Qed.

Variable tree : bp_vector.
Hypothesis HT : forall a b, (a <= b)%nat -> (b < length v)%nat ->
  exists m, ct_rmq true tree (Z.of_nat a) (Z.of_nat b) = Ok (Z.of_nat m) /\ leftmost_min comp v a b m.

Lemma ct_rmq_loop_ok : forall n a b m x, (a <= b)%nat -> (n + S b)%nat = length v \/ n = 0%nat ->
  leftmost_min comp v a b m -> nth_error v m = Some x ->
  ct_rmq_loop true comp v tree n (Z.of_nat a) (Z.of_nat b + 1) (Z.of_nat m) x = Ok true.
Proof.
  induction n as [|n IH]; intros a b m x Hab Hn HM Hx; cbn [ct_rmq_loop]; auto.
  destruct Hn as [Hn|]; [|discriminate].
  destruct (nth_error v (S b)) as [y|] eqn:Hy; [|apply nth_error_None in Hy; lia].
  replace (Z.of_nat b + 1) with (Z.of_nat (S b)) by lia. rewrite (rd_nth v (S b) y Hy). cbn [bind].
  pose proof (lm_step a b m x y Hab HM Hx Hy) as HM'.
  destruct (HT a (S b) ltac:(lia) ltac:(lia)) as (m' & -> & HM''). cbn [bind].
  rewrite (lm_unique _ _ _ _ HM'' HM').
  replace (if comp y x then Z.of_nat (S b) else Z.of_nat m) with (Z.of_nat (if comp y x then S b else m)) by (destruct (comp y x); auto).
  rewrite Z.eqb_refl. apply IH; auto; try lia.
  destruct (comp y x); auto.
Qed.

Lemma ct_rmq_tests_ok : forall tests, Forall (fun a => 0 <= a < zlen v \/ zlen v < a) tests ->
  ct_rmq_tests true comp v tree tests = Ok true.
Proof.
  induction 1 as [|a tests Ha HF IH]; cbn [ct_rmq_tests]; auto.
  destruct (Z.ltb_spec (zlen v) a) as [C|C]; auto. destruct Ha as [Ha|]; [|lia]. unfold zlen in Ha.
  destruct (nth_error v (Z.to_nat a)) as [x|] eqn:Hx; [|apply nth_error_None in Hx; lia].
  rewrite <- (Z2Nat.id a) by lia. set (k := Z.to_nat a) in *.
  rewrite (rd_nth v k x Hx). cbn [bind].
  destruct (HT k k ltac:(lia) ltac:(lia)) as (m & -> & (M & _)). cbn [bind].
  replace m with k by lia. rewrite Z.eqb_refl.
  rewrite (ct_rmq_loop_ok _ k k k x); auto; [unfold zlen; lia|eapply lm_single; eauto].
Qed.
End Ct.

Lemma min_element_range {T} (comp : T -> T -> bool) : forall v i best x, 0 <= best < i ->
  0 <= min_element comp v i best x < i + zlen v.
Proof.
  induction v as [|y v IH]; intros i best x H; cbn [min_element]; [change (zlen (@nil T)) with 0; lia|].
  rewrite zlen_cons. destruct (comp y x); [pose proof (IH (i + 1) i y ltac:(lia))|pose proof (IH (i + 1) best x ltac:(lia))]; lia.
Qed.

Lemma test_ct_ok T (comp : T -> T -> bool) gr uninit expected v : strict_weak_order comp -> 2 * zlen v + 2 < 2 ^ 31 ->
  exists ct, ct_build gr uninit comp expected v = Ok ct /\ forall rands,
    test_ct_rmq true comp rands v ct = if zlen v =? 1 then Ub OutOfBounds else Ok true.
Proof.
  intros HO HS. destruct (cartesian_rmq comp gr uninit expected v HO HS) as (ct & E & Sz & HT).
  exists ct. split; [auto|]. intros rands. unfold test_ct_rmq. rewrite Sz, Z.eqb_refl.
  destruct v as [|x rest]; [reflexivity|].
  destruct (Z.eqb_spec (zlen (x :: rest)) 1) as [C|C].
  - rewrite zlen_cons in C. destruct rest as [|y rest]; [|rewrite zlen_cons in C; pose proof (zlen_nonneg rest); lia].
    cbn [app ct_rmq_tests]. change (zlen [x] <? 0) with false. cbn iota. change (rd [x] 0) with (Ok x). cbn [bind].
    destruct (HT 0%nat 0%nat ltac:(auto) ltac:(cbn; auto)) as (m & Em & (M & _)). change (Z.of_nat 0) with 0 in Em. rewrite Em. cbn [bind].
    replace m with 0%nat by lia. change (0 =? Z.of_nat 0) with true. cbn iota.
    change (Z.to_nat (zlen [x] - (0 + 1))) with 0%nat. cbn [ct_rmq_loop bind].
    change (zlen [x] <? 1) with false. cbn iota. reflexivity.
  - apply ct_rmq_tests_ok; auto. rewrite zlen_cons in *. pose proof (zlen_nonneg rest).
    cbn [app]. constructor; [left; lia|]. constructor; [left; lia|]. constructor.
    + left. pose proof (min_element_range comp rest 1 0 x ltac:(lia)). lia.
    + apply Forall_map, Forall_forall. intros r _. left. apply Z.mod_pos_bound. lia.
Qed.

(** ** topk_vector *)
Lemma expected_loop_ok {T} (v : list T) : forall n a, (a + n <= length v)%nat ->
  expected_loop v n (Z.of_nat a) = Ok (combine (window v a n) (map Z.of_nat (seq a n))).
Proof.
  induction n as [|n IH]; intros a H; cbn [expected_loop]; [unfold window; reflexivity|].
  destruct (nth_error v a) as [x|] eqn:Hx; [|apply nth_error_None in Hx; lia].
  rewrite (rd_nth v a x Hx). cbn [bind]. replace (Z.of_nat a + 1) with (Z.of_nat (S a)) by lia.
  rewrite IH by lia. cbn [bind]. unfold window. rewrite (skipn_nth x v a) by lia.
  rewrite (nth_error_nth v a x Hx). reflexivity.
Qed.

Section Sorting.
Context {T : Type} (lt eq : T -> T -> bool).
Hypothesis HO : strict_weak_order lt.
Hypothesis HE : eq_agrees lt eq.

Lemma entry_before_spec e f : entry_before lt eq e f = true <-> before lt e f.
Proof.
  unfold entry_before, before. rewrite HE. destruct (lt (fst f) (fst e)), (lt (fst e) (fst f)); cbn; intuition (lia || congruence).
Qed.
Lemma not_before e f : entry_before lt eq e f = false -> snd e <> snd f -> before lt f e.
Proof.
  unfold entry_before, before. rewrite HE. destruct (lt (fst f) (fst e)), (lt (fst e) (fst f)); cbn; intros; try congruence; auto.
  right. split; auto. split; auto. lia.
Qed.

Lemma insert_perm e l : Permutation (insert_entry (entry_before lt eq) e l) (e :: l).
Proof.
  induction l as [|f l IH]; cbn [insert_entry]; auto. destruct (entry_before lt eq e f); auto.
  rewrite IH. apply perm_swap.
Qed.
Lemma insert_sorted e l : StronglySorted (before lt) l -> Forall (fun f => snd e <> snd f) l ->
  StronglySorted (before lt) (insert_entry (entry_before lt eq) e l).
Proof.
  induction 1 as [|f l Hs IH Hf]; intros Hd; cbn [insert_entry]; [repeat constructor|].
  inversion Hd as [|f' l' Hne Hd']; subst. destruct (entry_before lt eq e f) eqn:C.
  - apply entry_before_spec in C. constructor; [constructor; auto|]. constructor; auto.
    eapply Forall_impl; [|exact Hf]. intros g Hg. eapply before_trans; eauto.
  - constructor; [apply IH; auto|]. rewrite Forall_forall in *. intros g Hg.
    apply (Permutation_in _ (insert_perm e l)) in Hg. destruct Hg as [<-|Hg]; [|auto].
    apply not_before; auto.
Qed.
Lemma sort_ok l : NoDup (map snd l) -> Permutation (sort_entries (entry_before lt eq) l) l /\
  StronglySorted (before lt) (sort_entries (entry_before lt eq) l).
Proof.
  induction l as [|e l IH]; intros Hd; cbn [sort_entries fold_right map] in *; [split; constructor|].
  inversion Hd as [|? ? Hn Hd']; subst. destruct (IH Hd') as [P S]. split.
  - rewrite insert_perm. apply perm_skip. exact P.
  - apply insert_sorted; auto. apply Forall_forall. intros f Hf C. apply Hn. rewrite C.
    apply in_map. apply (Permutation_in _ P). exact Hf.
Qed.

Lemma entries_indices (v : list T) a b : NoDup (map snd (entries v a b)).
Proof.
  unfold entries. set (n := (b + 1 - a)%nat).
  assert (H : forall (l : list T) (m : list Z), NoDup m -> NoDup (map snd (combine l m))).
  { induction l as [|x l IH]; intros [|y m] Hm; cbn; try constructor.
    - inversion Hm; subst. intros C. apply H1. apply in_map_iff in C. destruct C as ([x' y'] & <- & C). eapply in_combine_r; eauto.
    - apply IH. inversion Hm; auto. }
  apply H. apply FinFun.Injective_map_NoDup; [intros x y; apply Nat2Z.inj|apply seq_NoDup].
Qed.
Lemma sort_ranking v a b : ranking lt v a b (sort_entries (entry_before lt eq) (entries v a b)).
Proof. destruct (sort_ok (entries v a b) (entries_indices v a b)). split; auto. Qed.

Lemma same_self r : same_entries eq r (map Some r) = true.
Proof.
  induction r as [|e r IH]; cbn; auto. rewrite HE, (proj1 HO), Z.eqb_refl, IH. reflexivity.
Qed.
End Sorting.

Lemma firstn_min {A} (l : list A) k : 0 <= k -> firstn (Z.to_nat (Z.min (zlen l) k)) l = firstn (Z.to_nat k) l.
Proof.
  intros Hk. unfold zlen. destruct (Z.le_ge_cases (Z.of_nat (length l)) k).
  - rewrite Z.min_l by lia. rewrite !firstn_all2; auto; lia.
  - rewrite Z.min_r by lia. reflexivity.
Qed.

Lemma test_topk_ok T (lt eq : T -> T -> bool) gr uninit (v : list T) h : strict_weak_order lt -> eq_agrees lt eq ->
  push_heap_ok (value_index_comparator lt eq) (push_heap h) -> pop_heap_ok (value_index_comparator lt eq) (pop_heap h) ->
  2 * zlen v + 2 < 2 ^ 31 ->
  exists tk, tk_build gr uninit lt v = Ok tk /\ forall rands, test_topk true lt eq h v tk rands = Ok true.
Proof.
  intros HO HE H1 H2 HS. destruct (topk_ok lt eq gr uninit v h HO HE H1 H2 HS) as (tk & E & Sz & _ & HT).
  exists tk. split; [auto|]. intros rands. unfold test_topk. rewrite Sz, Z.eqb_refl.
  destruct (Z.eqb_spec (zlen v) 0) as [|C]; auto. pose proof (zlen_nonneg v).
  induction rands as [|[r1 r2] rands IH]; cbn [topk_tests]; auto.
  pose proof (Z.mod_pos_bound (u64 r1) (zlen v) ltac:(lia)) as Ba.
  set (a := u64 r1 mod zlen v) in *.
  pose proof (Z.mod_pos_bound (u64 r2) (zlen v - a) ltac:(lia)) as Bb.
  set (b := a + u64 r2 mod (zlen v - a)) in *. assert (a <= b < zlen v) by lia. unfold zlen in H0.
  rewrite <- (Z2Nat.id a), <- (Z2Nat.id b) by lia. set (a' := Z.to_nat a) in *. set (b' := Z.to_nat b) in *.
  replace (Z.to_nat (Z.of_nat b' + 1 - Z.of_nat a')) with (b' + 1 - a')%nat by lia.
  rewrite expected_loop_ok by lia. cbn [bind].
  destruct (HT a' b' ltac:(lia) ltac:(lia)) as (r & HR & Hk & _).
  rewrite (Hk 10) by lia. cbn [bind]. fold (entries v a' b').
  rewrite (ranking_unique lt v a' b' _ r HO (sort_ranking lt eq HO HE v a' b') HR), firstn_min by lia.
  rewrite (same_self lt eq HO HE). exact IH.
Qed.

(** ** lists *)
Lemma list_loop_ok get ints : (forall i x, nth_error ints i = Some x -> get (Z.of_nat i) = Ok x) ->
  forall v a, ints = a ++ v -> list_loop get v (zlen a) = Ok true.
Proof.
  intros Hg. induction v as [|x v IH]; intros a E; cbn [list_loop]; auto.
  unfold zlen. rewrite (Hg (length a) x) by (subst ints; apply nth_mid). cbn [bind]. rewrite Z.eqb_refl.
  fold (zlen a). rewrite <- (zlen_snoc a x). apply IH. rewrite E. apply app_snoc.
Qed.
Lemma test_list_ok size get ints : size = zlen ints ->
  (forall i x, nth_error ints i = Some x -> get (Z.of_nat i) = Ok x) -> test_list size get ints = Ok true.
Proof.
  intros -> Hg. unfold test_list. rewrite Z.eqb_refl. apply (list_loop_ok get ints Hg ints []). reflexivity.
Qed.

Lemma reposition_ok {A E} (eq : A -> A -> bool) (new : Z -> res E) next (v : list A) : (forall x, eq x x = true) ->
  (forall pos, (pos <= length v)%nat -> exists e, new (Z.of_nat pos) = Ok e /\
     forall x, nth_error v pos = Some x -> exists e', next e = Ok (x, e')) ->
  forall rands e pos, (pos <= length v)%nat -> new (Z.of_nat pos) = Ok e ->
  reposition_loop eq new next v e (Z.of_nat pos) rands = Ok true.
Proof.
  intros Hq HN. induction rands as [|r rands IH]; intros e pos Hp He; cbn [reposition_loop]; auto.
  unfold zlen. destruct (Z.ltb_spec (Z.of_nat pos) (Z.of_nat (length v))) as [C|C]; auto.
  destruct (nth_error v pos) as [x|] eqn:Hx; [|apply nth_error_None in Hx; lia].
  destruct (HN pos Hp) as (e1 & E1 & N1). rewrite He in E1. injection E1 as <-.
  destruct (N1 x Hx) as (e' & ->). cbn [bind]. rewrite (rd_nth v pos x Hx). cbn [bind]. rewrite Hq.
  rewrite P_RsBuild.sub64_ok by lia.
  pose proof (Z.mod_pos_bound (u64 r) (Z.of_nat (length v) - (Z.of_nat pos + 1) + 1) ltac:(lia)) as B.
  set (step := u64 r mod _) in *. rewrite <- (Z2Nat.id (Z.of_nat pos + 1 + step)) by lia.
  destruct (HN (Z.to_nat (Z.of_nat pos + 1 + step)) ltac:(lia)) as (e2 & E2 & _). rewrite E2. cbn [bind].
  apply IH; auto. lia.
Qed.

Lemma test_gv_ok gr ints : Forall (fun x => 0 <= x < 2 ^ 64 - 1) ints -> zlen ints < 2 ^ 57 -> exists g,
  gv_build gr ints = Ok g /\ test_list (gamma_size g) (gv_get g) ints = Ok true /\
  exists e, gv_enum_new g 0 = Ok e /\ forall rands, reposition_loop Z.eqb (gv_enum_new g) (gv_enum_next g) ints e 0 rands = Ok true.
Proof.
  intros HF HL. destruct (gv_all gr ints HF HL) as (g & E & Sz & Hg & He). exists g. split; [auto|].
  split; [apply test_list_ok; auto|].
  assert (HN : forall pos, (pos <= length ints)%nat -> exists e, gv_enum_new g (Z.of_nat pos) = Ok e /\
     forall x, nth_error ints pos = Some x -> exists e', gv_enum_next g e = Ok (x, e')).
  { intros pos Hp. destruct (Nat.eq_dec pos (length ints)) as [->|C].
    - unfold gv_enum_new. rewrite Sz. unfold zlen. rewrite Z.ltb_irrefl. eexists. split; [reflexivity|].
      intros x Hx. assert (length ints < length ints)%nat by (apply nth_error_Some; congruence). lia.
    - destruct (He pos ltac:(lia)) as (e & Ee & Hr). exists e. split; [auto|]. intros x Hx. specialize (Hr 1%nat ltac:(lia)).
      cbn [gv_run] in Hr. destruct (gv_enum_next g e) as [[y e']|]; [|discriminate]. cbn [bind] in Hr.
      unfold window in Hr. rewrite (skipn_nth x ints pos) in Hr by lia. cbn in Hr. injection Hr as Hr.
      rewrite (nth_error_nth ints pos x Hx) in Hr. subst y. eauto. }
  destruct (HN 0%nat ltac:(lia)) as (e & Ee & _). exists e. split; [auto|]. intros rands.
  apply (reposition_ok Z.eqb _ _ ints Z.eqb_refl HN rands e 0%nat); auto. lia.
Qed.

Lemma test_gb_ok gr ints : Forall (fun x => 0 <= x < 2 ^ 64 - 2) ints -> zlen ints < 2 ^ 57 -> exists g,
  gb_build gr ints = Ok g /\ test_list (gamma_size g) (gb_get g) ints = Ok true /\
  exists e, gb_enum_new g 0 = Ok e /\ forall rands, reposition_loop Z.eqb (gb_enum_new g) (gb_enum_next g) ints e 0 rands = Ok true.
Proof.
  intros HF HL. destruct (gb_all gr ints HF HL) as (g & E & Sz & Hg & He). exists g. split; [auto|].
  split; [apply test_list_ok; auto|].
  assert (HN : forall pos, (pos <= length ints)%nat -> exists e, gb_enum_new g (Z.of_nat pos) = Ok e /\
     forall x, nth_error ints pos = Some x -> exists e', gb_enum_next g e = Ok (x, e')).
  { intros pos Hp. destruct (Nat.eq_dec pos (length ints)) as [->|C].
    - unfold gb_enum_new. rewrite Sz. unfold zlen. rewrite Z.ltb_irrefl. eexists. split; [reflexivity|].
      intros x Hx. assert (length ints < length ints)%nat by (apply nth_error_Some; congruence). lia.
    - destruct (He pos ltac:(lia)) as (e & Ee & Hr). exists e. split; [auto|]. intros x Hx. specialize (Hr [GNext] [x]).
      cbn [gop_spec gb_run] in Hr. rewrite (skipn_nth x ints pos) in Hr by lia. rewrite (nth_error_nth ints pos x Hx) in Hr.
      specialize (Hr eq_refl). destruct (gb_enum_next g e) as [[y e']|]; [|discriminate]. cbn [bind] in Hr.
      injection Hr as ->. eauto. }
  destruct (HN 0%nat ltac:(lia)) as (e & Ee & _). exists e. split; [auto|]. intros rands.
  apply (reposition_ok Z.eqb _ _ ints Z.eqb_refl HN rands e 0%nat); auto. lia.
Qed.
