(** The generators on std::vector<char> and on bit_vector_builder, and the tests run on their output. *)
From Verif Require Import Base Spec Lib M_Broadword M_BitVector M_RsBitVector M_Bp M_Gen M_Tests.
From Verif Require Import S_Bp S_BitVector P_BvLib P_RsBuild P_Builder P_BitVector P_BpSpec P_BpRmq P_Tests1 P_Tests2 P_Tests4 P_Gen.

Lemma gen_vector rm rnd v : (forall size, 2 <= size < 2 ^ 64 -> size mod 2 = 0 ->
    exists u, random_binary_tree vpush rnd v size = Ok (v ++ true :: u ++ [false]) /\ bal u /\ zlen u + 2 = size) /\
  (forall size, 1 <= size < 2 ^ 31 ->
    exists u, random_bp vpush rm rnd v size = Ok (v ++ true :: u ++ [false]) /\ bal u /\ size + 1 <= zlen u + 2 <= 2 * size) /\
  (forall size, 0 <= size -> size mod 2 = 0 ->
    bp_path vpush v size = Ok (v ++ repeat true (Z.to_nat (size / 2)) ++ repeat false (Z.to_nat (size / 2)))).
Proof.
  split; [|split]; intros size.
  - intros H1 H2. destruct (tree_ok _ vpush eq vpush_ok rnd v v size eq_refl H1 H2) as (b & u & E & -> & R). eauto.
  - intros H1. destruct (random_ok _ vpush eq vpush_ok rm rnd v v size eq_refl H1) as (b & u & E & -> & R). eauto.
  - intros H1 H2. destruct (path_ok _ vpush eq vpush_ok v v size eq_refl H1 H2) as (b & E & ->). auto.
Qed.

Lemma gen_builder gr rm rnd : let empty := mk_builder [] 0 0 0 None in
  (forall size, 2 <= size < 2 ^ 64 -> size mod 2 = 0 -> exists b u,
    random_binary_tree (push_back gr) rnd empty size = Ok b /\ bv_of_builder b = Ok (bv_range (true :: u ++ [false])) /\
    bal u /\ zlen u + 2 = size) /\
  (forall size, 1 <= size < 2 ^ 31 -> exists b u,
    random_bp (push_back gr) rm rnd empty size = Ok b /\ bv_of_builder b = Ok (bv_range (true :: u ++ [false])) /\
    bal u /\ size + 1 <= zlen u + 2 <= 2 * size) /\
  (forall size, 0 <= size -> size mod 2 = 0 -> exists b, bp_path (push_back gr) empty size = Ok b /\
    bv_of_builder b = Ok (bv_range (repeat true (Z.to_nat (size / 2)) ++ repeat false (Z.to_nat (size / 2))))).
Proof.
  cbv zeta. pose proof (push_back_ok gr) as P. split; [|split]; intros size.
  - intros H1 H2. destruct (tree_ok _ (push_back gr) binv P rnd _ [] size binv_none H1 H2) as (b & u & E & B & R).
    exists b, u. rewrite bv_range_ok. split; auto. split; auto. apply binv_bv in B. exact B.
  - intros H1. destruct (random_ok _ (push_back gr) binv P rm rnd _ [] size binv_none H1) as (b & u & E & B & R).
    exists b, u. rewrite bv_range_ok. split; auto. split; auto. apply binv_bv in B. exact B.
  - intros H1 H2. destruct (path_ok _ (push_back gr) binv P _ [] size binv_none H1 H2) as (b & E & B).
    exists b. rewrite bv_range_ok. split; auto. apply binv_bv in B. exact B.
Qed.

(** random_bp overflows the int when it only opens *)
Lemma random_overflow_loop B (push : B -> bool -> res B) rm rnd : (forall b x, exists b', push b x = Ok b') -> (forall i, rm / 2 < rnd i) ->
  forall n i b e, 0 <= e < 2 ^ 31 -> 2 ^ 31 <= e + Z.of_nat n -> random_bp_loop push rm rnd n i b e = Ub SignedOverflow.
Proof.
  intros P R. induction n as [|n IH]; intros i b e He Hn; [lia|]. cbn [random_bp_loop].
  replace (rm / 2 <? rnd i) with true by (specialize (R i); lia). rewrite andb_false_r. unfold int32.
  destruct (Z.eq_dec e (2 ^ 31 - 1)) as [->|]; [reflexivity|].
  replace ((- 2 ^ 31 <=? e + 1) && (e + 1 <? 2 ^ 31)) with true by lia. cbn [bind].
  destruct (P b true) as (b' & ->). cbn [bind]. apply IH; lia.
Qed.
Lemma random_overflow rm rnd v size : (forall i, rm / 2 < rnd i) -> 2 ^ 31 <= size -> random_bp vpush rm rnd v size = Ub SignedOverflow.
Proof.
  intros R Hs. unfold random_bp. rewrite random_overflow_loop; auto; try lia. intros; unfold vpush; eauto.
Qed.

Lemma bal_both f uninit rands v : bal v -> zlen v < 2 ^ 31 -> bp_tests (loose_shift f) uninit rands v = Ok true.
Proof.
  intros Hv Hs. destruct (test_parentheses_ok f uninit false false v Hs Hv) as (bp & E & _ & T).
  destruct (test_bp_rmq_ok uninit false false v Hs (bal_prefix_ok v Hv) (or_introl Hv)) as (bp' & E' & T').
  rewrite E in E'. injection E' as <-. unfold bp_tests, then_. rewrite E. cbn [bind]. rewrite T. cbn [bind]. apply T'.
Qed.
Lemma bal_nested n : bal (repeat true n ++ repeat false n).
Proof.
  induction n as [|n IH]; [constructor|]. replace (repeat true (S n) ++ repeat false (S n)) with (true :: (repeat true n ++ repeat false n) ++ [false]).
  - apply bal_wrap. auto.
  - replace (S n) with (n + 1)%nat at 2 by lia. rewrite repeat_app. cbn [repeat app]. rewrite <- app_assoc. reflexivity.
Qed.
Lemma times_path size : 0 <= size -> size mod 2 = 0 -> forall n v, bal v -> exists v',
  bp_paths n v size = Ok v' /\ bal v' /\ zlen v' = zlen v + Z.of_nat n * size.
Proof.
  intros H1 H2. induction n as [|n IH]; intros v Hv; cbn [bp_paths]; [exists v; repeat split; auto; lia|].
  destruct (gen_vector 0 (fun _ => 0) v) as (_ & _ & P). rewrite P by auto. cbn [bind].
  destruct (IH (v ++ repeat true (Z.to_nat (size / 2)) ++ repeat false (Z.to_nat (size / 2)))) as (v' & -> & B' & L').
  { apply bal_app; auto. apply bal_nested. }
  exists v'. split; auto. split; auto. rewrite !zlen_app, !zlen_repeat in L'. rewrite Z2Nat.id in L' by dlia.
  assert (size = size / 2 + size / 2) by dlia. nia.
Qed.
Lemma generated_pass f uninit rm rnd rands :
  (forall size, 2 <= size < 2 ^ 31 -> size mod 2 = 0 -> exists v, random_binary_tree vpush rnd [] size = Ok v /\ bp_tests (loose_shift f) uninit rands v = Ok true) /\
  (forall size, 1 <= size < 2 ^ 30 -> exists v, random_bp vpush rm rnd [] size = Ok v /\ bp_tests (loose_shift f) uninit rands v = Ok true) /\
  (forall n size, 0 <= size -> size mod 2 = 0 -> Z.of_nat n * size < 2 ^ 31 ->
    exists v, bp_paths n [] size = Ok v /\ bp_tests (loose_shift f) uninit rands v = Ok true).
Proof.
  destruct (gen_vector rm rnd []) as (T & R & _). split; [|split].
  - intros size H1 H2. destruct (T size ltac:(lia) H2) as (u & E & B & L). eexists. split; [exact E|]. apply bal_both.
    + apply bal_wrap. auto.
    + cbn [app]. rewrite zlen_cons, zlen_snoc. lia.
  - intros size H1. destruct (R size ltac:(lia)) as (u & E & B & L). eexists. split; [exact E|]. apply bal_both.
    + apply bal_wrap. auto.
    + cbn [app]. rewrite zlen_cons, zlen_snoc. lia.
  - intros n size H1 H2 H3. destruct (times_path size H1 H2 n [] bal_nil) as (v & E & B & L). exists v. split; auto.
    apply bal_both; auto. rewrite L. change (zlen (@nil bool)) with 0. lia.
Qed.
