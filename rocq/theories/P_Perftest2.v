(** The benchmarks of bp_vector and cartesian_tree. *)
From Verif Require Import Base Spec Lib M_Broadword M_BitVector M_RsBitVector M_Bp M_Cartesian M_EliasFano M_Gen.
From Verif Require Import S_BitVector S_Bp S_Cartesian P_BvLib P_BvRank P_BitVector P_RsBuild P_RsQuery P_BpBuild P_BpSearch P_BpSpec P_BpRmq P_Tests1 P_Tests2 P_Gen2 P_Cartesian.
From Verif Require Import M_Perftest S_Perftest P_Perftest.

Definition closes_at (bits : list bool) (n : Z) : Z := Z.of_nat (rank true bits (Z.to_nat n)).
Lemma closes_step bits n x : 0 <= n -> nth_error bits (Z.to_nat n) = Some x -> closes_at bits (n + 1) = closes_at bits n + (if x then 1 else 0).
Proof.
  intros Hn Hx. unfold closes_at. replace (Z.to_nat (n + 1)) with (S (Z.to_nat n)) by lia. rewrite (rank_S true _ _ _ Hx). destruct x; cbn; lia.
Qed.

Section VISIT.
Context (f : Z -> Z -> Z) (bp : bp_vector) (u : list bool) (bits : list bool).
Let l := true :: u ++ [false].
Hypothesis Hu : bal u.
Hypothesis HB : bp_ok l bp.

Lemma node_get cur : 0 <= cur < zlen l -> bv_get (rs_bv (bp_rs bp)) cur = Ok (zbit l cur).
Proof. intros H. destruct HB as ((Hbv & _) & _). rewrite Hbv. apply bv_get_ok. exact H. Qed.
Lemma zlen_l : zlen l = zlen u + 2.
Proof. unfold l. rewrite zlen_cons, zlen_snoc. lia. Qed.
Lemma last_closes : zbit l (zlen l - 1) = false.
Proof.
  rewrite zlen_l. unfold l. replace (zlen u + 2 - 1) with (zlen (true :: u)) by (rewrite zlen_cons; lia).
  change (true :: u ++ [false]) with ((true :: u) ++ false :: []). apply zbit_mid.
Qed.
Lemma inner_close p : 1 <= p < zlen l -> zbit l p = true -> exists m, find_close (loose_shift f) bp p = Ok m /\ p < m < zlen l - 1.
Proof.
  intros Hp Zp. destruct (open_matched l p (bal_wrap u Hu) ltac:(lia) Zp) as (m & HM). exists m. split; [eapply find_close_matches; eauto|].
  pose proof HM as HM'. apply matches_excess in HM'. destruct HM' as (_ & M1 & _ & M2 & _). split; [lia|].
  assert (m < zlen l) by lia. destruct (Z.eq_dec m (zlen l - 1)) as [->|]; [|lia]. exfalso.
  assert (HR : matches l 0 (zlen l - 1)).
  { exists [], u, []. split; [reflexivity|]. split; [exact Hu|]. split; [reflexivity|]. rewrite zlen_l. change (zlen (@nil bool)) with 0. lia. }
  pose proof (matches_unique_open _ _ _ _ HM HR). lia.
Qed.

Lemma visit_node_ok : forall fuel steps cur, 0 <= steps <= zlen bits -> zlen bits - steps <= Z.of_nat fuel -> 1 <= cur < zlen l ->
  exists steps' cur', visit_node (loose_shift f) bp bits fuel steps cur (closes_at bits steps) = Ok (steps', cur', closes_at bits steps') /\
    steps <= steps' <= zlen bits /\ 1 <= cur' < zlen l /\ (zbit l cur = true -> steps < zlen bits -> steps < steps').
Proof.
  assert (LL : zlen l < 2 ^ 31) by (destruct HB as (_ & H & _); exact H).
  induction fuel as [|fuel IH]; intros steps cur Hs Hf Hc; cbn [visit_node]; rewrite node_get by lia; cbn [bind].
  - replace (steps <? zlen bits) with false by lia. rewrite andb_false_r. exists steps, cur. repeat split; auto; lia.
  - destruct (zbit l cur) eqn:Zc; cbn [andb]; [|exists steps, cur; repeat split; auto; try lia; discriminate].
    destruct (Z.ltb_spec steps (zlen bits)) as [L|L]; [|exists steps, cur; repeat split; auto; lia].
    destruct (nth_error bits (Z.to_nat steps)) as [x|] eqn:Ex; [|apply nth_error_None in Ex; unfold zlen in L; lia].
    assert (Rx : rd bits steps = Ok x).
    { unfold rd. replace ((0 <=? steps) && (steps <? zlen bits)) with true by lia. rewrite Ex. reflexivity. }
    rewrite Rx. cbn [bind]. pose proof (closes_step bits steps x ltac:(lia) Ex) as CS. destruct x.
    + destruct (inner_close cur Hc Zc) as (m & -> & Hm). cbn [bind]. rewrite <- CS. unfold u64. rewrite Z.mod_small by lia.
      destruct (IH (steps + 1) (m + 1) ltac:(lia) ltac:(lia) ltac:(lia)) as (s' & c' & E & A & B & _). exists s', c'. rewrite E. repeat split; auto; lia.
    + rewrite Z.add_0_r in CS. rewrite <- CS. assert (cur < zlen l - 1) by (destruct (Z.eq_dec cur (zlen l - 1)) as [->|]; [rewrite last_closes in Zc; discriminate|lia]).
      unfold u64. rewrite Z.mod_small by lia. destruct (IH (steps + 1) (cur + 1) ltac:(lia) ltac:(lia) ltac:(lia)) as (s' & c' & E & A & B & _). exists s', c'. rewrite E. repeat split; auto; lia.
Qed.

Lemma visits_ok : u <> [] -> forall fuel steps foo, 0 <= steps <= zlen bits -> zlen bits - steps <= Z.of_nat fuel -> exists foo',
  visits (loose_shift f) bp bits fuel steps (closes_at bits steps) foo = Ok (zlen bits, closes_at bits (zlen bits), foo') /\
  (steps < zlen bits -> 1 <= foo' < zlen l).
Proof.
  intros N. assert (Z1 : zbit l 1 = true).
  { inversion Hu as [E|v w Hv Hw E]; [congruence|]. unfold l. rewrite <- E. reflexivity. }
  assert (L2 : 2 <= zlen l) by (rewrite zlen_l; pose proof (zlen_nonneg u); lia).
  induction fuel as [|fuel IH]; intros steps foo Hs Hf; cbn [visits].
  - replace (steps <? zlen bits) with false by lia. exists foo. replace (zlen bits) with steps by lia. split; [reflexivity|lia].
  - destruct (Z.ltb_spec steps (zlen bits)) as [L|L]; [|exists foo; replace (zlen bits) with steps by lia; split; [reflexivity|lia]].
    destruct (visit_node_ok (length bits) steps 1 Hs ltac:(unfold zlen; lia) ltac:(lia)) as (s' & c' & E & A & B & C). rewrite E. cbn [bind]. specialize (C Z1 L).
    destruct (IH s' c' ltac:(lia) ltac:(lia)) as (foo' & E' & F'). exists foo'. split; [exact E'|]. intros _.
    destruct (Z.eq_dec s' (zlen bits)) as [->|]; [|apply F'; lia]. destruct fuel; cbn [visits] in E'; rewrite Z.ltb_irrefl in E'; injection E' as <-; lia.
Qed.
End VISIT.

Lemma random_bits_len rm rnd n : 0 <= n -> zlen (random_bits rm rnd n) = n.
Proof. intros. unfold random_bits, zlen. rewrite map_length, seq_length. lia. Qed.

Lemma visit_benchmark f gr uninit rm rnd rnd' size sample fuel : 4 <= size < 2 ^ 31 -> size mod 2 = 0 -> 0 <= sample <= Z.of_nat fuel ->
  exists bp foo, build_random_binary_tree gr uninit rnd size = Ok bp /\ bp_size bp = size /\
  time_visit (loose_shift f) fuel rm rnd' bp sample = Ok (Z.of_nat (count true (random_bits rm rnd' sample)), foo) /\
  (0 < sample -> 1 <= foo < size).
Proof.
  intros Hs He Hf. destruct (gen_builder gr rm rnd) as (G & _ & _). destruct (G size ltac:(lia) He) as (b & u & E1 & E2 & Hu & Lu).
  pose proof (zlen_l u) as LL. assert (HN : forall p, 0 <= p <= zlen (true :: u ++ [false]) -> 0 <= E (true :: u ++ [false]) p).
  { apply prefix_ok_nonneg, bal_prefix_ok, bal_wrap, Hu. }
  destruct (bp_build_ok (true :: u ++ [false]) uninit true false ltac:(lia) HN) as (bp & Eb & HB).
  set (bits := random_bits rm rnd' sample). assert (Lb : zlen bits = sample) by (apply random_bits_len; lia).
  destruct (visits_ok f bp u bits Hu HB) with (fuel := fuel) (steps := 0) (foo := 0) as (foo & EV & HF); [intros ->; change (zlen (@nil bool)) with 0 in Lu; lia|lia|lia|].
  exists bp, foo. unfold build_random_binary_tree. rewrite E1. cbn [bind]. rewrite E2. cbn [bind]. split; [exact Eb|].
  split; [unfold bp_size; destruct HB as ((-> & _) & _); unfold bv_size; cbn; lia|].
  unfold time_visit. cbn [timeit]. fold bits. change 0 with (closes_at bits 0) at 2. rewrite EV. cbn [bind]. split; [|intros; lia].
  unfold closes_at. rewrite rank_all by (unfold zlen; lia). reflexivity.
Qed.

Lemma visit_pair_forever sp gr uninit rm rnd rnd' sample fuel : 0 < sample -> exists bp,
  build_random_binary_tree gr uninit rnd 2 = Ok bp /\ time_visit sp fuel rm rnd' bp sample = Ub OutOfFuel.
Proof.
  intros Hs. destruct (gen_builder gr rm rnd) as (G & _ & _). destruct (G 2 ltac:(lia) ltac:(reflexivity)) as (b & u & E1 & E2 & Hu & Lu).
  assert (u = []) by (destruct u; auto; rewrite zlen_cons in Lu; pose proof (zlen_nonneg u); lia). subst u.
  assert (HN : forall p, 0 <= p <= zlen (true :: [] ++ [false]) -> 0 <= E (true :: [] ++ [false]) p).
  { apply prefix_ok_nonneg, bal_prefix_ok, bal_wrap, Hu. }
  destruct (bp_build_ok (true :: [] ++ [false]) uninit true false ltac:(reflexivity) HN) as (bp & Eb & HB).
  exists bp. unfold build_random_binary_tree. rewrite E1. cbn [bind]. rewrite E2. cbn [bind]. split; [exact Eb|].
  set (bits := random_bits rm rnd' sample). assert (Lb : zlen bits = sample) by (apply random_bits_len; lia).
  assert (N : forall k s c, visit_node sp bp bits k s 1 c = Ok (s, 1, c)).
  { intros k s c. destruct k; cbn [visit_node]; rewrite (node_get bp [] HB) by (vm_compute; split; congruence); reflexivity. }
  assert (F : forall n s c foo, s < zlen bits -> visits sp bp bits n s c foo = Ub OutOfFuel).
  { induction n as [|n IH]; intros s c foo H; cbn [visits]; replace (s <? zlen bits) with true by lia; auto. rewrite N. cbn [bind]. auto. }
  unfold time_visit. cbn [timeit]. fold bits. rewrite F by lia. reflexivity.
Qed.

Lemma pairs_sample_ok rnd size : 0 < size < 2 ^ 64 -> forall n i, exists ps, pairs_sample rnd size n i = Ok ps /\ length ps = n /\
  Forall (fun ab => 0 <= fst ab <= snd ab /\ snd ab < size) ps.
Proof.
  intros Hs. induction n as [|n IH]; intros i; cbn [pairs_sample]; [exists []; auto|].
  unfold umod at 1. replace (size =? 0) with false by lia. cbn [bind].
  pose proof (Z.mod_pos_bound (u64 (rnd i)) size ltac:(lia)) as A. set (a := u64 (rnd i) mod size) in *.
  rewrite sub64_ok by lia. unfold umod. replace (size - a =? 0) with false by lia. cbn [bind].
  pose proof (Z.mod_pos_bound (u64 (rnd (S i))) (size - a) ltac:(lia)) as R. set (r := u64 (rnd (S i)) mod (size - a)) in *.
  destruct (IH (S (S i))) as (ps & -> & L & F). cbn [bind]. eexists. split; [reflexivity|]. split; [cbn; lia|]. constructor; auto.
  unfold u64. rewrite Z.mod_small by lia. cbn. lia.
Qed.

Lemma rmq_loop_ok rmq (Q : Z * Z -> Z -> Prop) ps : Forall (fun ab => exists p, rmq (fst ab) (snd ab) = Ok p /\ Q ab p) ps ->
  exists foos, rmq_loop rmq ps = Ok foos /\ Forall2 Q ps foos.
Proof.
  induction 1 as [|(a, b) ps (p & E & H) _ IH]; cbn [rmq_loop]; [exists []; auto|]. cbn in E. rewrite E. destruct IH as (fs & -> & F).
  cbn [bind]. exists (p :: fs). auto.
Qed.

Lemma avg_rmq_ok rmq rnd size sample (Q : Z * Z -> Z -> Prop) : 0 < size < 2 ^ 64 -> 0 <= sample ->
  (forall a b, 0 <= a <= b -> b < size -> exists p, rmq a b = Ok p /\ Q (a, b) p) ->
  exists ps foos, time_avg_rmq rmq rnd size sample = Ok (ps, foos) /\ zlen ps = sample /\
  Forall (fun ab => 0 <= fst ab <= snd ab /\ snd ab < size) ps /\ Forall2 Q ps foos.
Proof.
  intros Hs Hn HQ. destruct (pairs_sample_ok rnd size Hs (Z.to_nat sample) 0) as (ps & Ep & L & F).
  destruct (rmq_loop_ok rmq Q ps) as (fs & Ef & F2).
  { eapply Forall_impl; [|exact F]. intros (a, b). cbn. intros (H1 & H2). apply HQ; lia. }
  exists ps, fs. unfold time_avg_rmq. rewrite Ep. cbn [bind timeit]. rewrite Ef. cbn [bind]. repeat split; auto. unfold zlen. lia.
Qed.

Lemma bp_rmq_benchmark gr uninit rnd rnd' size sample : 2 <= size < 2 ^ 31 -> size mod 2 = 0 -> 0 <= sample ->
  exists builder l ps foos, random_binary_tree (push_back gr) rnd (mk_builder [] 0 0 0 None) size = Ok builder /\
  bv_of_builder builder = Ok (bv_range l) /\ bal l /\ zlen l = size /\
  bp_rmq_run true gr uninit rnd rnd' size sample = Ok (ps, foos) /\ zlen ps = sample /\
  Forall (fun ab => 0 <= fst ab <= snd ab /\ snd ab < size) ps /\
  Forall2 (fun ab p => leftmost_min_depth l (fst ab) (snd ab) p) ps foos.
Proof.
  intros Hs He Hn. destruct (gen_builder gr 0 rnd) as (G & _ & _). destruct (G size ltac:(lia) He) as (b & u & E1 & E2 & Hu & Lu).
  pose proof (zlen_l u) as LL. set (l := true :: u ++ [false]) in *.
  assert (Hl : bal l) by (apply bal_wrap; auto).
  destruct (bp_rmq uninit true false l ltac:(lia) (bal_prefix_ok l Hl) (or_introl Hl)) as (bp & Eb & HQ).
  assert (Sz : bp_size bp = size).
  { destruct (bp_build_ok l uninit true false ltac:(lia) (proj1 (prefix_ok_nonneg l) (bal_prefix_ok l Hl))) as (bp' & Eb' & ((Hbv & _) & _)).
    rewrite Eb in Eb'. injection Eb' as <-. unfold bp_size. rewrite Hbv. unfold bv_size. cbn. lia. }
  destruct (avg_rmq_ok (fun a b => do (p, _) <- excess_rmq true bp a b; Ok p) rnd' size sample
    (fun ab p => leftmost_min_depth l (fst ab) (snd ab) p)) as (ps & fs & E & R); [lia|lia| |].
  { intros a c H1 H2. destruct (HQ a c H1 ltac:(lia)) as (p & -> & H). exists p. auto. }
  exists b, l, ps, fs. unfold bp_rmq_run, build_random_binary_tree. rewrite E1. cbn [bind]. rewrite E2. cbn [bind]. rewrite Eb. cbn [bind]. rewrite Sz, E.
  repeat split; try apply R; auto; lia.
Qed.

Lemma random_values_len rnd n : 0 <= n -> zlen (random_values rnd n) = n.
Proof. intros. unfold random_values, zlen. rewrite map_length, seq_length. lia. Qed.

Lemma ltb_weak_order : strict_weak_order Z.ltb.
Proof. repeat split; intros; lia. Qed.

Lemma ct_rmq_benchmark gr uninit rnd rnd' n sample : 1 <= n -> 2 * n + 2 < 2 ^ 31 -> 0 <= sample ->
  exists ps foos, ct_rmq_run true gr uninit rnd rnd' n sample = Ok (ps, foos) /\ zlen ps = sample /\
  Forall (fun ab => 0 <= fst ab <= snd ab /\ snd ab < n) ps /\
  Forall2 (fun ab p => 0 <= p /\ leftmost_min Z.ltb (random_values rnd n) (Z.to_nat (fst ab)) (Z.to_nat (snd ab)) (Z.to_nat p)) ps foos.
Proof.
  intros H1 H2 Hn. pose proof (random_values_len rnd n ltac:(lia)) as L.
  destruct (cartesian_rmq Z.ltb gr uninit 0 (random_values rnd n) ltb_weak_order ltac:(lia)) as (ct & E & Sz & HQ).
  unfold ct_rmq_run. rewrite E. cbn [bind]. rewrite Sz, L. apply avg_rmq_ok; [lia|lia|]. intros a b Ha Hb.
  destruct (HQ (Z.to_nat a) (Z.to_nat b)) as (m & Em & Hm); [lia|unfold zlen in L; lia|]. rewrite !Z2Nat.id in Em by lia. exists (Z.of_nat m).
  split; [exact Em|]. cbn. rewrite Nat2Z.id. split; [lia|exact Hm].
Qed.

Lemma ct_rmq_empty gr uninit rnd rnd' sample : 0 < sample -> ct_rmq_run true gr uninit rnd rnd' 0 sample = Ub DivByZero.
Proof.
  intros H. destruct (cartesian_rmq Z.ltb gr uninit 0 (random_values rnd 0) ltb_weak_order ltac:(reflexivity)) as (ct & E & Sz & _).
  unfold ct_rmq_run. rewrite E. cbn [bind]. rewrite Sz. unfold time_avg_rmq. destruct (Z.to_nat sample) eqn:N; [lia|]. reflexivity.
Qed.

(** the tree whose right subtrees are empty, and a visit that goes down 62 times and then asks for a close *)
Definition left_path (i : nat) : Z := 127 - 2 * Z.of_nat i.
Definition last_step (i : nat) : Z := if Nat.eqb i 62 then 10 else 0.
Lemma visit_shift : exists gr uninit rnd rnd' rm bp, build_random_binary_tree gr uninit rnd 130 = Ok bp /\
  time_visit strict_shift 63 rm rnd' bp 63 = Ub BadShift.
Proof.
  exists (fun _ n => n), 0, left_path, last_step, 10. eexists. split; [vm_compute; reflexivity|]. vm_compute. reflexivity.
Qed.
