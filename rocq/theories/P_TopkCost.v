(** Proofs about the queries of topk_vector. *)
From Verif Require Import Base Spec Lib M_BitVector M_RsBitVector M_Bp M_Cartesian M_Topk M_TopkCost S_Cartesian S_Topk P_BvLib P_RsBuild P_Cartesian P_Topk.

(** ** without the count *)
Lemma te_push_erase {T} cs h (tk : topk_vector T) q a b : te_push cs h tk q a b = do (q, _) <- te_push_n cs h tk q a b; Ok q.
Proof. unfold te_push, te_push_n. destruct (ct_rmq cs (tk_tree tk) a b) as [m|]; cbn [bind]; [|reflexivity]. destruct (rd (tk_v tk) m); reflexivity. Qed.
Lemma te_next_erase {T} cs h (tk : topk_vector T) s : te_next cs h tk s = do (t, s, _) <- te_next_n cs h tk s; Ok (t, s).
Proof.
  unfold te_next, te_next_n. destruct (te_q s); [reflexivity|]. destruct (rev _) as [|[[[x m] a] b] r]; [reflexivity|].
  rewrite te_push_erase. destruct (m =? a); cbn [bind].
  - rewrite te_push_erase. destruct (m =? b); cbn [bind]; [reflexivity|]. destruct (te_push_n _ _ _ _ _ b) as [[q' c']|]; reflexivity.
  - destruct (te_push_n _ _ _ _ a _) as [[q' c']|]; cbn [bind]; [|reflexivity]. rewrite te_push_erase. destruct (m =? b); cbn [bind]; [reflexivity|].
    destruct (te_push_n _ _ _ _ _ b) as [[q2 c2]|]; reflexivity.
Qed.
Lemma te_set_erase {T} cs (tk : topk_vector T) s a b : te_set cs tk s a b = do (s, _) <- te_set_n cs tk s a b; Ok s.
Proof.
  unfold te_set, te_set_n. destruct (a <=? b); [|reflexivity]. unfold assert_. destruct (ct_rmq cs (tk_tree tk) a b) as [m|]; cbn [bind]; [|reflexivity].
  destruct (rd (tk_v tk) m); reflexivity.
Qed.
Lemma topk_loop_erase {T} cs h (tk : topk_vector T) n : forall s, topk_loop cs h tk n s = do (r, s, _) <- topk_loop_n cs h tk n s; Ok (r, s).
Proof.
  induction n as [|n IH]; intros s; [reflexivity|]. cbn [topk_loop topk_loop_n]. rewrite te_next_erase. destruct (te_next_n cs h tk s) as [[[t s'] c]|]; cbn [bind]; [|reflexivity].
  destruct t; [|reflexivity]. unfold assert_. rewrite IH. destruct (topk_loop_n cs h tk n s') as [[[r s2] c2]|]; reflexivity.
Qed.
Lemma topk_erase {T} cs h (tk : topk_vector T) a b k : topk cs h tk a b k = do (r, _) <- topk_n cs h tk a b k; Ok r.
Proof.
  unfold topk, topk_n. rewrite te_set_erase. destruct (te_set_n cs tk te_new a b) as [[s c]|]; cbn [bind]; [|reflexivity].
  rewrite topk_loop_erase. destruct (topk_loop_n _ _ _ _ s) as [[[r s'] c']|]; cbn [bind]; [|reflexivity]. destruct (_ =? k); [reflexivity|].
  rewrite te_next_erase. destruct (te_next_n cs h tk s') as [[[t s2] c2]|]; cbn [bind]; [|reflexivity]. destruct t; reflexivity.
Qed.

Section Cost.
Context {T : Type} (lt eq : T -> T -> bool) (h : heap_ops (queue_element T)).
Hypothesis Hlt : strict_weak_order lt.
Hypothesis Heq : eq_agrees lt eq.
Let vic := value_index_comparator lt eq.
Hypothesis Hpush : push_heap_ok vic (push_heap h).
Hypothesis Hpop : pop_heap_ok vic (pop_heap h).
Context (v : list T) (tk : topk_vector T).
Hypothesis Hv : tk_v tk = v.
Hypothesis Hlen : zlen v < 2 ^ 31.
Hypothesis Hct : forall a b, (a <= b)%nat -> (b < length v)%nat ->
  exists m, ct_rmq true (tk_tree tk) (Z.of_nat a) (Z.of_nat b) = Ok (Z.of_nat m) /\ lm (fun x y => lt y x) v a b m.

Lemma push_len q a b q' c : is_heap vic q -> te_push_n true h tk q a b = Ok (q', c) -> is_heap vic q' /\ zlen q' = zlen q + c /\ c = 1.
Proof.
  intros H E. unfold te_push_n in E. apply bind_inv in E. destruct E as (m & _ & E). apply bind_inv in E. destruct E as (x & _ & E). injection E as <- <-.
  destruct (Hpush q (x, m, a, b) H) as (H1 & H2). split; [auto|]. split; [|auto].
  pose proof (Permutation_length H2) as L. rewrite app_length in L. cbn [length] in L. unfold zlen, queue_element in *. lia.
Qed.
Lemma next_len s s' c : is_heap vic (te_q s) -> te_next_n true h tk s = Ok (true, s', c) ->
  zlen (te_q s') = zlen (te_q s) - 1 + c /\ 0 <= c <= 2.
Proof.
  intros H E. unfold te_next_n in E. destruct (te_q s) as [|e q]; [discriminate|]. destruct (Hpop e q H) as (q1 & Ep & H1 & P1). rewrite Ep, rev_unit, removelast_last in E.
  destruct e as [[[x m] a] b]. assert (L1 : zlen q1 = zlen q) by (unfold zlen; rewrite (Permutation_length P1); reflexivity). rewrite zlen_cons.
  apply bind_inv in E. destruct E as ([q2 c2] & E2 & E).
  assert (G2 : is_heap vic q2 /\ zlen q2 = zlen q1 + c2 /\ 0 <= c2 <= 1).
  { destruct (m =? a); [injection E2 as <- <-; split; [auto|]; lia|]. destruct (push_len _ _ _ _ _ H1 E2) as (? & ? & ?). split; [auto|]. lia. }
  destruct G2 as (H2 & L2 & C2). apply bind_inv in E. destruct E as ([q3 c3] & E3 & E). injection E as <- <-. cbn [te_q].
  destruct (m =? b); [injection E3 as <- <-; lia|]. destruct (push_len _ _ _ _ _ H2 E3) as (? & ? & ?). lia.
Qed.

Notation pinv := (inv lt eq v).
Lemma next_n_ok a b out s : (a <= b)%nat -> (b < length v)%nat -> pinv a b out (te_q s) -> te_q s <> [] ->
  exists e s' c, te_next_n true h tk s = Ok (true, s', c) /\ te_cur s' = Some e /\ pinv a b (out ++ [e]) (te_q s') /\
  zlen (te_q s') = zlen (te_q s) - 1 + c /\ 0 <= c <= 2.
Proof.
  intros Ha Hb HI Hne. destruct (next_ok lt eq h Hlt Heq Hpush Hpop v tk Hv Hlen Hct a b out s Ha Hb HI Hne) as (e & s' & E & Ec & HI').
  rewrite te_next_erase in E. destruct (te_next_n true h tk s) as [[[t s2] c]|] eqn:En; cbn [bind] in E; [|discriminate]. injection E as -> ->.
  exists e, s', c. split; [auto|]. split; [auto|]. split; [auto|]. apply next_len; auto. apply HI.
Qed.
Lemma queue_fits a b out q : (a <= b)%nat -> (b < length v)%nat -> pinv a b out q -> (length out + length q <= b + 1 - a)%nat.
Proof.
  intros Ha Hb ((HQ & _) & HP & _). apply Permutation_length in HP. rewrite app_length in HP.
  change (entries v a b) with (ent v a (b + 1 - a)) in HP. rewrite ent_len in HP by lia. rewrite <- HP. apply Nat.add_le_mono_l. clear HP.
  induction HQ as [|e q He HQ IH]; [auto|]. cbn [flat_map length]. rewrite app_length. destruct (qok_rng lt v e He) as (? & ? & ? & ? & _ & _ & _ & _ & ->). rewrite app_length. cbn [length]. lia.
Qed.
Lemma set_n_ok a b s : (a <= b)%nat -> (b < length v)%nat ->
  exists s', te_set_n true tk s (Z.of_nat a) (Z.of_nat b) = Ok (s', 1) /\ pinv a b [] (te_q s') /\ zlen (te_q s') = 1.
Proof.
  intros Ha Hb. destruct (set_ok lt eq v tk Hv Hct a b s Ha Hb) as (s' & E & HI). rewrite te_set_erase in E.
  unfold te_set_n in *. destruct (_ <=? _); [|discriminate]. unfold assert_ in *. destruct (ct_rmq _ _ _ _) as [m|]; cbn [bind] in *; [|discriminate]. destruct (rd _ _) as [x|]; cbn [bind] in *; [|discriminate].
  injection E as <-. eexists. split; [reflexivity|]. split; [exact HI|]. reflexivity.
Qed.

Lemma calls_ok a b : (a <= b)%nat -> (b < length v)%nat -> forall n out s, pinv a b out (te_q s) ->
  exists s' c, te_calls_n true h tk n s = Ok (s', c) /\
  zlen (te_q s') = zlen (te_q s) + c - Z.of_nat (Nat.min n (b + 1 - a - length out)) /\ 0 <= c <= 2 * Z.of_nat (Nat.min n (b + 1 - a - length out)) /\
  exists out', pinv a b out' (te_q s') /\ length out' = (length out + Nat.min n (b + 1 - a - length out))%nat.
Proof.
  intros Ha Hb. induction n as [|n IH]; intros out s HI.
  - exists s, 0. split; [reflexivity|]. cbn [Nat.min]. split; [lia|]. split; [lia|]. exists out. split; [auto|lia].
  - cbn [te_calls_n]. pose proof (inv_len lt eq v tk Hct a b out (te_q s) Ha Hb HI) as (LO & EQ).
    destruct (te_q s) as [|e q] eqn:Q.
    + pose proof (proj1 EQ eq_refl) as Lo. rewrite Lo, Nat.sub_diag. replace (te_next_n true h tk s) with (Ok (false, s, 0)) by (unfold te_next_n; rewrite Q; reflexivity).
      cbn [bind]. rewrite <- Q in HI. destruct (IH out s HI) as (s' & c & E & L & C & out' & HI' & L'). rewrite E. cbn [bind]. rewrite Lo, Nat.sub_diag, Nat.min_0_r in *.
      exists s', (0 + c). split; [reflexivity|]. rewrite Q in L. rewrite zlen_nil in *. split; [lia|]. split; [lia|]. exists out'. split; [auto|lia].
    + assert (NE : te_q s <> []) by (rewrite Q; discriminate). rewrite <- Q in HI. destruct (next_n_ok a b out s Ha Hb HI NE) as (f & s1 & c1 & E1 & _ & HI1 & L1 & C1). rewrite E1. cbn [bind].
      destruct (IH _ s1 HI1) as (s' & c & E & L & C & out' & HI' & L'). rewrite E. cbn [bind]. rewrite app_length in *. cbn [length] in *. rewrite <- Q.
      assert (length out <> b + 1 - a)%nat by (intros X; apply EQ in X; discriminate).
      exists s', (c1 + c). split; [reflexivity|]. split; [lia|]. split; [lia|]. exists out'. split; [auto|lia].
Qed.

Lemma loop_ok a b : (a <= b)%nat -> (b < length v)%nat -> forall n out s, pinv a b out (te_q s) -> (length out + n <= b + 1 - a)%nat ->
  exists r s' c, topk_loop_n true h tk n s = Ok (r, s', c) /\ zlen (te_q s') = zlen (te_q s) + c - Z.of_nat n /\ 0 <= c <= 2 * Z.of_nat n /\
  exists out', pinv a b out' (te_q s') /\ length out' = (length out + n)%nat.
Proof.
  intros Ha Hb. induction n as [|n IH]; intros out s HI Hn.
  - exists [], s, 0. split; [reflexivity|]. split; [lia|]. split; [lia|]. exists out. split; [auto|lia].
  - cbn [topk_loop_n]. pose proof (inv_len lt eq v tk Hct a b out (te_q s) Ha Hb HI) as (LO & EQ).
    destruct (next_n_ok a b out s Ha Hb HI) as (e & s1 & c1 & E1 & _ & HI1 & L1 & C1). { intros X. apply EQ in X. lia. }
    rewrite E1. cbn [bind]. unfold assert_. cbv iota. destruct (IH _ s1 HI1) as (r & s' & c & E & L & C & out' & HI' & L'). { rewrite app_length. cbn [length]. lia. }
    rewrite E. cbn [bind]. rewrite app_length in *. cbn [length] in *. eexists _, s', (c1 + c). split; [reflexivity|]. split; [lia|]. split; [lia|]. exists out'. split; [auto|lia].
Qed.

Lemma topk_n_ok a b k : (a <= b)%nat -> (b < length v)%nat -> 0 <= k ->
  exists r c, topk_n true h tk (Z.of_nat a) (Z.of_nat b) k = Ok (r, c) /\ 1 <= c /\ c <= 2 * k + 1 /\ c <= Z.of_nat b - Z.of_nat a + 1.
Proof.
  intros Ha Hb Hk. unfold topk_n. destruct (set_n_ok a b te_new Ha Hb) as (s & Es & HI & L1). rewrite Es. cbn [bind]. unfold zlen in Hlen. rewrite sub64_ok, u64_small by lia.
  set (size := Z.min _ k). destruct (loop_ok a b Ha Hb (Z.to_nat size) [] s HI) as (r & s' & c & E & L & C & out' & HI' & L'). { cbn [length]. lia. }
  rewrite E. cbn [bind]. pose proof (queue_fits a b out' (te_q s') Ha Hb HI') as F. unfold zlen in *. cbn [length] in *.
  destruct (Z.eqb_spec size k) as [S|S].
  - eexists _, _. split; [reflexivity|]. lia.
  - pose proof (inv_len lt eq v tk Hct a b out' (te_q s') Ha Hb HI') as (_ & EQ). assert (Q : te_q s' = []) by (apply EQ; lia).
    replace (te_next_n true h tk s') with (Ok (false, s', 0)) by (unfold te_next_n; rewrite Q; reflexivity). cbn [bind negb]. unfold assert_. cbv iota. eexists _, _. split; [reflexivity|]. lia.
Qed.

Lemma enum_n_ok a b s n : (a <= b)%nat -> (b < length v)%nat ->
  exists s1 s' c, te_set_n true tk s (Z.of_nat a) (Z.of_nat b) = Ok (s1, 1) /\ te_calls_n true h tk n s1 = Ok (s', c) /\
  zlen (te_q s') <= Z.of_nat n + 1 /\ zlen (te_q s') <= Z.max 0 (Z.of_nat b - Z.of_nat a + 1 - Z.of_nat n) /\
  1 + c = zlen (te_q s') + Z.min (Z.of_nat n) (Z.of_nat b - Z.of_nat a + 1).
Proof.
  intros Ha Hb. destruct (set_n_ok a b s Ha Hb) as (s1 & Es & HI & L1). destruct (calls_ok a b Ha Hb n [] s1 HI) as (s' & c & E & L & C & out' & HI' & L').
  exists s1, s', c. split; [auto|]. split; [auto|]. pose proof (queue_fits a b out' (te_q s') Ha Hb HI') as F. unfold zlen in *. cbn [length] in *. lia.
Qed.
End Cost.

Lemma topk_cost {T} (lt eq : T -> T -> bool) gr uninit (v : list T) h : strict_weak_order lt -> eq_agrees lt eq ->
  push_heap_ok (value_index_comparator lt eq) (push_heap h) -> pop_heap_ok (value_index_comparator lt eq) (pop_heap h) ->
  2 * zlen v + 2 < 2 ^ 31 ->
  exists tk, tk_build gr uninit lt v = Ok tk /\
  forall a b, (a <= b)%nat -> (b < length v)%nat ->
    (forall k, 0 <= k -> exists r c, topk_n true h tk (Z.of_nat a) (Z.of_nat b) k = Ok (r, c) /\
       topk true h tk (Z.of_nat a) (Z.of_nat b) k = Ok r /\
       1 <= c /\ c <= 2 * k + 1 /\ c <= Z.of_nat b - Z.of_nat a + 1) /\
    (forall s n, exists s1 s' c, te_set_n true tk s (Z.of_nat a) (Z.of_nat b) = Ok (s1, 1) /\ te_calls_n true h tk n s1 = Ok (s', c) /\
       zlen (te_q s') <= Z.of_nat n + 1 /\ zlen (te_q s') <= Z.max 0 (Z.of_nat b - Z.of_nat a + 1 - Z.of_nat n) /\
       1 + c = zlen (te_q s') + Z.min (Z.of_nat n) (Z.of_nat b - Z.of_nat a + 1)).
Proof.
  intros HO HE HPu HPo Hn. pose proof (zlen_nonneg v).
  destruct (cartesian_lm (fun x y => lt y x) gr uninit 0 v) as (ct & E & _ & Hct); [|lia|].
  { destruct HO as (I & T0 & N). split; [auto|]. split; [intros x y z A B; exact (T0 z y x B A)|].
    intros x y z A B C D. destruct (N x y z B A D C). auto. }
  unfold tk_build. rewrite E. cbn [bind]. exists (mk_tk v ct). split; [reflexivity|]. intros a b Ha Hb. split.
  - intros k Hk. destruct (topk_n_ok lt eq h HO HE HPu HPo v (mk_tk v ct) eq_refl ltac:(lia) Hct a b k Ha Hb Hk) as (r & c & R & B). exists r, c. split; [auto|].
    split; [|auto]. rewrite topk_erase, R. reflexivity.
  - intros s n. apply (enum_n_ok lt eq h HO HE HPu HPo v (mk_tk v ct) eq_refl ltac:(lia) Hct a b s n Ha Hb).
Qed.
Lemma topk_queries {T} (lt eq : T -> T -> bool) gr uninit (v : list T) h : strict_weak_order lt -> eq_agrees lt eq ->
  push_heap_ok (value_index_comparator lt eq) (push_heap h) -> pop_heap_ok (value_index_comparator lt eq) (pop_heap h) ->
  2 * zlen v + 2 < 2 ^ 31 ->
  exists tk, tk_build gr uninit lt v = Ok tk /\
  forall a b k, (a <= b)%nat -> (b < length v)%nat -> 0 <= k -> exists r c, topk_n true h tk (Z.of_nat a) (Z.of_nat b) k = Ok (r, c) /\
    topk true h tk (Z.of_nat a) (Z.of_nat b) k = Ok r /\
    1 <= c /\ c <= 2 * k + 1 /\ c <= Z.of_nat b - Z.of_nat a + 1.
Proof.
  intros HO HE HPu HPo Hn. destruct (topk_cost lt eq gr uninit v h HO HE HPu HPo Hn) as (tk & E & H). exists tk. split; [auto|]. intros a b k Ha Hb. apply (H a b Ha Hb).
Qed.
Lemma enum_queries {T} (lt eq : T -> T -> bool) gr uninit (v : list T) h : strict_weak_order lt -> eq_agrees lt eq ->
  push_heap_ok (value_index_comparator lt eq) (push_heap h) -> pop_heap_ok (value_index_comparator lt eq) (pop_heap h) ->
  2 * zlen v + 2 < 2 ^ 31 ->
  exists tk, tk_build gr uninit lt v = Ok tk /\
  forall a b s n, (a <= b)%nat -> (b < length v)%nat ->
    exists s1 s' c, te_set_n true tk s (Z.of_nat a) (Z.of_nat b) = Ok (s1, 1) /\ te_calls_n true h tk n s1 = Ok (s', c) /\
    zlen (te_q s') <= Z.of_nat n + 1 /\ zlen (te_q s') <= Z.max 0 (Z.of_nat b - Z.of_nat a + 1 - Z.of_nat n) /\
    1 + c = zlen (te_q s') + Z.min (Z.of_nat n) (Z.of_nat b - Z.of_nat a + 1).
Proof.
  intros HO HE HPu HPo Hn. destruct (topk_cost lt eq gr uninit v h HO HE HPu HPo Hn) as (tk & E & H). exists tk. split; [auto|]. intros a b s n Ha Hb. apply (H a b Ha Hb).
Qed.
