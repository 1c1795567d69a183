(** Proofs about cartesian_tree. *)
From Verif Require Import Base Spec Lib M_BitVector M_RsBitVector M_Bp M_Cartesian S_Bp S_Cartesian P_RsGen.
From Verif Require Import S_BitVector P_BvLib P_BitVector P_Builder P_RsBuild P_RsQuery P_BpWord P_BpBuild P_BpSearch P_BpSpec P_BpRmq.

Section Cartesian.
Context {T : Type} (comp : T -> T -> bool).

(** the stack *)
Fixpoint dropw (x : T) (s : list T) : list T :=
  match s with
  | [] => []
  | y :: r => if comp x y then dropw x r else s
  end.
Definition step (s : list T) (x : T) : list T := x :: dropw x s.
Definition stk (s v : list T) : list T := fold_left step v s.

Lemma dropw_app_le x u t : exists u' t', dropw x (u ++ t) = u' ++ t' /\ incl u' u /\ (length t' <= length t)%nat.
Proof.
  induction u as [|y u IH]; cbn [app dropw].
  - exists [], (dropw x t). split; [reflexivity|]. split; [intros ? []|].
    induction t as [|y t IHt]; cbn; [lia|]. destruct (comp x y); cbn; lia.
  - destruct (comp x y).
    + destruct IH as (u' & t' & -> & H & L). exists u', t'. split; [reflexivity|]. split; [|auto]. intros z Hz. right. auto.
    + exists (y :: u), t. split; [reflexivity|]. split; [apply incl_refl|lia].
Qed.
Lemma dropw_stop x y u r : comp x y = false -> exists u', dropw x (u ++ y :: r) = u' ++ y :: r.
Proof.
  intros H. induction u as [|z u IH]; cbn [app dropw].
  - rewrite H. exists []. reflexivity.
  - destruct (comp x z); [exact IH|]. exists (z :: u). reflexivity.
Qed.
Lemma dropw_all x u t : Forall (fun y => comp x y = true) u -> dropw x (u ++ t) = dropw x t.
Proof. induction 1 as [|y u H _ IH]; [reflexivity|]. cbn. rewrite H. exact IH. Qed.
Lemma dropw_len x s : (length (dropw x s) <= length s)%nat.
Proof. induction s as [|y s IH]; cbn; [lia|]. destruct (comp x y); cbn; lia. Qed.

Lemma stk_app s v w : stk s (v ++ w) = stk (stk s v) w.
Proof. apply fold_left_app. Qed.

Lemma stk_snoc s v x : stk s (v ++ [x]) = x :: dropw x (stk s v).
Proof. rewrite stk_app. reflexivity. Qed.
Lemma stk_cons s x v : stk s (x :: v) = stk (x :: dropw x s) v.
Proof. reflexivity. Qed.

Lemma stk_above x r w : (forall y, In y w -> comp y x = false) ->
  exists u, stk (x :: r) w = u ++ x :: r /\ (w <> [] -> u <> []).
Proof.
  induction w as [|y w IH] using rev_ind; intros H.
  - exists []. split; [reflexivity|congruence].
  - destruct IH as (u & E & _); [intros z Hz; apply H, in_app_iff; auto|].
    rewrite stk_snoc, E.
    destruct (dropw_stop y x u r) as (u' & ->); [apply H, in_app_iff; cbn; auto|].
    exists (y :: u'). split; [reflexivity|discriminate].
Qed.

Lemma stk_keep (P : T -> Prop) n w : Forall P w -> forall s u t, s = u ++ t -> Forall P u -> (length t <= n)%nat ->
  exists u' t', stk s w = u' ++ t' /\ Forall P u' /\ (length t' <= n)%nat.
Proof.
  induction 1 as [|y w Hy _ IH]; intros s u t -> Hu Ht.
  - exists u, t. auto.
  - rewrite stk_cons. destruct (dropw_app_le y u t) as (u' & t' & -> & Hi & Hl).
    apply (IH _ (y :: u') t'); [reflexivity| |lia]. constructor; [auto|].
    rewrite Forall_forall in *. auto.
Qed.

Lemma stk_pop x s w w2 : w <> [] -> (forall y, In y (w ++ w2) -> comp x y = true) ->
  (length (stk s (w ++ w2 ++ [x])) <= length (stk s w))%nat.
Proof.
  intros Hw H. destruct (exists_last Hw) as (w' & y & ->).
  assert (HP : Forall (fun y => comp x y = true) ((w' ++ [y]) ++ w2)) by (apply Forall_forall; auto).
  apply Forall_app in HP. destruct HP as [HP H2]. apply Forall_app in HP. destruct HP as [H1 Hy]. inversion Hy; subst.
  destruct (stk_keep _ (length s) w' H1 s [] s eq_refl (Forall_nil _) ltac:(lia)) as (u & t & E & Hu & Ht).
  rewrite app_assoc, stk_snoc, (stk_app s (w' ++ [y])), stk_snoc, E.
  destruct (dropw_app_le y u t) as (u' & t' & Ed & Hi & Hl). rewrite Ed.
  assert (Hu' : Forall (fun y => comp x y = true) (y :: u')) by (constructor; auto; rewrite Forall_forall in *; auto).
  destruct (stk_keep _ (length t') w2 H2 _ (y :: u') t' eq_refl Hu' ltac:(lia)) as (u2 & t2 & E2 & Hu2 & Ht2).
  change (y :: u' ++ t') with ((y :: u') ++ t'). rewrite E2. cbn [length].
  rewrite dropw_all by auto. pose proof (dropw_len x t2). rewrite app_length. cbn [length]. lia.
Qed.

(** segments *)
Definition seg (v : list T) (i j : nat) : list T := firstn (j - i) (skipn i v).
Lemma firstn_seg v : forall i j, (i <= j)%nat -> firstn j v = firstn i v ++ seg v i j.
Proof.
  induction v as [|x v IH]; intros [|i] [|j] H; try lia; unfold seg; cbn; try rewrite ?Nat.sub_0_r; try reflexivity.
  - destruct (j - i)%nat; reflexivity.
  - f_equal. apply IH. lia.
Qed.
Lemma seg_in v : forall i j y, In y (seg v i j) -> exists k, (i <= k < j)%nat /\ nth_error v k = Some y.
Proof.
  unfold seg. induction v as [|x v IH]; intros i j y H.
  - rewrite skipn_nil, firstn_nil in H. destruct H.
  - destruct i as [|i].
    + rewrite Nat.sub_0_r in H. destruct j as [|j]; [destruct H|]. cbn in H. destruct H as [<-|H].
      * exists 0%nat. split; [lia|reflexivity].
      * destruct (IH 0%nat j y) as (k & Hk & Ek); [rewrite Nat.sub_0_r; exact H|]. exists (S k). split; [lia|exact Ek].
    + destruct j as [|j]; [destruct H|]. cbn [Nat.sub skipn] in H. destruct (IH i j y H) as (k & Hk & Ek).
      exists (S k). split; [lia|exact Ek].
Qed.
Lemma firstn_next (v : list T) : forall i x, nth_error v i = Some x -> firstn (S i) v = firstn i v ++ [x].
Proof. induction v as [|y v IH]; intros [|i] x H; cbn in *; try discriminate; [congruence|]. f_equal. apply IH. auto. Qed.
Lemma seg_len v i j : (i <= j <= length v)%nat -> length (seg v i j) = (j - i)%nat.
Proof. intros H. unfold seg. rewrite firstn_length, skipn_length. lia. Qed.

(** depth of the stack after i elements *)
Definition dep (v : list T) (i : nat) : Z := Z.of_nat (length (stk [] (firstn i v))).

(** the leftmost minimum, by comparisons with it *)
Definition lm (v : list T) (a b m : nat) : Prop := (a <= m <= b)%nat /\ exists x, nth_error v m = Some x /\
  (forall j y, (a <= j < m)%nat -> nth_error v j = Some y -> comp x y = true) /\
  (forall j y, (m < j <= b)%nat -> nth_error v j = Some y -> comp y x = false).

Lemma dep_after v a b m i : lm v a b m -> (m < i <= b)%nat -> (b < length v)%nat -> dep v (S m) < dep v (S i).
Proof.
  intros (Hm & x & Ex & _ & H) Hi Hb. unfold dep. rewrite (firstn_seg v (S m) (S i)), stk_app by lia.
  rewrite (firstn_next v m x Ex), stk_snoc. set (s := stk [] (firstn m v)).
  destruct (stk_above x (dropw x s) (seg v (S m) (S i))) as (u & E & Hu).
  - intros y Hy. destruct (seg_in _ _ _ _ Hy) as (k & Hk & Ek). apply (H k); [lia|auto].
  - rewrite E, app_length. cbn [length].
    assert (u <> []). { apply Hu. intros E0. pose proof (seg_len v (S m) (S i)) as L. rewrite E0 in L. cbn [length] in L. lia. }
    destruct u; [congruence|]. cbn [length]. lia.
Qed.
Lemma dep_before v a b m j : lm v a b m -> (a <= j < m)%nat -> (b < length v)%nat -> dep v (S m) <= dep v (S j).
Proof.
  intros (Hm & x & Ex & H & _) Hj Hb. unfold dep.
  rewrite (firstn_next v m x Ex), (firstn_seg v (S j) m), (firstn_seg v a (S j)) by lia.
  rewrite <- !app_assoc, !(stk_app [] (firstn a v)). set (s := stk [] (firstn a v)).
  pose proof (stk_pop x s (seg v a (S j)) (seg v (S j) m)) as P. apply inj_le, P.
  - intros E0. pose proof (seg_len v a (S j)) as L. rewrite E0 in L. cbn [length] in L. lia.
  - intros y Hy. apply in_app_iff in Hy. destruct Hy as [Hy|Hy]; destruct (seg_in _ _ _ _ Hy) as (k & Hk & Ek); apply (H k); auto; lia.
Qed.

Lemma lm_exists v a : strict_weak_order comp -> forall n, (a + n < length v)%nat -> exists m, lm v a (a + n) m.
Proof.
  intros (Hi & Ht & Hn). induction n as [|n IH]; intros Hl.
  - exists a. split; [lia|]. destruct (nth_error v a) as [x|] eqn:E; [|apply nth_error_None in E; lia].
    exists x. split; [reflexivity|]. split; intros; lia.
  - destruct IH as (m & Hm & x & Ex & H1 & H2); [lia|].
    destruct (nth_error v (a + S n)) as [z|] eqn:Ez; [|apply nth_error_None in Ez; lia].
    destruct (comp z x) eqn:C.
    + exists (a + S n)%nat. split; [lia|]. exists z. split; [exact Ez|]. split; [|intros; lia].
      intros j y Hj Ey. destruct (lt_eq_lt_dec j m) as [[L| ->]|L].
      * apply (Ht z x y C). apply (H1 j); auto; lia.
      * congruence.
      * assert (D := H2 j y ltac:(lia) Ey).
        destruct (comp z y) eqn:Czy; [reflexivity|]. exfalso.
        assert (Cxy : comp x y = false). { destruct (comp x y) eqn:X; [|reflexivity]. rewrite (Ht z x y C X) in Czy. congruence. }
        assert (Cyz : comp y z = false). { destruct (comp y z) eqn:X; [|reflexivity]. rewrite (Ht y z x X C) in D. congruence. }
        destruct (Hn z y x Czy Cyz D Cxy) as [X _]. congruence.
    + exists m. split; [lia|]. exists x. split; [exact Ex|]. split; [intros j y Hj; apply H1; lia|].
      intros j y Hj Ey. destruct (Nat.eq_dec j (a + S n)) as [->|]; [congruence|]. apply (H2 j); auto; lia.
Qed.
Lemma lm_leftmost v a b m : strict_weak_order comp -> lm v a b m -> leftmost_min comp v a b m.
Proof.
  intros (Hi & Ht & _) (Hm & x & Ex & H1 & H2). split; [exact Hm|]. split.
  - exists x. split; [exact Ex|]. intros i y Hi' Ey. destruct (lt_eq_lt_dec i m) as [[L| ->]|L].
    + destruct (comp y x) eqn:C; [|reflexivity]. rewrite <- (Hi y). symmetry. apply (Ht y x y C). apply (H1 i); auto; lia.
    + rewrite Ex in Ey. inversion Ey; subst. apply Hi.
    + apply (H2 i); auto; lia.
  - intros j Hj (z & Ez & Hz). pose proof (Hz m x ltac:(lia) Ex) as A. rewrite (H1 j z Hj Ez) in A. discriminate.
Qed.

(** the parentheses: those of the elements, last first *)
Definition pops (s : list T) (x : T) : nat := (length s - length (dropw x s))%nat.
Fixpoint par (s : list T) (v : list T) (acc : list bool) : list bool :=
  match v with
  | [] => acc
  | x :: v => par (step s x) v (repeat true (pops s x) ++ false :: acc)
  end.
Definition pv (v : list T) : list bool := par [] v [].
Definition seq_of (v : list T) : list bool := repeat true (S (length (stk [] v))) ++ false :: pv v.

Lemma par_app v : forall s w acc, par s (v ++ w) acc = par (stk s v) w (par s v acc).
Proof. induction v as [|x v IH]; intros s w acc; [reflexivity|]. cbn [app par]. rewrite IH. reflexivity. Qed.
Lemma pv_snoc v x : pv (v ++ [x]) = repeat true (pops (stk [] v) x) ++ false :: pv v.
Proof. unfold pv. rewrite par_app. reflexivity. Qed.

Lemma E_rep n : E (repeat true n) (Z.of_nat n) = Z.of_nat n.
Proof. rewrite <- (Nat2Z.id n) at 1. apply E_ones. lia. Qed.

Lemma E_app_full l m : E (l ++ m) (zlen (l ++ m)) = E l (zlen l) + E m (zlen m).
Proof.
  pose proof (zlen_nonneg l). pose proof (zlen_nonneg m). rewrite zlen_app, E_app by lia.
  destruct (Z.leb_spec (zlen l + zlen m) (zlen l)).
  - replace (zlen m) with 0 by lia. rewrite E_0, Z.add_0_r. lia.
  - do 2 f_equal. lia.
Qed.
Lemma E_false_full m : E (false :: m) (zlen (false :: m)) = E m (zlen m) - 1.
Proof. pose proof (zlen_nonneg m). rewrite zlen_cons, E_cons by lia. replace (zlen m + 1 - 1) with (zlen m) by lia. lia. Qed.

Lemma pv_shape v : let d := Z.of_nat (length (stk [] v)) in
  zlen (pv v) = 2 * zlen v - d /\ E (pv v) (zlen (pv v)) = - d.
Proof.
  cbv zeta. induction v as [|x v (IH1 & IH2)] using rev_ind; [split; reflexivity|].
  rewrite pv_snoc, stk_snoc. cbn [length].
  pose proof (dropw_len x (stk [] v)) as L. unfold pops. split.
  - rewrite !zlen_app, zlen_repeat, zlen_cons, IH1. change (zlen [x]) with 1. lia.
  - rewrite E_app_full, E_false_full, IH2, zlen_repeat, E_rep. lia.
Qed.

(** the model of the builder *)
Lemma cb_pop_ok gr x : forall s b l, binv b l ->
  exists b', cb_pop gr comp x s b = Ok (dropw x s, b') /\ binv b' (l ++ repeat true (pops s x)).
Proof.
  unfold pops. induction s as [|y s IH]; intros b l HB; cbn [cb_pop dropw].
  - exists b. split; [reflexivity|]. cbn. rewrite app_nil_r. exact HB.
  - destruct (comp x y).
    + destruct (push_back_ok gr b l true HB) as (b1 & -> & HB1). cbn [bind].
      destruct (IH b1 _ HB1) as (b2 & -> & HB2). exists b2. split; [reflexivity|].
      rewrite <- app_assoc in HB2. pose proof (dropw_len x s). replace (length (y :: s) - length (dropw x s))%nat with (S (length s - length (dropw x s))) by (cbn [length]; lia).
      exact HB2.
    + exists b. split; [reflexivity|]. rewrite Nat.sub_diag. cbn. rewrite app_nil_r. exact HB.
Qed.
Lemma rev_ones n : rev (repeat true n) = repeat true n.
Proof. induction n as [|n IH]; [reflexivity|]. cbn [repeat rev]. rewrite IH. symmetry. apply (repeat_cons n true). Qed.

Lemma cb_pushes_ok gr : forall v c l, binv (cb_bp c) (rev l) ->
  exists c', cb_pushes gr comp c v = Ok c' /\ cb_stack c' = stk (cb_stack c) v /\ binv (cb_bp c') (rev (par (cb_stack c) v l)).
Proof.
  induction v as [|x v IH]; intros c l HB.
  - exists c. auto.
  - cbn [cb_pushes]. unfold cb_push. destruct (push_back_ok gr _ _ false HB) as (b1 & -> & HB1). cbn [bind].
    destruct (cb_pop_ok gr x (cb_stack c) b1 _ HB1) as (b2 & -> & HB2). cbn [bind].
    destruct (IH (mk_cb (x :: dropw x (cb_stack c)) b2) (repeat true (pops (cb_stack c) x) ++ false :: l)) as (c' & Ec & Hs & Hb).
    + cbn [cb_bp]. rewrite rev_app_distr. cbn [rev]. rewrite rev_ones. exact HB2.
    + exists c'. auto.
Qed.
Lemma cb_flush_ok gr : forall (s : list T) b l, binv b l ->
  exists b', cb_flush gr s b = Ok b' /\ binv b' (l ++ repeat true (length s)).
Proof.
  induction s as [|y s IH]; intros b l HB; cbn [cb_flush].
  - exists b. split; [reflexivity|]. cbn. rewrite app_nil_r. exact HB.
  - destruct (push_back_ok gr b l true HB) as (b1 & -> & HB1). cbn [bind].
    destruct (IH b1 _ HB1) as (b2 & -> & HB2). exists b2. split; [reflexivity|]. rewrite <- app_assoc in HB2. exact HB2.
Qed.

Lemma ct_build_bits gr uninit e v : exists r, ct_build gr uninit comp e v = r /\ r = bp_build uninit (bv_range (seq_of v)) false true.
Proof.
  eexists. split; [reflexivity|]. unfold ct_build, cb_new.
  destruct (new_builder_ok 0 false ltac:(lia)) as (b0 & -> & HB0). cbn [bind].
  set (b1 := if e =? 0 then b0 else _).
  assert (HB1 : binv b1 []). { subst b1. destruct (e =? 0); [exact HB0|]. apply reserve_ok; [exact HB0|left; reflexivity]. }
  destruct (cb_pushes_ok gr v (mk_cb [] b1) [] HB1) as (c & -> & Hs & HB). cbn [bind]. cbn [cb_stack] in *.
  unfold ct_of_builder, cb_finalize. destruct (push_back_ok gr _ _ false HB) as (b2 & -> & HB2). cbn [bind].
  destruct (cb_flush_ok gr (cb_stack c) b2 _ HB2) as (b3 & -> & HB3). cbn [bind].
  destruct (push_back_ok gr _ _ true HB3) as (b4 & -> & HB4). cbn [bind].
  destruct (reverse_ok _ _ HB4) as (b5 & -> & HB5). cbn [bind]. rewrite (binv_bv _ _ HB5). cbn [bind].
  rewrite bv_range_ok. do 2 f_equal. rewrite Hs, !rev_app_distr, rev_involutive. cbn [rev app]. rewrite rev_ones. reflexivity.
Qed.

(** positions and excess *)
Section Bits.
Context (v : list T).
Let n := zlen v.
Let L := seq_of v.
Definition q (i : nat) : Z := 2 * zlen v + 2 - 2 * Z.of_nat i + dep v i.

Lemma dep_bound i : (i <= length v)%nat -> 0 <= dep v i <= Z.of_nat i.
Proof.
  intros Hi. unfold dep. split; [lia|]. pose proof (pv_shape (firstn i v)) as (H1 & _).
  destruct (pv_shape (firstn i v)) as (_ & H2). pose proof (E_bound (pv (firstn i v)) (zlen (pv (firstn i v))) (zlen_nonneg _)) as B.
  rewrite zlen_firstn in *. unfold zlen in *. lia.
Qed.
Lemma dep_step i : (i < length v)%nat -> dep v (S i) <= dep v i + 1.
Proof.
  intros Hi. unfold dep. destruct (nth_error v i) as [x|] eqn:Ex; [|apply nth_error_None in Ex; lia].
  rewrite (firstn_next v i x Ex), stk_snoc. cbn [length].
  pose proof (dropw_len x (stk [] (firstn i v))). lia.
Qed.

Lemma seq_len : zlen L = 2 * n + 2.
Proof.
  subst L n. unfold seq_of. rewrite zlen_app, zlen_repeat, zlen_cons. destruct (pv_shape v) as (-> & _). lia.
Qed.
Lemma seq_total : E L (zlen L) = 0.
Proof.
  subst L. unfold seq_of. rewrite E_app_full, E_false_full. destruct (pv_shape v) as (_ & ->). rewrite zlen_repeat, E_rep. lia.
Qed.

(** the suffix of the first i elements *)
Lemma suffix i : (i <= length v)%nat -> exists k pre, L = (pre ++ repeat true k) ++ false :: pv (firstn i v) /\
  (if (i <? length v)%nat then zlen pre = q (S i) else pre = []).
Proof.
  intros Hi. assert (A : forall m i, (m + i = length v)%nat -> exists pre, L = pre ++ false :: pv (firstn i v)).
  { induction m as [|m IH]; intros i' Hm.
    - exists (repeat true (S (length (stk [] v)))). rewrite firstn_all2 by lia. reflexivity.
    - destruct (IH (S i')) as (pre & E); [lia|]. destruct (nth_error v i') as [x|] eqn:Ex; [|apply nth_error_None in Ex; lia].
      rewrite (firstn_next v i' x Ex), pv_snoc in E. exists (pre ++ false :: repeat true (pops (stk [] (firstn i' v)) x)).
      rewrite E, <- app_assoc. reflexivity. }
  destruct (Nat.ltb_spec i (length v)) as [H|H].
  - destruct (A (length v - S i)%nat (S i)) as (pre & EL); [lia|]. destruct (nth_error v i) as [x|] eqn:Ex; [|apply nth_error_None in Ex; lia].
    rewrite (firstn_next v i x Ex), pv_snoc in EL. exists (pops (stk [] (firstn i v)) x), (pre ++ [false]). split.
    + rewrite EL, <- !app_assoc. reflexivity.
    + pose proof seq_len as SL. rewrite EL in SL. rewrite zlen_app, zlen_cons, <- pv_snoc, <- (firstn_next v i x Ex) in SL.
      destruct (pv_shape (firstn (S i) v)) as (H1 & _). rewrite H1, zlen_firstn in SL. rewrite zlen_app, zlen_cons, zlen_nil. unfold q, dep. subst n. unfold zlen in *. lia.
  - exists (S (length (stk [] v))), []. split; [|reflexivity]. rewrite firstn_all2 by lia. reflexivity.
Qed.
Lemma suffix_pos i k pre : (i <= length v)%nat -> L = (pre ++ repeat true k) ++ false :: pv (firstn i v) -> zlen pre + Z.of_nat k = q i - 1.
Proof.
  intros Hi HL. pose proof seq_len as SL. rewrite HL, !zlen_app, zlen_repeat, zlen_cons in SL.
  destruct (pv_shape (firstn i v)) as (H1 & _). rewrite H1, zlen_firstn in SL. unfold q, dep. subst n. unfold zlen in *. lia.
Qed.

Lemma E_q i : (i <= length v)%nat -> E L (q i) = dep v i.
Proof.
  intros Hi. destruct (suffix i Hi) as (k & pre & EL & _). pose proof (suffix_pos i k pre Hi EL) as P.
  pose proof seq_total as ST. rewrite EL in *. change (false :: pv (firstn i v)) with ([false] ++ pv (firstn i v)) in *. rewrite app_assoc in *.
  set (l1 := (pre ++ repeat true k) ++ [false]) in *.
  rewrite E_app_full in ST. assert (Z1 : zlen l1 = q i). { subst l1. rewrite !zlen_app, zlen_repeat. change (zlen [false]) with 1. lia. }
  destruct (pv_shape (firstn i v)) as (_ & H2). rewrite H2 in ST. pose proof (zlen_nonneg l1). rewrite E_app by lia. replace (q i <=? zlen l1) with true by lia.
  rewrite Z1 in ST. unfold dep. lia.
Qed.
Lemma bit_q i : (i <= length v)%nat -> zbit L (q i - 1) = false.
Proof.
  intros Hi. destruct (suffix i Hi) as (k & pre & EL & _). pose proof (suffix_pos i k pre Hi EL) as P.
  rewrite EL, zbit_app, zlen_app, zlen_repeat. replace (q i - 1 <? zlen pre + Z.of_nat k) with false by lia.
  replace (q i - 1 - (zlen pre + Z.of_nat k)) with 0 by lia. reflexivity.
Qed.
Lemma bit_ones i p : (i < length v)%nat -> q (S i) <= p < q i - 1 -> zbit L p = true.
Proof.
  intros Hi Hp. destruct (suffix i ltac:(lia)) as (k & pre & EL & Hpre). pose proof (suffix_pos i k pre ltac:(lia) EL) as P.
  replace (i <? length v)%nat with true in Hpre by (symmetry; apply Nat.ltb_lt; lia).
  rewrite EL, !zbit_app, zlen_app, zlen_repeat, zbit_repeat. replace (p <? zlen pre + Z.of_nat k) with true by lia.
  replace (p <? zlen pre) with false by lia. lia.
Qed.
Lemma E_seg i p : (i < length v)%nat -> q (S i) <= p <= q i - 1 -> E L p = dep v (S i) + (p - q (S i)).
Proof.
  intros Hi Hp. pose proof (dep_bound (S i) ltac:(lia)).
  assert (0 <= q (S i)) by (unfold q, zlen; lia).
  replace p with (q (S i) + (p - q (S i))) at 1 by lia. assert (0 <= p - q (S i) <= q i - 1 - q (S i)) by lia.
  revert H1. generalize (p - q (S i)). intros d [Hd0 Hd]. revert Hd.
  apply (natlike_ind (fun d => d <= q i - 1 - q (S i) -> E L (q (S i) + d) = dep v (S i) + d)); [|intros x Hx IH Hx2|exact Hd0].
  - intros _. rewrite Z.add_0_r, E_q by lia. lia.
  - unfold Z.succ in *. rewrite Z.add_assoc, E_succ, IH by lia. rewrite (bit_ones i) by lia. lia.
Qed.
Lemma q_decr i : (i < length v)%nat -> q (S i) <= q i - 1.
Proof. intros Hi. unfold q. pose proof (dep_step i Hi). lia. Qed.
Lemma q_anti i j : (i <= j <= length v)%nat -> q j <= q i.
Proof.
  intros [H1 H2]. induction j as [|j IH]; [replace i with 0%nat by lia; lia|].
  destruct (Nat.eq_dec i (S j)) as [->|]; [lia|]. pose proof (q_decr j). lia.
Qed.
Lemma q_0 : q 0 = zlen L.
Proof. rewrite seq_len. unfold q, dep. subst n. cbn. lia. Qed.
Lemma q_len : q (length v) = 2 + dep v (length v).
Proof. unfold q, zlen. lia. Qed.

Lemma locate a : forall b p, (a <= b <= length v)%nat -> q b <= p <= q a - 1 ->
  exists i, (a <= i < b)%nat /\ q (S i) <= p <= q i - 1.
Proof.
  induction b as [|b IH]; intros p Hb Hp.
  - replace a with 0%nat in Hp by lia. lia.
  - destruct (Nat.eq_dec a (S b)) as [->|]; [lia|].
    destruct (Z_le_gt_dec (q b) p).
    + destruct (IH p ltac:(lia) ltac:(lia)) as (i & Hi & Hq). exists i. split; [lia|auto].
    + exists b. split; [lia|lia].
Qed.

Lemma seq_nonneg : nonneg L.
Proof.
  intros p Hp. pose proof (dep_bound (length v)) as D. pose proof q_len. pose proof q_0.
  destruct (Z_le_gt_dec p (q (length v) - 1)) as [G|G].
  - (* before the first zero *)
    destruct (suffix (length v) ltac:(lia)) as (k & pre & EL & Hpre). rewrite Nat.ltb_irrefl in Hpre. subst pre. cbn [app] in EL.
    pose proof (suffix_pos (length v) k [] ltac:(lia) EL) as P. rewrite zlen_nil in P. rewrite EL, E_app, zlen_repeat by lia.
    replace (p <=? Z.of_nat k) with true by lia. rewrite <- (Nat2Z.id k), E_ones by lia. lia.
  - destruct (Z.eq_dec p (zlen L)) as [->|]; [rewrite seq_total; lia|].
    destruct (locate 0 (length v) p) as (i & Hi & Hq); [lia|lia|]. rewrite (E_seg i) by lia.
    pose proof (dep_bound (S i)). lia.
Qed.
Lemma seq_room : zlen L < 2 ^ 31 -> room L.
Proof.
  intros H p Hp. pose proof (seq_nonneg p Hp). pose proof (E_bound L p). pose proof (E_lip L p (zlen L) ltac:(lia)).
  rewrite seq_total in *. lia.
Qed.

Lemma sel_q i : (i <= length v)%nat -> is_select false L (length v - i) (Z.to_nat (q i - 1)).
Proof.
  intros Hi. pose proof (dep_bound i Hi) as D. pose proof seq_len as SL.
  assert (0 <= q i - 1 < zlen L) by (rewrite SL; unfold q; subst n; unfold zlen; lia). split.
  - rewrite zbit_nth_error by lia. f_equal. apply bit_q. auto.
  - pose proof (E_rank L (q i - 1) ltac:(lia)) as R. pose proof (E_succ L (q i - 1) ltac:(lia)) as S1.
    replace (q i - 1 + 1) with (q i) in S1 by lia. rewrite E_q, bit_q in S1 by auto.
    pose proof (rank_compl L (Z.to_nat (q i - 1))) as C. unfold zlen in *. unfold q in *. unfold zlen in *. lia.
Qed.

(** the last element of the range that leaves the stack smallest *)
Definition last_low (a b m : nat) : Prop := (a <= m <= b)%nat /\
  (forall j, (a <= j <= b)%nat -> dep v (S m) <= dep v (S j)) /\ (forall j, (m < j <= b)%nat -> dep v (S m) < dep v (S j)).
Lemma lm_last_low a b m : (b < length v)%nat -> lm v a b m -> last_low a b m.
Proof.
  intros Hb Hm. pose proof Hm as (H0 & _). split; [exact H0|]. split.
  - intros j Hj. destruct (lt_eq_lt_dec j m) as [[G| ->]|G]; [apply (dep_before v a b); auto; lia|lia|].
    apply Z.lt_le_incl, (dep_after v a b); auto; lia.
  - intros j Hj. apply (dep_after v a b); auto.
Qed.
Lemma last_low_unique a b m m' : last_low a b m -> last_low a b m' -> m = m'.
Proof.
  intros (H0 & H1 & H2) (G0 & G1 & G2). destruct (lt_eq_lt_dec m m') as [[G|G]|G]; [|exact G|]; exfalso.
  - pose proof (H2 m' ltac:(lia)). pose proof (G1 m ltac:(lia)). lia.
  - pose proof (G2 m ltac:(lia)). pose proof (H1 m' ltac:(lia)). lia.
Qed.

Lemma rmq_last bp a b : bp_ok L bp -> (a <= b)%nat -> (b < length v)%nat ->
  exists m, ct_rmq true bp (Z.of_nat a) (Z.of_nat b) = Ok (Z.of_nat m) /\ last_low a b m.
Proof.
  intros HB Hab Hb. pose proof HB as (HR & HL & _).
  unfold ct_rmq. replace (Z.of_nat a <=? Z.of_nat b) with true by lia. unfold assert_ at 1. cbv iota.
  destruct (Z.eqb_spec (Z.of_nat a) (Z.of_nat b)) as [e|Ne].
  { assert (b = a) by lia. subst b. exists a. split; [reflexivity|]. split; [lia|].
    split; intros j Hj; [replace j with a by lia|]; lia. }
  pose proof seq_len as SL.
  assert (HS : bp_size bp = zlen L). { unfold bp_size. pose proof HR as (Hbv & _). rewrite Hbv. reflexivity. }
  assert (Esz : ct_size bp = n).
  { unfold ct_size. rewrite HS, SL. replace (2 * n + 2) with ((n + 1) * 2) by lia. rewrite Z.div_mul by lia. rewrite sub64_ok; subst n; unfold zlen; lia. }
  rewrite Esz. cbv zeta.
  assert (En : n = Z.of_nat (length v)) by reflexivity.
  rewrite !(sub64_ok n) by lia. rewrite (sub64_ok (n - Z.of_nat b)) by lia.
  assert (SQ : forall i, (i <= length v)%nat -> rs_select0 (bp_rs bp) (n - Z.of_nat i) = Ok (q i - 1)).
  { intros i Hi. replace (n - Z.of_nat i) with (Z.of_nat (length v - i)) by lia.
    rewrite rs_select0_eq. rewrite (select_gen_ok true L (bp_rs bp) _ (Z.to_nat (q i - 1)) HR (sel_q i Hi)).
    pose proof (dep_bound i Hi). f_equal. rewrite Z2Nat.id; unfold q; lia. }
  replace (n - Z.of_nat b - 1) with (n - Z.of_nat (S b)) by lia. rewrite SQ by lia. cbn [bind].
  pose proof (dep_bound (S b) ltac:(lia)) as DB. pose proof (dep_bound b ltac:(lia)) as DB0. pose proof (dep_bound a ltac:(lia)) as DA.
  assert (Ent : q (S b) - 1 = 2 * (n - Z.of_nat (S b)) + dep v (S b) + 1) by (unfold q; subst n; lia).
  rewrite (u64_small (2 * (n - Z.of_nat (S b)))), sub64_ok by lia.
  replace (q (S b) - 1 - 2 * (n - Z.of_nat (S b))) with (dep v (S b) + 1) by lia.
  rewrite i32_small by lia. replace (dep v (S b) + 1 - 1) with (dep v (S b)) by lia. rewrite int32_ok by lia. cbn [bind].
  replace (q (S b) - 1 + 1) with (q (S b)) by lia.
  rewrite (excess_ok L) by (auto; lia). cbn [bind].
  rewrite E_q, Z.eqb_refl by lia. unfold assert_ at 1. cbv iota. rewrite !SQ by lia. cbn [bind].
  pose proof (q_anti a b ltac:(lia)) as Qab. pose proof (q_anti 0 a ltac:(lia)) as Q0. rewrite q_0 in Q0.
  assert (Qb : 1 <= q b - 1) by (unfold q; lia).
  destruct (excess_rmq_ok L bp (q b - 1) (q a - 1) HB (seq_room HL) ltac:(lia) ltac:(lia)) as (w & -> & (Hw1 & Hw2 & Hw3)). cbn [bind].
  pose proof (q_decr a ltac:(lia)) as Qd. pose proof (q_anti (S a) b ltac:(lia)) as Qd2.
  (* w is the end of an element *)
  assert (Hwq : exists i, (a <= i < b)%nat /\ w = q (S i)).
  { assert (w <> q b - 1).
    { intros ->. pose proof (Hw2 (q b) ltac:(lia)) as C. pose proof (E_succ L (q b - 1) ltac:(lia)) as S1.
      replace (q b - 1 + 1) with (q b) in S1 by lia. rewrite bit_q in S1 by lia. lia. }
    destruct (locate a b w ltac:(lia) ltac:(lia)) as (i & Hi & Hq). exists i. split; [exact Hi|].
    destruct (Z.eq_dec w (q (S i))) as [|Nw]; [auto|]. exfalso.
    pose proof (q_anti (S i) b ltac:(lia)). pose proof (Hw3 (q (S i)) ltac:(lia)) as C.
    rewrite E_q, (E_seg i) in C by lia. lia. }
  destruct Hwq as (i & Hi & ->). rewrite E_q in * by lia.
  pose proof (dep_bound (S i) ltac:(lia)) as DI.
  (* the minimum over the elements of [a, b) *)
  assert (M1 : forall j, (a <= j < b)%nat -> dep v (S i) <= dep v (S j)).
  { intros j Hj. pose proof (q_anti (S j) b ltac:(lia)). pose proof (q_decr a ltac:(lia)). pose proof (q_anti (S a) (S j) ltac:(lia)).
    pose proof (Hw2 (q (S j)) ltac:(lia)) as C. rewrite E_q in C by lia. exact C. }
  assert (M2 : forall j, (i < j < b)%nat -> dep v (S i) < dep v (S j)).
  { intros j Hj. pose proof (q_anti (S j) b ltac:(lia)). pose proof (q_decr (S i) ltac:(lia)). pose proof (q_anti (S (S i)) (S j) ltac:(lia)).
    pose proof (Hw3 (q (S j)) ltac:(lia)) as C. rewrite E_q in C by lia. exact C. }
  rewrite (u64_small (dep v (S i))), (sub64_ok (q (S i)) (dep v (S i))) by (unfold q; lia).
  replace ((q (S i) - dep v (S i)) / 2) with (n - Z.of_nat i).
  2:{ unfold q. replace (2 * zlen v + 2 - 2 * Z.of_nat (S i) + dep v (S i) - dep v (S i)) with ((zlen v - Z.of_nat i) * 2) by lia. rewrite Z.div_mul by lia. reflexivity. }
  assert (1 <= q (S i)) by (unfold q; clear - En Hi Hb DI; lia).
  rewrite (sub64_ok (q (S i)) 1) by lia. pose proof HR as (Hbv & _). rewrite Hbv, bv_get_ok by lia. cbn [bind].
  rewrite bit_q by lia. unfold assert_ at 1. cbv iota. cbn [negb].
  rewrite sub64_ok by lia. replace (n - (n - Z.of_nat i)) with (Z.of_nat i) by lia.
  exists (if dep v (S b) <=? dep v (S i) then b else i). destruct (Z.leb_spec (dep v (S b)) (dep v (S i))) as [G|G].
  - replace (Z.of_nat a <=? Z.of_nat b) with true by lia. rewrite Z.leb_refl. split; [reflexivity|]. split; [lia|]. split; [|intros; lia].
    intros j Hj. destruct (Nat.eq_dec j b) as [->|]; [lia|]. pose proof (M1 j ltac:(lia)). lia.
  - replace (Z.of_nat a <=? Z.of_nat i) with true by lia. replace (Z.of_nat i <=? Z.of_nat b) with true by lia.
    split; [reflexivity|]. split; [lia|]. split; intros j Hj; (destruct (Nat.eq_dec j b) as [->|]; [lia|]); [apply M1|apply M2]; lia.
Qed.
Lemma rmq_ok bp a b m : bp_ok L bp -> (a <= b)%nat -> (b < length v)%nat -> lm v a b m ->
  ct_rmq true bp (Z.of_nat a) (Z.of_nat b) = Ok (Z.of_nat m).
Proof.
  intros HB Hab Hb Hm. destruct (rmq_last bp a b HB Hab Hb) as (m' & -> & H). f_equal. f_equal.
  apply (last_low_unique a b); [exact H|]. apply lm_last_low; auto.
Qed.
End Bits.

Lemma cartesian_lm gr uninit e v : strict_weak_order comp -> 2 * zlen v + 2 < 2 ^ 31 ->
  exists ct, ct_build gr uninit comp e v = Ok ct /\ ct_size ct = zlen v /\
  forall a b, (a <= b)%nat -> (b < length v)%nat ->
    exists m, ct_rmq true ct (Z.of_nat a) (Z.of_nat b) = Ok (Z.of_nat m) /\ lm v a b m.
Proof.
  intros HO Hn. pose proof (seq_len v) as SL. destruct (ct_build_bits gr uninit e v) as (r & -> & ->).
  destruct (bp_build_ok (seq_of v) uninit false true ltac:(lia) (seq_nonneg v)) as (bp & -> & HB).
  exists bp. split; [reflexivity|]. split.
  - unfold ct_size, bp_size. pose proof HB as ((Hbv & _) & _). rewrite Hbv. cbn [canonical bv_size]. rewrite SL.
    replace (2 * zlen v + 2) with ((zlen v + 1) * 2) by lia. rewrite Z.div_mul by lia. pose proof (zlen_nonneg v). rewrite sub64_ok; lia.
  - intros a b Hab Hb. destruct (lm_exists v a HO (b - a)) as (m & Hm); [lia|]. replace (a + (b - a))%nat with b in Hm by lia.
    exists m. split; [apply (rmq_ok v); auto|auto].
Qed.
Lemma cartesian_rmq gr uninit e v : strict_weak_order comp -> 2 * zlen v + 2 < 2 ^ 31 ->
  exists ct, ct_build gr uninit comp e v = Ok ct /\ ct_size ct = zlen v /\
  forall a b, (a <= b)%nat -> (b < length v)%nat ->
    exists m, ct_rmq true ct (Z.of_nat a) (Z.of_nat b) = Ok (Z.of_nat m) /\ leftmost_min comp v a b m.
Proof.
  intros HO Hn. destruct (cartesian_lm gr uninit e v HO Hn) as (ct & E1 & E2 & H). exists ct. split; [auto|]. split; [auto|].
  intros a b Hab Hb. destruct (H a b Hab Hb) as (m & E & Hm). exists m. split; [auto|]. apply lm_leftmost; auto.
Qed.
End Cartesian.

(** a default tree *)
Lemma ct_default_size n : ct_size (ct_default n) = 2 ^ 64 - 1.
Proof. reflexivity. Qed.

(** orders of the examples *)
Lemma ltb_order : strict_weak_order Z.ltb.
Proof.
  split; [intros; lia|]. split; [intros; lia|]. intros x y z. lia.
Qed.
Lemma gtb_order : strict_weak_order Z.gtb.
Proof.
  split; [intros; lia|]. split; [intros; lia|]. intros x y z. lia.
Qed.
