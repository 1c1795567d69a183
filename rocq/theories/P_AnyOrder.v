(** Proofs about cartesian_tree with a comparator that need not be an order. *)
From Verif Require Import Base Spec Lib M_BitVector M_RsBitVector M_Bp M_Cartesian S_BitVector S_Bp S_Cartesian S_AnyOrder.
From Verif Require Import P_BvLib P_BitVector P_Builder P_RsBuild P_RsQuery P_BpWord P_BpBuild P_BpSearch P_BpSpec P_BpRmq P_Cartesian.

Section Any.
Context {T : Type} (comp : T -> T -> bool).
Notation stk := (stk comp).
Notation dropw := (dropw comp).
Notation dep := (dep comp).
Notation last_low := (last_low comp).

Lemma dropw_split x u s : (exists u1 y u2, u = u1 ++ y :: u2 /\ dropw x (u ++ s) = y :: u2 ++ s) \/ dropw x (u ++ s) = dropw x s.
Proof.
  induction u as [|y u IH]; [right; reflexivity|]. cbn [app]. cbn [P_Cartesian.dropw]. destruct (comp x y).
  - destruct IH as [(u1 & z & u2 & -> & E)|E]; [left; exists (y :: u1), z, u2; auto|right; exact E].
  - left. exists [], y, u. auto.
Qed.
Lemma dropw_le x s : (length (dropw x s) <= length s)%nat.
Proof. apply dropw_len. Qed.
Lemma dropw_eq x s : length (dropw x s) = length s -> dropw x s = s.
Proof.
  destruct s as [|y s]; [reflexivity|]. cbn [P_Cartesian.dropw]. destruct (comp x y); [|reflexivity].
  pose proof (dropw_le x s). cbn [length]. lia.
Qed.
Lemma stk_bottom s : forall w, (forall i, (0 < i <= length w)%nat -> (length s < length (stk s (firstn i w)))%nat) -> exists u, stk s w = u ++ s.
Proof.
  induction w as [|x w IH] using rev_ind; intros H; [exists []; reflexivity|].
  destruct IH as (u & E).
  { intros i Hi. specialize (H i). rewrite app_length in H. rewrite firstn_app in H. replace (i - length w)%nat with 0%nat in H by lia.
    cbn [firstn] in H. rewrite app_nil_r in H. apply H. lia. }
  specialize (H (length (w ++ [x]))). rewrite firstn_all in H. rewrite app_length in H. cbn [length] in H. specialize (H ltac:(lia)).
  rewrite stk_snoc, E in *. cbn [length] in H. destruct (dropw_split x u s) as [(u1 & y & u2 & _ & F)|F]; rewrite F in *.
  - exists (x :: y :: u2). reflexivity.
  - exists [x]. rewrite dropw_eq; [reflexivity|]. pose proof (dropw_le x s). lia.
Qed.

Context (v : list T).

(** the element at [b] against the one at [m], between which the stack stays larger *)
Lemma dep_pop m b x y : (m < b < length v)%nat -> nth_error v m = Some x -> nth_error v b = Some y ->
  (forall j, (m < j < b)%nat -> dep v (S m) < dep v (S j)) ->
  (dep v (S b) <= dep v (S m) <-> comp y x = true /\ dep v (S b) <= dep v (S m) + 1).
Proof.
  intros Hmb Ex Ey H. unfold P_Cartesian.dep in *. set (s := stk [] (firstn (S m) v)) in *.
  assert (exists u, stk [] (firstn b v) = u ++ s) as (u & Eu).
  { rewrite (firstn_seg comp v (S m) b), stk_app by lia. apply stk_bottom. intros i Hi. rewrite seg_len in Hi by lia.
    fold s. specialize (H (m + i)%nat ltac:(lia)). rewrite (firstn_seg comp v (S m) (S (m + i))), stk_app in H by lia. fold s in H.
    replace (firstn i (seg v (S m) b)) with (seg v (S m) (S (m + i))); [lia|].
    unfold seg. rewrite firstn_firstn. f_equal. lia. }
  rewrite (firstn_next v b y Ey), stk_snoc, Eu. cbn [length].
  assert (Es : s = x :: dropw x (stk [] (firstn m v))). { unfold s. rewrite (firstn_next v m x Ex), stk_snoc. reflexivity. }
  destruct (dropw_split y u s) as [(u1 & z & u2 & -> & F)|F]; rewrite F.
  - cbn [length]. rewrite app_length. lia.
  - rewrite Es. cbn [P_Cartesian.dropw]. destruct (comp y x); cbn [length].
    + pose proof (dropw_le y (dropw x (stk [] (firstn m v)))). intuition lia.
    + intuition (try congruence; lia).
Qed.

Lemma last_low_exists a : forall b, (a <= b)%nat -> exists m, last_low v a b m.
Proof.
  induction b as [|b IH]; intros H.
  - exists 0%nat. split; [lia|]. split; intros j Hj; [replace j with 0%nat by lia|]; lia.
  - destruct (Nat.eq_dec a (S b)) as [->|]; [exists (S b); split; [lia|]; split; intros j Hj; [replace j with (S b) by lia|]; lia|].
    destruct IH as (m & H0 & H1 & H2); [lia|]. destruct (Z_le_gt_dec (dep v (S (S b))) (dep v (S m))) as [G|G].
    + exists (S b). split; [lia|]. split; [|intros; lia]. intros j Hj. destruct (Nat.eq_dec j (S b)) as [->|]; [lia|]. specialize (H1 j ltac:(lia)). lia.
    + exists m. split; [lia|]. split; intros j Hj; (destruct (Nat.eq_dec j (S b)) as [->|]; [lia|]); [apply H1|apply H2]; lia.
Qed.

Lemma low_takes a b m x y : (S b < length v)%nat -> last_low v a b m -> nth_error v m = Some x -> nth_error v (S b) = Some y ->
  (dep v (S (S b)) <= dep v (S m) <-> comp y x = true /\ last_low v (S m) (S b) (S b)).
Proof.
  intros Hb (H0 & H1 & H2) Ex Ey.
  rewrite (dep_pop m (S b) x y) by (auto; try lia; intros; apply H2; lia).
  assert (Hn : forall c, comp y x = c -> (dep v (S (S b)) <= dep v (S m) + 1 <-> last_low v (S m) (S b) (S b))).
  { intros _ _. destruct (Nat.eq_dec m b) as [->|Nm].
    - split; [intros G; split; [lia|]; split; intros j Hj; [replace j with (S b) by lia|]; lia|].
      intros _. pose proof (dep_step comp v (S b) Hb). lia.
    - split.
      + intros G. split; [lia|]. split; [|intros; lia]. intros j Hj. destruct (Nat.eq_dec j (S b)) as [->|]; [lia|]. specialize (H2 j ltac:(lia)). lia.
      + intros (_ & G & _). specialize (G (S m) ltac:(lia)). pose proof (dep_step comp v (S m) ltac:(lia)). lia. }
  specialize (Hn _ eq_refl). intuition.
Qed.

Lemma low_winner : forall b a m, (b < length v)%nat -> (a <= b)%nat -> last_low v a b m -> winner comp v a b m.
Proof.
  induction b as [|b IH]; intros a m Hb Hab Hm.
  - destruct Hm as (H0 & _). replace m with 0%nat by lia. replace a with 0%nat by lia. constructor.
  - (* by the length of the range *)
    remember (S b - a)%nat as d eqn:Ed. revert a m Hab Hm Ed. induction d as [d IHd] using lt_wf_ind. intros a m Hab Hm Ed.
    destruct (Nat.eq_dec a (S b)) as [->|Na]; [destruct Hm as (H0 & _); replace m with (S b) by lia; constructor|].
    destruct (last_low_exists a b ltac:(lia)) as (k & Hk). pose proof Hk as (K0 & K1 & K2).
    destruct (nth_error v k) as [x|] eqn:Ex; [|apply nth_error_None in Ex; lia].
    destruct (nth_error v (S b)) as [y|] eqn:Ey; [|apply nth_error_None in Ey; lia].
    pose proof (low_takes a b k x y Hb Hk Ex Ey) as TK. pose proof (IH a k ltac:(lia) ltac:(lia) Hk) as W.
    destruct (Z_le_gt_dec (dep v (S (S b))) (dep v (S k))) as [G|G].
    + assert (m = S b) as ->.
      { apply (last_low_unique comp v a (S b)); [exact Hm|]. split; [lia|]. split; [|intros; lia].
        intros j Hj. destruct (Nat.eq_dec j (S b)) as [->|]; [lia|]. specialize (K1 j ltac:(lia)). lia. }
      apply TK in G. destruct G as (C & L). apply (takes_place comp v a b k x y); auto.
      apply (IHd (S b - S k)%nat); auto; lia.
    + assert (m = k) as ->.
      { apply (last_low_unique comp v a (S b)); [exact Hm|]. split; [lia|].
        split; intros j Hj; (destruct (Nat.eq_dec j (S b)) as [->|]; [lia|]); [apply K1|apply K2]; lia. }
      destruct (comp y x) eqn:C; [|apply (keeps_place comp v a b k x y); auto].
      destruct (last_low_exists (S k) (S b) ltac:(lia)) as (l & Hl).
      apply (is_shielded comp v a b k l); [exact W| |].
      * apply (IHd (S b - S k)%nat); auto; lia.
      * intros ->. assert (dep v (S (S b)) <= dep v (S k)) by (apply TK; auto). lia.
Qed.
End Any.

(** the relation determines the answer *)
Lemma winner_range {T} (comp : T -> T -> bool) v a b m : winner comp v a b m -> (a <= m <= b)%nat.
Proof. induction 1; lia. Qed.
Lemma winner_unique {T} (comp : T -> T -> bool) v a b m : winner comp v a b m -> forall m', winner comp v a b m' -> m = m'.
Proof.
  induction 1 as [a|a b m x y W IH Ex Ey C|a b m k W IH W2 IH2 N|a b m x y W IH Ex Ey C W2 IH2]; intros m' H.
  - apply winner_range in H. lia.
  - inversion H; subst.
    + apply winner_range in W. lia.
    + apply IH. auto.
    + apply IH. auto.
    + apply IH in H1. subst. congruence.
  - inversion H; subst.
    + apply winner_range in W. lia.
    + apply IH. auto.
    + apply IH. auto.
    + apply IH in H1. subst. match goal with X : winner comp v (S _) (S _) _ |- _ => apply IH2 in X; congruence end.
  - inversion H; subst.
    + reflexivity.
    + apply IH in H1. subst. congruence.
    + apply IH in H1. subst. match goal with X : winner comp v (S _) (S _) _ |- _ => apply IH2 in X; congruence end.
    + reflexivity.
Qed.

Lemma any_tree {T} (comp : T -> T -> bool) gr uninit e v : 2 * zlen v + 2 < 2 ^ 31 ->
  exists ct, ct_build gr uninit comp e v = Ok ct /\ ct_size ct = zlen v /\
  forall a b, (a <= b)%nat -> (b < length v)%nat ->
    exists m, ct_rmq true ct (Z.of_nat a) (Z.of_nat b) = Ok (Z.of_nat m) /\ last_low comp v a b m.
Proof.
  intros Hn. pose proof (seq_len comp v) as SL. destruct (ct_build_bits comp gr uninit e v) as (r & -> & ->).
  destruct (bp_build_ok (seq_of comp v) uninit false true ltac:(lia) (seq_nonneg comp v)) as (bp & -> & HB).
  exists bp. split; [reflexivity|]. split.
  - unfold ct_size, bp_size. pose proof HB as ((Hbv & _) & _). rewrite Hbv. cbn [canonical bv_size]. rewrite SL.
    replace (2 * zlen v + 2) with ((zlen v + 1) * 2) by lia. rewrite Z.div_mul by lia. pose proof (zlen_nonneg v). rewrite sub64_ok; lia.
  - intros a b Hab Hb. apply rmq_last; auto.
Qed.

Lemma any_winner {T} (comp : T -> T -> bool) gr uninit e v : 2 * zlen v + 2 < 2 ^ 31 ->
  exists ct, ct_build gr uninit comp e v = Ok ct /\ ct_size ct = zlen v /\
  forall a b, (a <= b)%nat -> (b < length v)%nat ->
    exists m, (a <= m <= b)%nat /\ ct_rmq true ct (Z.of_nat a) (Z.of_nat b) = Ok (Z.of_nat m) /\ forall k, winner comp v a b k <-> k = m.
Proof.
  intros Hn. destruct (any_tree comp gr uninit e v Hn) as (ct & E1 & E2 & H). exists ct. split; [auto|]. split; [auto|].
  intros a b Hab Hb. destruct (H a b Hab Hb) as (m & E & Hm). exists m. pose proof Hm as (H0 & _). split; [exact H0|]. split; [exact E|].
  pose proof (low_winner comp v b a m Hb Hab Hm) as W. intros k. split; [|intros ->; exact W].
  intros Hk. symmetry. apply (winner_unique comp v a b); auto.
Qed.

Lemma any_beats {T} (comp : T -> T -> bool) gr uninit e v ct a b m : 2 * zlen v + 2 < 2 ^ 31 -> ct_build gr uninit comp e v = Ok ct ->
  (a <= b)%nat -> (b < length v)%nat -> beats_range comp v a b m -> ct_rmq true ct (Z.of_nat a) (Z.of_nat b) = Ok (Z.of_nat m).
Proof.
  intros Hn Ec Hab Hb Hm. destruct (any_tree comp gr uninit e v Hn) as (ct' & E1 & _ & H). assert (ct' = ct) by congruence. subst ct'.
  destruct (H a b Hab Hb) as (m' & -> & Hm'). f_equal. f_equal. apply (last_low_unique comp v a b); [exact Hm'|]. apply lm_last_low; auto.
Qed.

(** less_equal *)
Lemma not_after_beats {T} (comp : T -> T -> bool) v a b m : strict_weak_order comp ->
  rightmost_min comp v a b m -> beats_range (not_after comp) v a b m.
Proof.
  intros (Hi & Ht & Hn) (H0 & (x & Ex & H) & HR). split; [exact H0|]. exists x. split; [exact Ex|]. unfold not_after. split.
  - intros j y Hj Ey. rewrite (H j y ltac:(lia) Ey). reflexivity.
  - intros j y Hj Ey. apply negb_false_iff. destruct (comp x y) eqn:C; [reflexivity|]. exfalso. apply (HR j Hj). exists y. split; [exact Ey|].
    intros i z Hi' Ez. pose proof (H i z Hi' Ez) as D. pose proof (H j y ltac:(lia) Ey) as D2.
    destruct (comp z y) eqn:C2; [|reflexivity]. exfalso.
    destruct (comp x z) eqn:C3; [rewrite (Ht x z y C3 C2) in C; discriminate|].
    destruct (Hn z x y D C3 C D2) as [X _]. congruence.
Qed.
Lemma rightmost_exists {T} (comp : T -> T -> bool) v a : strict_weak_order comp -> forall n, (a + n < length v)%nat -> exists m, beats_range (not_after comp) v a (a + n) m.
Proof.
  intros (Hi & Ht & Hn). induction n as [|n IH]; intros Hl.
  - exists a. split; [lia|]. destruct (nth_error v a) as [x|] eqn:E; [|apply nth_error_None in E; lia]. exists x. split; [reflexivity|]. split; intros; lia.
  - destruct IH as (m & Hm & x & Ex & H1 & H2); [lia|]. unfold not_after in *.
    destruct (nth_error v (a + S n)) as [z|] eqn:Ez; [|apply nth_error_None in Ez; lia].
    destruct (comp x z) eqn:C.
    + exists m. split; [lia|]. exists x. split; [exact Ex|]. split; [exact H1|].
      intros j y Hj Ey. destruct (Nat.eq_dec j (a + S n)) as [->|]; [|apply (H2 j); auto; lia]. assert (y = z) by congruence. subst y. rewrite C. reflexivity.
    + exists (a + S n)%nat. split; [lia|]. exists z. split; [exact Ez|]. split; [|intros; lia].
      intros j y Hj Ey. apply negb_true_iff. destruct (comp y z) eqn:C2; [|reflexivity]. exfalso.
      destruct (lt_eq_lt_dec j m) as [[L| ->]|L].
      * pose proof (H1 j y ltac:(lia) Ey) as D. apply negb_true_iff in D.
        destruct (comp x y) eqn:C3; [rewrite (Ht x y z C3 C2) in C; discriminate|].
        assert (C4 : comp z x = false). { destruct (comp z x) eqn:X; [|reflexivity]. rewrite (Ht y z x C2 X) in D. discriminate. }
        destruct (Hn y x z D C3 C C4) as [X _]. congruence.
      * congruence.
      * pose proof (H2 j y ltac:(lia) Ey) as D. apply negb_false_iff in D. rewrite (Ht x y z D C2) in C. discriminate.
Qed.
Lemma beats_rightmost {T} (comp : T -> T -> bool) v a b m : strict_weak_order comp ->
  beats_range (not_after comp) v a b m -> rightmost_min comp v a b m.
Proof.
  intros (Hi & Ht & Hn) (H0 & x & Ex & H1 & H2). unfold not_after in *. split; [exact H0|]. split.
  - exists x. split; [exact Ex|]. intros i y Hi' Ey. destruct (lt_eq_lt_dec i m) as [[L| ->]|L].
    + apply negb_true_iff, (H1 i y); auto; lia.
    + assert (y = x) by congruence. subst y. apply Hi.
    + pose proof (H2 i y ltac:(lia) Ey) as D. apply negb_false_iff in D.
      destruct (comp y x) eqn:C; [|reflexivity]. rewrite <- (Hi x). symmetry. apply (Ht x y x); auto.
  - intros j Hj (z & Ez & Hz). pose proof (Hz m x ltac:(lia) Ex) as D. pose proof (H2 j z Hj Ez) as D2. rewrite D in D2. discriminate.
Qed.
Lemma any_less_equal {T} (comp : T -> T -> bool) gr uninit e v : strict_weak_order comp -> 2 * zlen v + 2 < 2 ^ 31 ->
  exists ct, ct_build gr uninit (not_after comp) e v = Ok ct /\
  forall a b, (a <= b)%nat -> (b < length v)%nat ->
    exists m, ct_rmq true ct (Z.of_nat a) (Z.of_nat b) = Ok (Z.of_nat m) /\ rightmost_min comp v a b m.
Proof.
  intros HO Hn. destruct (any_tree (not_after comp) gr uninit e v Hn) as (ct & E & _). exists ct. split; [exact E|].
  intros a b Hab Hb. destruct (rightmost_exists comp v a HO (b - a)) as (m & Hm); [lia|]. replace (a + (b - a))%nat with b in Hm by lia.
  exists m. split; [apply (any_beats (not_after comp) gr uninit e v ct a b m); auto|apply beats_rightmost; auto].
Qed.

(** an order on the elements of one range *)
Lemma local_exists {T} (comp : T -> T -> bool) v a : forall n, (a + n < length v)%nat ->
  order_on (fun x => exists i, (a <= i <= a + n)%nat /\ nth_error v i = Some x) comp -> exists m, beats_range comp v a (a + n) m.
Proof.
  induction n as [|n IH]; intros Hl (Hi & Ht & Hn).
  - exists a. split; [lia|]. destruct (nth_error v a) as [x|] eqn:E; [|apply nth_error_None in E; lia].
    exists x. split; [reflexivity|]. split; intros; lia.
  - set (P := fun x => exists i, (a <= i <= a + S n)%nat /\ nth_error v i = Some x) in *.
    assert (PI : forall i x, (a <= i <= a + S n)%nat -> nth_error v i = Some x -> P x) by (intros i x ? ?; exists i; auto).
    destruct IH as (m & Hm & x & Ex & H1 & H2); [lia| |].
    { assert (W : forall x, (exists i, (a <= i <= a + n)%nat /\ nth_error v i = Some x) -> P x) by (intros x (i & ? & ?); apply (PI i); auto; lia).
      split; [intros x Px; apply Hi, W, Px|]. split; [intros x y z Px Py Pz; exact (Ht x y z (W x Px) (W y Py) (W z Pz))|intros x y z Px Py Pz; exact (Hn x y z (W x Px) (W y Py) (W z Pz))]. }
    destruct (nth_error v (a + S n)) as [z|] eqn:Ez; [|apply nth_error_None in Ez; lia].
    pose proof (PI m x ltac:(lia) Ex) as Px. pose proof (PI (a + S n)%nat z ltac:(lia) Ez) as Pz.
    destruct (comp z x) eqn:C.
    + exists (a + S n)%nat. split; [lia|]. exists z. split; [exact Ez|]. split; [|intros; lia].
      intros j y Hj Ey. pose proof (PI j y ltac:(lia) Ey) as Py. destruct (lt_eq_lt_dec j m) as [[L| ->]|L].
      * apply (Ht z x y); auto. apply (H1 j); auto; lia.
      * congruence.
      * assert (D := H2 j y ltac:(lia) Ey).
        destruct (comp z y) eqn:Czy; [reflexivity|]. exfalso.
        assert (Cxy : comp x y = false). { destruct (comp x y) eqn:X; [|reflexivity]. rewrite (Ht z x y) in Czy; auto. }
        assert (Cyz : comp y z = false). { destruct (comp y z) eqn:X; [|reflexivity]. rewrite (Ht y z x) in D; auto. }
        destruct (Hn z y x Pz Py Px Czy Cyz D Cxy) as [X _]. congruence.
    + exists m. split; [lia|]. exists x. split; [exact Ex|]. split; [intros j y Hj; apply H1; lia|].
      intros j y Hj Ey. destruct (Nat.eq_dec j (a + S n)) as [->|]; [congruence|]. apply (H2 j); auto; lia.
Qed.
Lemma any_local {T} (comp : T -> T -> bool) gr uninit e v ct a b : 2 * zlen v + 2 < 2 ^ 31 -> ct_build gr uninit comp e v = Ok ct ->
  (a <= b)%nat -> (b < length v)%nat -> order_on (fun x => exists i, (a <= i <= b)%nat /\ nth_error v i = Some x) comp ->
  exists m, ct_rmq true ct (Z.of_nat a) (Z.of_nat b) = Ok (Z.of_nat m) /\ leftmost_min comp v a b m.
Proof.
  intros Hn Ec Hab Hb HO. destruct (local_exists comp v a (b - a)) as (m & Hm); [lia|replace (a + (b - a))%nat with b by lia; exact HO|].
  replace (a + (b - a))%nat with b in Hm by lia. exists m. split; [apply (any_beats comp gr uninit e v ct a b m); auto|].
  destruct HO as (Hi & Ht & _). destruct Hm as (H0 & x & Ex & H1 & H2).
  set (P := fun x => exists i, (a <= i <= b)%nat /\ nth_error v i = Some x) in *.
  assert (PI : forall i x, (a <= i <= b)%nat -> nth_error v i = Some x -> P x) by (intros i y ? ?; exists i; auto).
  pose proof (PI m x H0 Ex) as Px. split; [exact H0|]. split.
  - exists x. split; [exact Ex|]. intros i y Hi' Ey. pose proof (PI i y Hi' Ey) as Py. destruct (lt_eq_lt_dec i m) as [[L| ->]|L].
    + destruct (comp y x) eqn:C; [|reflexivity]. rewrite <- (Hi y Py). symmetry. apply (Ht y x y); auto. apply (H1 i); auto; lia.
    + rewrite Ex in Ey. inversion Ey; subst. apply Hi. auto.
    + apply (H2 i); auto; lia.
  - intros j Hj (z & Ez & Hz). pose proof (Hz m x ltac:(lia) Ex) as A. rewrite (H1 j z Hj Ez) in A. discriminate.
Qed.
Lemma float_order (P : option Z -> Prop) : (forall x, P x -> x <> None) -> order_on P float_less.
Proof.
  intros H. assert (V : forall x, P x -> exists i, x = Some i). { intros [i|] Px; [eauto|]. elim (H None Px). reflexivity. }
  unfold float_less. split; [|split].
  - intros x Px. destruct (V x Px) as (i & ->). lia.
  - intros x y z Px Py Pz. destruct (V x Px) as (i & ->), (V y Py) as (j & ->), (V z Pz) as (k & ->). lia.
  - intros x y z Px Py Pz. destruct (V x Px) as (i & ->), (V y Py) as (j & ->), (V z Pz) as (k & ->). lia.
Qed.
Lemma any_float gr uninit e v ct a b : 2 * zlen v + 2 < 2 ^ 31 -> ct_build gr uninit float_less e v = Ok ct ->
  (a <= b)%nat -> (b < length v)%nat -> (forall i, (a <= i <= b)%nat -> nth_error v i <> Some None) ->
  exists m, ct_rmq true ct (Z.of_nat a) (Z.of_nat b) = Ok (Z.of_nat m) /\ leftmost_min float_less v a b m.
Proof.
  intros Hn Ec Hab Hb HN. apply (any_local float_less gr uninit e v ct a b); auto. apply float_order.
  intros x (i & Hi & Ei) ->. apply (HN i); auto.
Qed.
Lemma nan_shields : exists v ct, ct_build (fun c _ => 2 * c) 0 float_less 0 v = Ok ct /\
  ct_rmq true ct 0 2 = Ok 0 /\ nth_error v 0 = Some (Some 5) /\ nth_error v 2 = Some (Some 3) /\ float_less (Some 3) (Some 5) = true.
Proof. exists [Some 5; None; Some 3]. eexists. split; [vm_compute; reflexivity|]. split; [vm_compute; reflexivity|]. auto. Qed.
