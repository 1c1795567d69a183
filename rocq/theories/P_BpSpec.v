(** Matching parentheses in terms of the excess. *)
From Verif Require Import Base Spec Lib M_BitVector M_RsBitVector M_Bp P_BvLib P_BitVector P_RsQuery P_BpWord P_BpBuild P_BpSearch S_Bp.
From Coq Require Import ZifyBool ZifyNat.

Lemma E_depth l p : 0 <= p <= zlen l -> E l p = depth l p.
Proof.
  intros Hp. rewrite E_rank by lia. unfold depth. fold (rank true l (Z.to_nat p)). fold (rank false l (Z.to_nat p)).
  pose proof (rank_compl l (Z.to_nat p)). unfold zlen in *. lia.
Qed.

Lemma prefix_ok_nonneg l : prefix_ok l <-> nonneg l.
Proof. unfold prefix_ok, nonneg. split; intros H p Hp; specialize (H p Hp); rewrite E_depth in * by lia; auto. Qed.

Lemma E_app l m k : 0 <= k -> E (l ++ m) k = if k <=? zlen l then E l k else E l (zlen l) + E m (k - zlen l).
Proof.
  intros Hk. pose proof (zlen_nonneg l). unfold E. destruct (Z.leb_spec k (zlen l)).
  - apply ex_ext. intros i Hi. rewrite zbit_app. replace (i <? zlen l) with true by lia. reflexivity.
  - replace k with (zlen l + (k - zlen l)) at 1 by lia. rewrite ex_shift by lia. f_equal.
    + apply ex_ext. intros i Hi. rewrite zbit_app. replace (i <? zlen l) with true by lia. reflexivity.
    + apply ex_ext. intros i Hi. rewrite zbit_app. replace (zlen l + i <? zlen l) with false by lia. f_equal. lia.
Qed.
Lemma E_cons b l k : 0 < k -> E (b :: l) k = (if b then 1 else -1) + E l (k - 1).
Proof.
  intros Hk. change (b :: l) with ([b] ++ l). rewrite E_app by lia. change (zlen [b]) with 1.
  destruct (Z.leb_spec k 1).
  - replace k with 1 by lia. change (1 - 1) with 0. rewrite E_0. destruct b; reflexivity.
  - destruct b; reflexivity.
Qed.

Lemma bal_excess u : bal u -> E u (zlen u) = 0 /\ forall k, 0 <= k <= zlen u -> 0 <= E u k.
Proof.
  induction 1 as [|u v Hu [U1 U2] Hv [V1 V2]].
  - split; [reflexivity|]. intros k Hk. change (zlen (@nil bool)) with 0 in Hk. replace k with 0 by lia. rewrite E_0. lia.
  - pose proof (zlen_nonneg u). pose proof (zlen_nonneg v).
    assert (X : forall k, 0 <= k <= zlen (true :: u ++ false :: v) -> E (true :: u ++ false :: v) k =
      if k =? 0 then 0 else if k - 1 <=? zlen u then 1 + E u (k - 1) else E v (k - 2 - zlen u)).
    { intros k Hk. destruct (Z.eqb_spec k 0) as [->|]; [reflexivity|]. rewrite E_cons, E_app by lia.
      destruct (Z.leb_spec (k - 1) (zlen u)); [reflexivity|]. rewrite E_cons, U1 by lia.
      replace (k - 1 - zlen u - 1) with (k - 2 - zlen u) by lia. lia. }
    rewrite zlen_cons, zlen_app, zlen_cons in *. split.
    + rewrite X by lia. replace (zlen u + (zlen v + 1) + 1 =? 0) with false by lia.
      replace (zlen u + (zlen v + 1) + 1 - 1 <=? zlen u) with false by lia.
      replace (zlen u + (zlen v + 1) + 1 - 2 - zlen u) with (zlen v) by lia. exact V1.
    + intros k Hk. rewrite X by lia. destruct (Z.eqb_spec k 0); [lia|]. destruct (Z.leb_spec (k - 1) (zlen u)).
      * specialize (U2 (k - 1) ltac:(lia)). lia.
      * apply V2. lia.
Qed.

(** first hits exist *)
Lemma fhit_dec l v a : 0 <= a -> v < E l a -> forall n, 0 <= n ->
  (forall k, a <= k <= a + n -> v < E l k) \/ exists r, fhit l v a r /\ r < a + n.
Proof.
  intros Ha HE. apply (natlike_ind (fun n => (forall k, a <= k <= a + n -> v < E l k) \/ exists r, fhit l v a r /\ r < a + n)).
  - left. intros k Hk. replace k with a by lia. exact HE.
  - intros n Hn [IH|(r & Hr & Hlt)]; unfold Z.succ; [|right; exists r; split; [exact Hr|lia]].
    destruct (Z_lt_le_dec v (E l (a + (n + 1)))) as [Hgt|Hle].
    + left. intros k Hk. destruct (Z.eq_dec k (a + (n + 1))) as [->|]; [exact Hgt|apply IH; lia].
    + right. exists (a + n). split; [|lia]. split; [lia|]. split; [|exact IH].
      replace (a + (n + 1)) with (a + n + 1) in Hle by lia. pose proof (E_lip l (a + n) (a + n + 1) ltac:(lia)).
      specialize (IH (a + n) ltac:(lia)). lia.
Qed.
Lemma fhit_exists l v a q : 0 <= a <= q -> v < E l a -> E l q <= v -> exists r, fhit l v a r /\ r < q.
Proof.
  intros Ha HE Hq. destruct (fhit_dec l v a ltac:(lia) HE (q - a) ltac:(lia)) as [H|(r & Hr & Hlt)].
  - specialize (H q ltac:(lia)). lia.
  - exists r. split; [exact Hr|lia].
Qed.

Lemma E_skipn l a k : 0 <= a -> 0 <= k -> E (skipn (Z.to_nat a) l) k = E l (a + k) - E l a.
Proof.
  intros Ha Hk. unfold E. rewrite (ex_shift (zbit l)) by lia. rewrite (ex_ext _ (fun i => zbit l (a + i))); [lia|].
  intros i Hi. rewrite zbit_skipn by lia. f_equal. lia.
Qed.
Lemma E_firstn l n k : k <= n -> E (firstn (Z.to_nat n) l) k = E l k.
Proof.
  intros Hk. apply ex_ext. intros i Hi. rewrite zbit_firstn. replace (i <? Z.of_nat (Z.to_nat n)) with true by lia. reflexivity.
Qed.

Lemma split_at (l : list bool) p : 0 <= p < zlen l -> exists a c, l = a ++ zbit l p :: c /\ zlen a = p.
Proof.
  intros Hp. unfold zlen in *. destruct (nth_split l false (n := Z.to_nat p)) as (a & c & El & La); [lia|].
  exists a, c. split; [|lia]. rewrite El at 1. do 2 f_equal. rewrite <- zbit_nth. f_equal. lia.
Qed.

Lemma excess_bal : forall n u, zlen u <= Z.of_nat n -> E u (zlen u) = 0 -> (forall k, 0 <= k <= zlen u -> 0 <= E u k) -> bal u.
Proof.
  induction n as [|n IH]; intros u Hn H0 Hk.
  - destruct u; [constructor|]. rewrite zlen_cons in Hn. pose proof (zlen_nonneg u). lia.
  - destruct u as [|b u]; [constructor|]. rewrite zlen_cons in *. pose proof (zlen_nonneg u) as Hu.
    assert (Eb : b = true).
    { specialize (Hk 1 ltac:(lia)). rewrite E_cons in Hk by lia. change (1 - 1) with 0 in Hk. rewrite E_0 in Hk. destruct b; [reflexivity|lia]. }
    subst b. set (w := true :: u) in *.
    assert (E1 : E w 1 = 1) by reflexivity.
    destruct (fhit_exists w 0 1 (zlen u + 1)) as (r & (R0 & R1 & R2) & Hr); [lia|lia|lia|].
    assert (Z0 : zbit w r = false).
    { pose proof (E_succ w r ltac:(lia)) as X. rewrite R1 in X. specialize (R2 r ltac:(lia)). destruct (zbit w r); [lia|reflexivity]. }
    assert (Z1 : zbit u (r - 1) = false).
    { change w with ([true] ++ u) in Z0. rewrite zbit_app in Z0. change (zlen [true]) with 1 in Z0. replace (r <? 1) with false in Z0 by lia. exact Z0. }
    destruct (split_at u (r - 1)) as (a & c & Eu & La); [lia|]. rewrite Z1 in Eu.
    assert (Ew : w = true :: a ++ false :: c) by (unfold w; rewrite Eu; reflexivity).
    assert (Lu : zlen u = r - 1 + (zlen c + 1)) by (rewrite Eu, zlen_app, zlen_cons; lia).
    pose proof (zlen_nonneg c) as Hc.
    assert (EA : forall k, 0 <= k <= r - 1 -> E w (k + 1) = 1 + E a k).
    { intros k Hk2. rewrite Ew, E_cons, E_app by lia. replace (k + 1 - 1) with k by lia. replace (k <=? zlen a) with true by lia. reflexivity. }
    assert (EA0 : E a (r - 1) = 0).
    { pose proof (EA (r - 1) ltac:(lia)) as X. replace (r - 1 + 1) with r in X by lia.
      pose proof (E_succ w r ltac:(lia)) as Y. rewrite Z0, R1 in Y. lia. }
    assert (EC : forall k, 0 <= k <= zlen c -> E w (r + 1 + k) = E c k).
    { intros k Hk2. rewrite Ew, E_cons, E_app by lia. replace (r + 1 + k - 1 <=? zlen a) with false by lia.
      rewrite E_cons by lia. rewrite La, EA0. replace (r + 1 + k - 1 - (r - 1) - 1) with k by lia. lia. }
    rewrite Ew. constructor.
    + apply IH; [lia|rewrite La; exact EA0|]. intros k Hk2. rewrite La in Hk2. pose proof (EA k ltac:(lia)) as X.
      specialize (R2 (k + 1) ltac:(lia)). lia.
    + apply IH; [lia| |].
      * rewrite <- EC by lia. replace (r + 1 + zlen c) with (zlen u + 1) by lia. exact H0.
      * intros k Hk2. rewrite <- EC by lia. apply Hk. lia.
Qed.

Lemma matches_excess l p m : matches l p m <-> 0 <= p /\ m < zlen l /\ zbit l p = true /\ fhit l (E l p) (p + 1) m.
Proof.
  split.
  - intros (a & u & b & -> & Hu & -> & ->). destruct (bal_excess u Hu) as [U0 U1].
    pose proof (zlen_nonneg a). pose proof (zlen_nonneg u). pose proof (zlen_nonneg b).
    split; [lia|]. split; [rewrite zlen_app, zlen_cons, zlen_app, zlen_cons; lia|].
    assert (X : forall k, 1 <= k <= zlen u + 1 -> E (a ++ true :: u ++ false :: b) (zlen a + k) = E a (zlen a) + 1 + E u (k - 1)).
    { intros k Hk. rewrite E_app by lia. replace (zlen a + k <=? zlen a) with false by lia. rewrite E_cons, E_app by lia.
      replace (zlen a + k - zlen a - 1 <=? zlen u) with true by lia. replace (zlen a + k - zlen a - 1) with (k - 1) by lia. lia. }
    assert (Xp : E (a ++ true :: u ++ false :: b) (zlen a) = E a (zlen a)).
    { rewrite E_app by lia. rewrite Z.leb_refl. reflexivity. }
    split; [rewrite zbit_app, Z.ltb_irrefl, Z.sub_diag; reflexivity|]. rewrite Xp. split; [lia|]. split.
    + rewrite E_app by lia. replace (zlen a + 1 + zlen u + 1 <=? zlen a) with false by lia. rewrite E_cons, E_app by lia.
      replace (zlen a + 1 + zlen u + 1 - zlen a - 1 <=? zlen u) with false by lia. rewrite E_cons by lia.
      replace (zlen a + 1 + zlen u + 1 - zlen a - 1 - zlen u - 1) with 0 by lia. rewrite E_0. lia.
    + intros k Hk. replace k with (zlen a + (k - zlen a)) by lia. rewrite X by lia. specialize (U1 (k - zlen a - 1) ltac:(lia)). lia.
  - intros (Hp & Hm & Hb & F0 & F1 & F2).
    destruct (split_at l p) as (a & c & El & La); [lia|]. rewrite Hb in El.
    assert (Zm : zbit l m = false).
    { pose proof (E_succ l m ltac:(lia)) as X. specialize (F2 m ltac:(lia)). destruct (zbit l m); [lia|reflexivity]. }
    assert (Lc : zlen l = p + (zlen c + 1)) by (rewrite El, zlen_app, zlen_cons; lia).
    assert (Zc : forall i, 0 <= i -> zbit c i = zbit l (p + 1 + i)).
    { intros i Hi. rewrite El, zbit_app, La. replace (p + 1 + i <? p) with false by lia.
      change (true :: c) with ([true] ++ c). rewrite zbit_app. change (zlen [true]) with 1.
      replace (p + 1 + i - p <? 1) with false by lia. f_equal. lia. }
    destruct (split_at c (m - p - 1)) as (u & b & Ec & Lu); [lia|].
    rewrite Zc in Ec by lia. replace (p + 1 + (m - p - 1)) with m in Ec by lia. rewrite Zm in Ec.
    assert (EU : forall k, 0 <= k <= zlen u -> E u k = E l (p + 1 + k) - E l (p + 1)).
    { intros k Hk. unfold E. rewrite (ex_shift (zbit l) (p + 1) k) by lia. rewrite (ex_ext (zbit u) (fun i => zbit l (p + 1 + i))); [lia|].
      intros i Hi. rewrite <- Zc by lia. rewrite Ec, zbit_app. replace (i <? zlen u) with true by lia. reflexivity. }
    pose proof (E_succ l p ltac:(lia)) as Ep. rewrite Hb in Ep.
    assert (Em : E l (m + 1) = E l m - 1) by (rewrite E_succ, Zm by lia; lia).
    exists a, u, b. split; [rewrite El, Ec; reflexivity|]. split; [|lia].
    apply excess_bal with (Z.to_nat (zlen u)); [lia| |].
    + rewrite EU by lia. replace (p + 1 + zlen u) with m by lia. lia.
    + intros k Hk. rewrite EU by lia. specialize (F2 (p + 1 + k) ltac:(lia)). lia.
Qed.

Lemma matches_unique l p m m' : matches l p m -> matches l p m' -> m = m'.
Proof. rewrite !matches_excess. intros (_ & _ & _ & F) (_ & _ & _ & F'). eapply fhit_unique; eauto. Qed.

Lemma matches_bhit l p m : matches l p m -> bhit l (E l m - 1) m p.
Proof.
  rewrite matches_excess. intros (Hp & Hm & Hb & F0 & F1 & F2).
  pose proof (E_succ l m ltac:(lia)) as X. specialize (F2 m ltac:(lia)) as Y.
  destruct (zbit l m); [lia|]. split; [lia|]. split; [lia|]. intros k Hk. specialize (F2 k ltac:(lia)). lia.
Qed.
Lemma matches_unique_open l p p' m : matches l p m -> matches l p' m -> p = p'.
Proof. intros H H'. eapply bhit_unique; eauto using matches_bhit. Qed.

Lemma bal_prefix_ok l : bal l -> prefix_ok l.
Proof. intros H. apply prefix_ok_nonneg. exact (proj2 (bal_excess l H)). Qed.

Lemma open_matched l p : bal l -> 0 <= p < zlen l -> zbit l p = true -> exists m, matches l p m.
Proof.
  intros Hl Hp Hb. destruct (bal_excess l Hl) as [L0 L1]. pose proof (E_succ l p ltac:(lia)) as X. rewrite Hb in X.
  destruct (fhit_exists l (E l p) (p + 1) (zlen l)) as (r & Hr & Hlt); [lia|lia|specialize (L1 p ltac:(lia)); lia|].
  exists r. apply matches_excess. split; [lia|]. split; [lia|]. auto.
Qed.

(** largest position below [b] at or under [v] *)
Lemma bhit_exists l v : forall b, 0 <= b -> v < E l b -> E l 0 <= v -> exists r, bhit l v b r.
Proof.
  apply (natlike_ind (fun b => v < E l b -> E l 0 <= v -> exists r, bhit l v b r)); [lia|].
  intros b Hb IH HE H0. unfold Z.succ in *. destruct (Z_lt_le_dec v (E l b)) as [Hgt|Hle].
  - destruct (IH Hgt H0) as (r & R0 & R1 & R2). exists r. split; [lia|]. split; [exact R1|]. intros k Hk.
    destruct (Z.eq_dec k (b + 1)) as [->|]; [exact HE|apply R2; lia].
  - exists b. split; [lia|]. pose proof (E_lip l b (b + 1) ltac:(lia)). split; [lia|]. intros k Hk. replace k with (b + 1) by lia. exact HE.
Qed.

Lemma bhit_matches l b r : bhit l (E l b - 1) b r -> b < zlen l -> zbit l b = false -> matches l r b.
Proof.
  intros (R0 & R1 & R2) Hb Zb. apply matches_excess. split; [lia|]. split; [exact Hb|].
  pose proof (E_succ l r ltac:(lia)) as X. specialize (R2 (r + 1) ltac:(lia)) as Y.
  split; [destruct (zbit l r); [reflexivity|lia]|]. split; [lia|]. split; [rewrite E_succ, Zb by lia; lia|].
  intros k Hk. specialize (R2 k ltac:(lia)). lia.
Qed.

Lemma close_matched l m : prefix_ok l -> 0 <= m < zlen l -> zbit l m = false -> exists p, matches l p m.
Proof.
  intros Hl Hm Zm. apply prefix_ok_nonneg in Hl. pose proof (Hl (m + 1) ltac:(lia)) as Y. rewrite E_succ, Zm in Y by lia.
  destruct (bhit_exists l (E l m - 1) m) as (r & Hr); [lia|lia|rewrite E_0; lia|]. exists r. apply bhit_matches; auto; lia.
Qed.

(** the tightest enclosing pair *)
Lemma encloses_bhit l q p : 0 <= p < zlen l -> zbit l p = true -> encloses l q p -> E l q <= E l p - 1 /\ 0 <= q < p.
Proof.
  intros Hp Hb (m & HM & Hq). apply matches_excess in HM. destruct HM as (Q0 & Q1 & Q2 & F0 & F1 & F2).
  specialize (F2 p ltac:(lia)). lia.
Qed.

Lemma bhit_innermost l p q r : 0 <= p < zlen l -> zbit l p = true -> encloses l q p -> bhit l (E l p - 1) p r -> innermost l r p.
Proof.
  intros Hp Hb HQ (R0 & R1 & R2).
  assert (Hle : forall q', encloses l q' p -> q' <= r).
  { intros q' Hq'. destruct (encloses_bhit l q' p Hp Hb Hq') as [Eq Hq]. destruct (Z_le_gt_dec q' r); [auto|].
    specialize (R2 q' ltac:(lia)). lia. }
  split; [|exact Hle].
  pose proof (Hle q HQ) as Hqr. destruct HQ as (m & HM & Hq). apply matches_excess in HM. destruct HM as (Q0 & Q1 & Q2 & F0 & F1 & F2).
  pose proof (E_succ l p ltac:(lia)) as Ep. rewrite Hb in Ep.
  assert (Hm : E l (m + 1) <= E l r).
  { rewrite F1. destruct (Z.eq_dec q r) as [->|]; [lia|]. specialize (F2 r ltac:(lia)). lia. }
  destruct (fhit_exists l (E l r) p (m + 1)) as (m' & (S0 & S1 & S2) & Hm'); [lia|lia|lia|].
  exists m'. split.
  - apply matches_excess. split; [lia|]. split; [lia|].
    pose proof (E_succ l r ltac:(lia)) as X. specialize (R2 (r + 1) ltac:(lia)) as Y. split; [destruct (zbit l r); [reflexivity|lia]|].
    split; [lia|]. split; [exact S1|]. intros k Hk. destruct (Z_le_gt_dec k p); [specialize (R2 k ltac:(lia)); lia|apply S2; lia].
  - split; [lia|]. destruct (Z.eq_dec m' p) as [->|]; [lia|lia].
Qed.

Lemma argmin_leftmost l a b p : 0 <= a -> b <= zlen l -> argmin (E l) a b p -> leftmost_min_depth l a b p /\ E l p = depth l p.
Proof.
  intros Ha Hb (A0 & A1 & A2). split; [|apply E_depth; lia]. split; [exact A0|]. split; intros q Hq.
  - specialize (A1 q Hq). rewrite !E_depth in A1 by lia. exact A1.
  - specialize (A2 q Hq). rewrite !E_depth in A2 by lia. exact A2.
Qed.

(** * The operations *)
Lemma find_close_matches f l bp p m : bp_ok l bp -> matches l p m -> find_close (loose_shift f) bp p = Ok m.
Proof.
  intros HB HM. pose proof (proj1 (matches_excess l p m) HM) as (Hp & Hm & Hb & F).
  pose proof F as (F0 & F1 & F2).
  destruct (find_close_ok f l bp p m HB ltac:(lia) Hb ltac:(lia) ltac:(lia)) as (r & Er & Hr).
  rewrite Er. f_equal. eapply fhit_unique; eauto.
Qed.
Lemma find_open_matches f l bp p m : bp_ok l bp -> matches l p m -> find_open (loose_shift f) bp m = Ok p.
Proof.
  intros HB HM. pose proof (proj1 (matches_excess l p m) HM) as (Hp & Hm & Hb & F0 & _).
  pose proof (matches_bhit l p m HM) as HH. pose proof HH as (R0 & R1 & _).
  destruct (find_open_ok f l bp m p HB ltac:(lia) ltac:(lia) ltac:(lia)) as (r & Er & Hr).
  rewrite Er. f_equal. eapply bhit_unique; eauto.
Qed.
Lemma enclose_ok f l bp q p : bp_ok l bp -> 0 <= p < zlen l -> zbit l p = true -> encloses l q p ->
  exists r, enclose (loose_shift f) bp p = Ok r /\ innermost l r p.
Proof.
  intros HB Hp Hb HQ. destruct (encloses_bhit l q p Hp Hb HQ) as [HE Hq].
  destruct (find_open_ok f l bp p q HB ltac:(lia) ltac:(lia) HE) as (r & Er & Hr).
  exists r. split; [|eapply bhit_innermost; eauto].
  unfold enclose. destruct HB as ((Hbv & _) & _). rewrite Hbv, bv_get_ok by lia. cbn [bind]. rewrite Hb. exact Er.
Qed.
Lemma innermost_unique l q q' p : innermost l q p -> innermost l q' p -> q = q'.
Proof. intros [H1 H2] [H3 H4]. specialize (H2 _ H3). specialize (H4 _ H1). lia. Qed.

Lemma nth_zbit l p b : nth_error l p = Some b -> 0 <= Z.of_nat p < zlen l /\ zbit l (Z.of_nat p) = b.
Proof.
  intros H. assert (p < length l)%nat by (apply nth_error_Some; congruence). unfold zlen. split; [lia|].
  rewrite zbit_nth. apply nth_error_nth. exact H.
Qed.

Lemma bp_find_close f uninit h h0 l : zlen l < 2 ^ 31 -> prefix_ok l -> exists bp, bp_build uninit (bv_range l) h h0 = Ok bp /\
  (forall p m, matches l p m -> find_close (loose_shift f) bp p = Ok m) /\
  (bal l -> forall p, nth_error l p = Some true -> exists m, find_close (loose_shift f) bp (Z.of_nat p) = Ok m /\ matches l (Z.of_nat p) m).
Proof.
  intros Hs HP. destruct (bp_build_ok l uninit h h0 Hs (proj1 (prefix_ok_nonneg l) HP)) as (bp & Eb & HB).
  exists bp. split; [exact Eb|]. split; [intros p m HM; eapply find_close_matches; eauto|].
  intros HL p Hp. apply nth_zbit in Hp. destruct Hp as [Hp Zp]. destruct (open_matched l _ HL Hp Zp) as (m & HM). exists m. split; [|exact HM].
  eapply find_close_matches; eauto.
Qed.
Lemma bp_find_open f uninit h h0 l : zlen l < 2 ^ 31 -> prefix_ok l -> exists bp, bp_build uninit (bv_range l) h h0 = Ok bp /\
  forall m, nth_error l m = Some false -> exists p, find_open (loose_shift f) bp (Z.of_nat m) = Ok p /\ matches l p (Z.of_nat m).
Proof.
  intros Hs HP. destruct (bp_build_ok l uninit h h0 Hs (proj1 (prefix_ok_nonneg l) HP)) as (bp & Eb & HB).
  exists bp. split; [exact Eb|]. intros m Hm. apply nth_zbit in Hm. destruct Hm as [Hm Zm].
  destruct (close_matched l _ HP Hm Zm) as (p & HM). exists p. split; [|exact HM]. eapply find_open_matches; eauto.
Qed.
Lemma bp_enclose f uninit h h0 l : zlen l < 2 ^ 31 -> prefix_ok l -> exists bp, bp_build uninit (bv_range l) h h0 = Ok bp /\
  forall p q, nth_error l p = Some true -> encloses l q (Z.of_nat p) -> exists r,
    enclose (loose_shift f) bp (Z.of_nat p) = Ok r /\ innermost l r (Z.of_nat p).
Proof.
  intros Hs HP. destruct (bp_build_ok l uninit h h0 Hs (proj1 (prefix_ok_nonneg l) HP)) as (bp & Eb & HB).
  exists bp. split; [exact Eb|]. intros p q Hp HQ. apply nth_zbit in Hp. destruct Hp. eapply enclose_ok; eauto.
Qed.
Lemma bp_inverse f uninit h h0 l : zlen l < 2 ^ 31 -> bal l -> exists bp, bp_build uninit (bv_range l) h h0 = Ok bp /\
  (forall p, nth_error l p = Some true -> exists m, find_close (loose_shift f) bp (Z.of_nat p) = Ok m /\
     0 <= m /\ nth_error l (Z.to_nat m) = Some false /\ find_open (loose_shift f) bp m = Ok (Z.of_nat p)) /\
  (forall m, nth_error l m = Some false -> exists p, find_open (loose_shift f) bp (Z.of_nat m) = Ok p /\
     0 <= p /\ nth_error l (Z.to_nat p) = Some true /\ find_close (loose_shift f) bp p = Ok (Z.of_nat m)).
Proof.
  intros Hs HL. pose proof (bal_prefix_ok l HL) as HP.
  destruct (bp_build_ok l uninit h h0 Hs (proj1 (prefix_ok_nonneg l) HP)) as (bp & Eb & HB).
  assert (Hbits : forall p m, matches l p m -> 0 <= p /\ 0 <= m /\ nth_error l (Z.to_nat p) = Some true /\ nth_error l (Z.to_nat m) = Some false).
  { intros p m (a & u & b & -> & _ & -> & ->). pose proof (zlen_nonneg a). pose proof (zlen_nonneg u). split; [lia|]. split; [lia|].
    unfold zlen in *. split.
    - rewrite nth_error_app2 by lia. replace (Z.to_nat (Z.of_nat (length a)) - length a)%nat with 0%nat by lia. reflexivity.
    - rewrite nth_error_app2 by lia. replace (Z.to_nat (Z.of_nat (length a) + 1 + Z.of_nat (length u)) - length a)%nat with (S (length u)) by lia.
      cbn [nth_error]. rewrite nth_error_app2, Nat.sub_diag by lia. reflexivity. }
  exists bp. split; [exact Eb|]. split.
  - intros p Hp. apply nth_zbit in Hp. destruct Hp as [Hp Zp]. destruct (open_matched l _ HL Hp Zp) as (m & HM). exists m.
    destruct (Hbits _ _ HM) as (_ & M0 & _ & M1).
    split; [eapply find_close_matches; eauto|]. split; [exact M0|]. split; [exact M1|eapply find_open_matches; eauto].
  - intros m Hm. apply nth_zbit in Hm. destruct Hm as [Hm Zm]. destruct (close_matched l _ HP Hm Zm) as (p & HM). exists p.
    destruct (Hbits _ _ HM) as (P0 & _ & P1 & _).
    split; [eapply find_open_matches; eauto|]. split; [exact P0|]. split; [exact P1|eapply find_close_matches; eauto].
Qed.
Lemma bp_excess uninit h h0 l : zlen l < 2 ^ 31 -> prefix_ok l -> exists bp, bp_build uninit (bv_range l) h h0 = Ok bp /\
  bp_size bp = zlen l /\ forall p, 0 <= p <= zlen l -> excess bp p = Ok (depth l p).
Proof.
  intros Hs HP. destruct (bp_build_ok l uninit h h0 Hs (proj1 (prefix_ok_nonneg l) HP)) as (bp & Eb & HB).
  exists bp. split; [exact Eb|]. destruct HB as (HR & _). split; [unfold bp_size; rewrite (proj1 HR); reflexivity|].
  intros p Hp. rewrite (excess_ok l) by auto. rewrite E_depth by lia. reflexivity.
Qed.

(** a test for [bal], for the examples *)
Fixpoint balb (d : Z) (l : list bool) : bool :=
  match l with
  | [] => d =? 0
  | b :: l => let d := d + (if b then 1 else -1) in (0 <=? d) && balb d l
  end.
Lemma balb_excess : forall l d, balb d l = true -> 0 <= d -> d + E l (zlen l) = 0 /\ forall k, 0 <= k <= zlen l -> 0 <= d + E l k.
Proof.
  induction l as [|b l IH]; intros d HB Hd; cbn [balb] in HB.
  - change (zlen (@nil bool)) with 0. rewrite E_0. split; [lia|]. intros k Hk. replace k with 0 by lia. rewrite E_0. lia.
  - apply andb_prop in HB. destruct HB as [H0 HB]. destruct (IH _ HB ltac:(lia)) as [I1 I2]. rewrite zlen_cons. pose proof (zlen_nonneg l). split.
    + rewrite E_cons by lia. replace (zlen l + 1 - 1) with (zlen l) by lia. lia.
    + intros k Hk. destruct (Z.eq_dec k 0) as [->|]; [rewrite E_0; lia|]. rewrite E_cons by lia. specialize (I2 (k - 1) ltac:(lia)). lia.
Qed.
Lemma balb_sound l : balb 0 l = true -> bal l.
Proof.
  intros H. destruct (balb_excess l 0 H ltac:(lia)) as [H1 H2]. apply excess_bal with (length l); [unfold zlen; lia|lia|].
  intros k Hk. specialize (H2 k Hk). lia.
Qed.
