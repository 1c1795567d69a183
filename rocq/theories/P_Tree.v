(** Navigating a tree on a bp_vector *)
From Verif Require Import Base Spec Lib M_BitVector M_RsBitVector M_Bp S_BitVector S_Bp S_Tree P_BvLib P_BvRank P_BitVector P_RsBuild P_RsGen P_RsQuery P_BpWord P_BpBuild P_BpSearch P_BpSpec P_BpRmq P_Broadword P_Tests2.
From Coq Require Import ZifyBool ZifyNat.
Ltac Zify.zify_post_hook ::= Z.to_euclidean_division_equations.

Section ind.
Variable Q : tree -> Prop.
Hypothesis H : forall cs, Forall Q cs -> Q (Node cs).
Fixpoint tree_ind' (t : tree) : Q t :=
  match t with Node cs => H cs ((fix go cs : Forall Q cs := match cs with [] => Forall_nil Q | c :: cs => Forall_cons c (tree_ind' c) (go cs) end) cs) end.
End ind.

Lemma encode_bal t : bal (encode t).
Proof.
  induction t as [cs IH] using tree_ind'. cbn [encode]. apply bal_wrap.
  induction IH; cbn [flat_map]; [constructor|]. apply bal_app; auto.
Qed.
Lemma forest_bal cs : bal (flat_map encode cs).
Proof. induction cs; cbn [flat_map]; [constructor|]. apply bal_app; auto using encode_bal. Qed.

Lemma zlen_encode t : zlen (encode t) = 2 * nodes t.
Proof.
  induction t as [cs IH] using tree_ind'. cbn [encode nodes]. rewrite zlen_cons, zlen_app. change (zlen [false]) with 1.
  enough (zlen (flat_map encode cs) = 2 * fold_right Z.add 0 (map nodes cs)) by lia.
  induction IH; [reflexivity|]. cbn [flat_map map fold_right]. rewrite zlen_app. lia.
Qed.
Lemma nodes_pos t : 1 <= nodes t.
Proof.
  induction t as [cs IH] using tree_ind'. cbn [nodes].
  enough (0 <= fold_right Z.add 0 (map nodes cs)) by lia. induction IH; cbn [map fold_right]; lia.
Qed.

Lemma subtree_app t p q : subtree t (p ++ q) = match subtree t p with Some s => subtree s q | None => None end.
Proof.
  revert t. induction p as [|i p IH]; intros [cs]; cbn [app subtree]; [reflexivity|].
  destruct (nth_error cs i); [apply IH|reflexivity].
Qed.
Lemma opening_app p q : forall t s, subtree t p = Some s -> opening t (p ++ q) = opening t p + opening s q.
Proof.
  induction p as [|i p IH]; intros [cs] s HS; cbn [app subtree opening] in *.
  - injection HS as <-. reflexivity.
  - destruct (nth_error cs i) as [c|] eqn:E; [|discriminate]. rewrite (IH c s HS). lia.
Qed.

(** where the parentheses of a child stand *)
Lemma child_split cs i c : nth_error cs i = Some c ->
  flat_map encode cs = flat_map encode (firstn i cs) ++ encode c ++ flat_map encode (skipn (S i) cs).
Proof.
  intros H. rewrite <- (firstn_skipn i cs) at 1. rewrite flat_map_app. f_equal.
  revert i H. induction cs as [|d cs IH]; intros [|i] H; cbn in H |- *; try discriminate.
  - injection H as ->. reflexivity.
  - apply IH. exact H.
Qed.
Lemma node_split p : forall t s, subtree t p = Some s ->
  exists a b, encode t = a ++ encode s ++ b /\ zlen a = opening t p /\ E a (zlen a) = zlen p.
Proof.
  induction p as [|i p IH]; intros [cs] s HS.
  - cbn in HS. injection HS as <-. exists [], []. rewrite app_nil_r. auto.
  - cbn [subtree opening] in *. destruct (nth_error cs i) as [c|] eqn:Ec; [|discriminate].
    destruct (IH c s HS) as (a & b & E1 & E2 & E3).
    exists (true :: flat_map encode (firstn i cs) ++ a), (b ++ flat_map encode (skipn (S i) cs) ++ [false]). split.
    { cbn [encode]. rewrite (child_split cs i c Ec), E1. cbn. rewrite <- !app_assoc. reflexivity. }
    destruct (bal_excess _ (forest_bal (firstn i cs))) as [B0 _].
    pose proof (zlen_nonneg (flat_map encode (firstn i cs))). pose proof (zlen_nonneg a).
    rewrite !zlen_cons, zlen_app. split; [lia|].
    rewrite E_cons, E_app by lia. destruct (Z.leb_spec (zlen (flat_map encode (firstn i cs)) + zlen a + 1 - 1) (zlen (flat_map encode (firstn i cs)))).
    + replace (zlen (flat_map encode (firstn i cs)) + zlen a + 1 - 1) with (zlen (flat_map encode (firstn i cs))) by lia. rewrite B0.
      assert (zlen a = 0) as Z0 by lia. rewrite Z0, E_0 in E3. lia.
    + rewrite B0. replace (zlen (flat_map encode (firstn i cs)) + zlen a + 1 - 1 - zlen (flat_map encode (firstn i cs))) with (zlen a) by lia. lia.
Qed.

Lemma node_pair t p s : subtree t p = Some s ->
  matches (encode t) (opening t p) (opening t p + 2 * nodes s - 1) /\ E (encode t) (opening t p) = zlen p.
Proof.
  intros HS. destruct (node_split p t s HS) as (a & b & E1 & E2 & E3). rewrite E1, <- E2. split.
  - rewrite <- zlen_encode. destruct s as [cs]. cbn [encode]. exists a, (flat_map encode cs), b.
    split; [cbn; rewrite <- app_assoc; reflexivity|]. split; [apply forest_bal|]. split; [reflexivity|].
    rewrite zlen_cons, zlen_app. change (zlen [false]) with 1. lia.
  - rewrite E_app by (pose proof (zlen_nonneg a); lia). rewrite Z.leb_refl. exact E3.
Qed.

Lemma opening_in p : forall t s, subtree t p = Some s -> 0 <= opening t p /\ opening t p + 2 * nodes s <= 2 * nodes t.
Proof.
  intros t s HS. destruct (node_split p t s HS) as (a & b & E1 & E2 & _). rewrite <- E2, <- !zlen_encode, E1, !zlen_app.
  pose proof (zlen_nonneg a). pose proof (zlen_nonneg b). lia.
Qed.
Lemma opening_in_strict t i p s : subtree t (i :: p) = Some s ->
  1 <= opening t (i :: p) /\ opening t (i :: p) + 2 * nodes s + 1 <= 2 * nodes t.
Proof.
  destruct t as [cs]. cbn [subtree opening]. destruct (nth_error cs i) as [c|] eqn:Ec; [|discriminate]. intros HS.
  destruct (opening_in p c s HS). pose proof (zlen_nonneg (flat_map encode (firstn i cs))).
  pose proof (zlen_encode (Node cs)) as L. cbn [encode] in L. rewrite zlen_cons, zlen_app, (child_split cs i c Ec), !zlen_app in L.
  change (zlen [false]) with 1 in L. pose proof (zlen_encode c). pose proof (zlen_nonneg (flat_map encode (skipn (S i) cs))). lia.
Qed.

(** positions inside a pair are deeper than its ends *)
Lemma inside_deep l q m x : matches l q m -> q < x <= m -> E l q + 1 <= E l x.
Proof. rewrite matches_excess. intros (_ & _ & _ & F0 & F1 & F2) Hx. specialize (F2 x ltac:(lia)). lia. Qed.

Lemma parent_innermost t p i s : subtree t (p ++ [i]) = Some s -> innermost (encode t) (opening t p) (opening t (p ++ [i])).
Proof.
  intros HC. pose proof HC as HS. rewrite subtree_app in HS. destruct (subtree t p) as [r|] eqn:Er; [|discriminate].
  destruct (node_pair t p r Er) as [M1 D1]. destruct (node_pair t _ s HC) as [M2 D2]. rewrite zlen_app in D2. change (zlen [i]) with 1 in D2.
  pose proof (opening_app p [i] t r Er) as EO. destruct (opening_in_strict r i [] s HS). pose proof (nodes_pos s).
  split.
  - exists (opening t p + 2 * nodes r - 1). split; [exact M1|lia].
  - intros q' (m' & Mq & Hq). destruct (Z_le_gt_dec q' (opening t p)); [assumption|exfalso].
    pose proof (inside_deep _ _ _ (opening t (p ++ [i])) Mq ltac:(lia)). pose proof (inside_deep _ _ _ q' M1 ltac:(lia)). lia.
Qed.

Lemma tree_build uninit h h0 t : zlen (encode t) < 2 ^ 31 -> exists bp, bp_build uninit (bv_range (encode t)) h h0 = Ok bp /\ bp_ok (encode t) bp.
Proof.
  intros Hs. apply bp_build_ok; [exact Hs|]. apply prefix_ok_nonneg, bal_prefix_ok, encode_bal.
Qed.

Lemma access_ok l bp p : bp_ok l bp -> 0 <= p < zlen l -> bv_get (rs_bv (bp_rs bp)) p = Ok (zbit l p).
Proof. intros ((Hbv & _) & _) Hp. rewrite Hbv, bv_get_ok by lia. reflexivity. Qed.

Lemma tree_enclose f t bp p i s : bp_ok (encode t) bp -> subtree t (p ++ [i]) = Some s ->
  enclose (loose_shift f) bp (opening t (p ++ [i])) = Ok (opening t p).
Proof.
  intros HB HC. pose proof (parent_innermost t p i s HC) as HI. destruct (node_pair t _ s HC) as [M _].
  rewrite matches_excess in M. destruct M as (M1 & M2 & M3 & F & _).
  destruct (enclose_ok f (encode t) bp (opening t p) (opening t (p ++ [i])) HB ltac:(lia) M3 (proj1 HI)) as (r & -> & HR).
  f_equal. eapply innermost_unique; eauto.
Qed.

Lemma tree_node f uninit h h0 t : zlen (encode t) < 2 ^ 31 -> exists bp, bp_build uninit (bv_range (encode t)) h h0 = Ok bp /\
  forall p s, subtree t p = Some s ->
    bv_get (rs_bv (bp_rs bp)) (opening t p) = Ok true /\
    find_close (loose_shift f) bp (opening t p) = Ok (opening t p + 2 * nodes s - 1) /\
    find_open (loose_shift f) bp (opening t p + 2 * nodes s - 1) = Ok (opening t p) /\
    excess bp (opening t p) = Ok (zlen p).
Proof.
  intros Hs. destruct (tree_build uninit h h0 t Hs) as (bp & Eb & HB). exists bp. split; [exact Eb|]. intros p s HS.
  destruct (node_pair t p s HS) as [M D]. pose proof M as M'. rewrite matches_excess in M'. destruct M' as (M1 & M2 & M3 & F & _).
  split; [rewrite (access_ok _ _ _ HB) by lia; congruence|].
  split; [eapply find_close_matches; eauto|]. split; [eapply find_open_matches; eauto|].
  rewrite (excess_ok (encode t)) by (auto; try lia; apply HB). f_equal. exact D.
Qed.

Lemma tree_parent f uninit h h0 t : zlen (encode t) < 2 ^ 31 -> exists bp, bp_build uninit (bv_range (encode t)) h h0 = Ok bp /\
  forall p i s, subtree t (p ++ [i]) = Some s -> enclose (loose_shift f) bp (opening t (p ++ [i])) = Ok (opening t p).
Proof.
  intros Hs. destruct (tree_build uninit h h0 t Hs) as (bp & Eb & HB). exists bp. split; [exact Eb|]. intros p i s HS.
  eapply tree_enclose; eauto.
Qed.

(** the bit after a prefix of children tells whether another child follows *)
Lemma after_children cs i : (i <= length cs)%nat ->
  zbit (encode (Node cs)) (1 + zlen (flat_map encode (firstn i cs))) = (Nat.ltb i (length cs)).
Proof.
  intros Hi. cbn [encode]. change (true :: flat_map encode cs ++ [false]) with ([true] ++ flat_map encode cs ++ [false]).
  pose proof (zlen_nonneg (flat_map encode (firstn i cs))).
  rewrite zbit_app. change (zlen [true]) with 1. replace (1 + zlen (flat_map encode (firstn i cs)) <? 1) with false by lia.
  replace (1 + zlen (flat_map encode (firstn i cs)) - 1) with (zlen (flat_map encode (firstn i cs))) by lia.
  destruct (nth_error cs i) as [c|] eqn:Ec.
  - assert (i < length cs)%nat by (apply nth_error_Some; congruence). rewrite (proj2 (Nat.ltb_lt _ _)) by assumption.
    rewrite (child_split cs i c Ec), <- app_assoc, zbit_app, Z.ltb_irrefl, Z.sub_diag. destruct c; reflexivity.
  - apply nth_error_None in Ec. rewrite (proj2 (Nat.ltb_ge _ _)) by assumption. rewrite firstn_all2 by assumption.
    rewrite zbit_app, Z.ltb_irrefl, Z.sub_diag. reflexivity.
Qed.
Lemma zbit_sub a l b k : 0 <= k < zlen l -> zbit (a ++ l ++ b) (zlen a + k) = zbit l k.
Proof.
  intros Hk. pose proof (zlen_nonneg a). rewrite zbit_app. replace (zlen a + k <? zlen a) with false by lia.
  replace (zlen a + k - zlen a) with k by lia. rewrite zbit_app. replace (k <? zlen l) with true by lia. reflexivity.
Qed.
Lemma prefix_children cs i : zlen (flat_map encode (firstn i cs)) <= zlen (flat_map encode cs).
Proof.
  rewrite <- (firstn_skipn i cs) at 2. rewrite flat_map_app, zlen_app. pose proof (zlen_nonneg (flat_map encode (skipn i cs))). lia.
Qed.
Lemma step_child cs i c : nth_error cs i = Some c ->
  zlen (flat_map encode (firstn (S i) cs)) = zlen (flat_map encode (firstn i cs)) + 2 * nodes c.
Proof.
  intros H. rewrite <- zlen_encode. revert i H. induction cs as [|d cs IH]; intros [|i] H; cbn in H; try discriminate.
  - injection H as ->. cbn [firstn flat_map]. rewrite zlen_app. apply Z.add_comm.
  - rewrite !firstn_cons. cbn [flat_map]. rewrite !zlen_app, (IH i H). lia.
Qed.
Lemma opening_child t p cs i : subtree t p = Some (Node cs) -> (i <= length cs)%nat ->
  opening t (p ++ [i]) = opening t p + 1 + zlen (flat_map encode (firstn i cs)).
Proof. intros HS Hi. rewrite (opening_app p [i] t _ HS). cbn [opening]. destruct (nth_error cs i) as [c|]; cbn [opening]; lia. Qed.

Lemma tree_children f uninit h h0 t : zlen (encode t) < 2 ^ 31 -> exists bp, bp_build uninit (bv_range (encode t)) h h0 = Ok bp /\
  forall p cs, subtree t p = Some (Node cs) ->
    opening t (p ++ [O]) = opening t p + 1 /\
    (forall i, (i < length cs)%nat -> exists m, find_close (loose_shift f) bp (opening t (p ++ [i])) = Ok m /\ opening t (p ++ [S i]) = m + 1) /\
    (forall i, (i <= length cs)%nat -> bv_get (rs_bv (bp_rs bp)) (opening t (p ++ [i])) = Ok (Nat.ltb i (length cs))).
Proof.
  intros Hs. destruct (tree_build uninit h h0 t Hs) as (bp & Eb & HB). exists bp. split; [exact Eb|]. intros p cs HS.
  split; [rewrite (opening_child t p cs) by (auto; lia); cbn [firstn flat_map]; change (zlen (@nil bool)) with 0; lia|]. split; intros i Hi.
  - destruct (nth_error cs i) as [c|] eqn:Ec; [|apply nth_error_None in Ec; lia].
    assert (HC : subtree t (p ++ [i]) = Some c) by (rewrite subtree_app, HS; cbn; rewrite Ec; reflexivity).
    destruct (node_pair t _ c HC) as [M _]. eexists. split; [eapply find_close_matches; eauto|].
    rewrite !(opening_child t p cs) by (auto; lia). rewrite (step_child cs i c Ec). lia.
  - destruct (node_split p t _ HS) as (a & b & E1 & E2 & _). rewrite (opening_child t p cs) by auto.
    pose proof (prefix_children cs i). pose proof (zlen_nonneg (flat_map encode (firstn i cs))).
    assert (L : zlen (encode (Node cs)) = zlen (flat_map encode cs) + 2) by (cbn [encode]; rewrite zlen_cons, zlen_app; change (zlen [false]) with 1; lia).
    rewrite (access_ok _ _ _ HB).
    + f_equal. rewrite E1, <- E2, <- after_children by auto. rewrite <- Z.add_assoc. apply zbit_sub. lia.
    + rewrite E1, !zlen_app. pose proof (zlen_nonneg a). pose proof (zlen_nonneg b). lia.
Qed.

(** * Lowest common ancestor *)
Lemma paths_cases p : forall q, (exists r, q = p ++ r /\ common p q = p) \/ (exists i r, p = q ++ i :: r) \/
  (exists w i r j s, i <> j /\ p = w ++ i :: r /\ q = w ++ j :: s /\ common p q = w).
Proof.
  induction p as [|i p IH]; intros q.
  - left. exists q. auto.
  - destruct q as [|j q]; [right; left; exists i, p; reflexivity|]. cbn [common]. destruct (Nat.eqb_spec i j) as [->|N].
    + destruct (IH q) as [(r & -> & E)|[(k & r & ->)|(w & k & r & k' & s & N & -> & -> & E)]].
      * left. exists r. rewrite E. auto.
      * right; left. exists k, r. reflexivity.
      * right; right. exists (j :: w), k, r, k', s. rewrite E. auto.
    + right; right. exists [], i, p, j, q. auto.
Qed.

Lemma prefix_mono cs i j : (i <= j)%nat -> zlen (flat_map encode (firstn i cs)) <= zlen (flat_map encode (firstn j cs)).
Proof. intros H. replace i with (Nat.min i j) by lia. rewrite <- firstn_firstn. apply prefix_children. Qed.

(** nodes below different children of one node *)
Lemma branches t w i r j s a b : subtree t (w ++ i :: r) = Some a -> subtree t (w ++ j :: s) = Some b -> (i < j)%nat ->
  exists u ci cj, subtree t w = Some u /\ subtree t (w ++ [i]) = Some ci /\ subtree t (w ++ [S i]) = Some cj /\
    opening t (w ++ [i]) <= opening t (w ++ i :: r) /\ (r <> [] -> opening t (w ++ [i]) < opening t (w ++ i :: r)) /\
    opening t (w ++ i :: r) + 2 * nodes a <= opening t (w ++ [i]) + 2 * nodes ci /\
    opening t (w ++ [S i]) = opening t (w ++ [i]) + 2 * nodes ci /\
    opening t (w ++ [S i]) <= opening t (w ++ j :: s) /\
    opening t w < opening t (w ++ [i]) /\ opening t (w ++ j :: s) + 2 * nodes b < opening t w + 2 * nodes u.
Proof.
  intros HA HB Hij. pose proof HA as HA'. pose proof HB as HB'. rewrite subtree_app in HA', HB'.
  destruct (subtree t w) as [[cs]|] eqn:Eu; [|discriminate].
  pose proof (opening_in_strict _ _ _ _ HB') as [_ S2].
  pose proof (opening_app w (i :: r) t _ Eu) as O1. pose proof (opening_app w (j :: s) t _ Eu) as O2.
  cbn [subtree] in HA', HB'. destruct (nth_error cs i) as [ci|] eqn:Ei; [|discriminate]. destruct (nth_error cs j) as [cj|] eqn:Ej; [|discriminate].
  assert (j < length cs)%nat by (apply nth_error_Some; congruence).
  destruct (nth_error cs (S i)) as [ck|] eqn:Ek; [|apply nth_error_None in Ek; lia].
  destruct (opening_in r ci a HA') as [R1 R2]. destruct (opening_in s cj b HB') as [S3 _].
  assert (r <> [] -> 1 <= opening ci r) as Rn.
  { destruct r as [|x r]; [congruence|]. intros _. apply (opening_in_strict _ _ _ _ HA'). }
  exists (Node cs), ci, ck. split; [reflexivity|]. rewrite !subtree_app, Eu. cbn [subtree]. rewrite Ei, Ek. split; [reflexivity|]. split; [reflexivity|].
  pose proof (opening_child t w cs i Eu ltac:(lia)) as Oi. pose proof (opening_child t w cs (S i) Eu ltac:(lia)) as Ok'.
  rewrite (step_child cs i ci Ei) in Ok'. cbn [opening] in O1, O2, S2. rewrite Ei in O1. rewrite Ej in O2, S2.
  pose proof (prefix_mono cs (S i) j ltac:(lia)) as PM. rewrite (step_child cs i ci Ei) in PM. pose proof (zlen_nonneg (flat_map encode (firstn i cs))).
  split; [lia|]. split; [intros HR; specialize (Rn HR); lia|]. repeat split; lia.
Qed.

Lemma tree_lca f uninit h h0 t : zlen (encode t) < 2 ^ 31 -> exists bp, bp_build uninit (bv_range (encode t)) h h0 = Ok bp /\
  forall p q a b, subtree t p = Some a -> subtree t q = Some b -> opening t p <= opening t q ->
    exists m, find_close (loose_shift f) bp (opening t p) = Ok m /\
      if opening t q <=? m then common p q = p
      else exists r d, excess_rmq true bp (opening t p) (opening t q) = Ok (r, d) /\
             enclose (loose_shift f) bp r = Ok (opening t (common p q)).
Proof.
  intros Hs. destruct (tree_build uninit h h0 t Hs) as (bp & Eb & HB). exists bp. split; [exact Eb|]. intros p q a b HA HQ Hle.
  destruct (node_pair t p a HA) as [M _]. destruct (node_pair t q b HQ) as [M' D']. pose proof M' as M2. rewrite matches_excess in M2. destruct M2 as (Q0 & Q1 & _ & Q2 & _).
  destruct (opening_in p t a HA) as [P0 _]. pose proof (nodes_pos b). pose proof (nodes_pos a).
  eexists. split; [eapply find_close_matches; eauto|].
  destruct (paths_cases p q) as [(r & -> & ->)|[(i & r & ->)|(w & i & r & j & s & N & -> & -> & ->)]].
  - rewrite subtree_app, HA in HQ. rewrite (opening_app p r t a HA). destruct (opening_in r a b HQ). replace (_ <=? _) with true by lia. reflexivity.
  - exfalso. rewrite subtree_app, HQ in HA. rewrite (opening_app q (i :: r) t b HQ) in Hle. destruct (opening_in_strict _ _ _ _ HA). lia.
  - destruct (Nat.lt_ge_cases j i) as [Hji|Hij].
    { exfalso. destruct (branches t w j s i r b a HQ HA Hji) as (u & ci & cj & _ & _ & _ & B1 & _ & B2 & B3 & B4 & _). lia. }
    destruct (branches t w i r j s a b HA HQ ltac:(lia)) as (u & ci & cj & HU & HI & HS & B1 & B1' & B2 & B3 & B4 & B5 & B6).
    replace (_ <=? _) with false by lia.
    destruct (excess_rmq_ok (encode t) bp (opening t (w ++ i :: r)) (opening t (w ++ j :: s)) HB (bal_room _ (encode_bal t) Hs) ltac:(lia) ltac:(lia))
      as (x & Ex & Hx).
    exists x. eexists. split; [exact Ex|]. destruct Hx as (X0 & X1 & X2).
    destruct (node_pair t w u HU) as [MU DU]. destruct (node_pair t _ ci HI) as [MI DI]. destruct (node_pair t _ cj HS) as [MS DS].
    rewrite zlen_app in DI, DS. change (zlen [i]) with 1 in DI. change (zlen [S i]) with 1 in DS.
    pose proof (inside_deep _ _ _ x MU ltac:(lia)) as DX. pose proof (nodes_pos ci).
    destruct r as [|k r].
    + destruct (Z.eq_dec x (opening t (w ++ [i]))) as [->|Nx]; [eapply tree_enclose; eauto|]. specialize (X2 (opening t (w ++ [i])) ltac:(lia)). lia.
    + specialize (B1' ltac:(discriminate)). destruct (Z.lt_trichotomy x (opening t (w ++ [S i]))) as [L|[->|G]].
      * exfalso. pose proof (inside_deep _ _ _ x MI ltac:(lia)). specialize (X1 (opening t (w ++ [S i])) ltac:(lia)). lia.
      * eapply tree_enclose; eauto.
      * specialize (X2 (opening t (w ++ [S i])) ltac:(lia)). lia.
Qed.

(** * Preorder *)
Fixpoint below (i : nat) (cs : list tree) : list path :=
  match cs with [] => [] | c :: cs => map (cons i) (preorder c) ++ below (S i) cs end.
Lemma preorder_below cs : preorder (Node cs) = [] :: below 0 cs.
Proof. reflexivity. Qed.

Lemma preorder_length t : Z.of_nat (length (preorder t)) = nodes t /\ count true (encode t) = length (preorder t).
Proof.
  induction t as [cs IH] using tree_ind'. rewrite preorder_below. cbn [encode nodes length].
  enough (forall i, Z.of_nat (length (below i cs)) = fold_right Z.add 0 (map nodes cs) /\ count true (flat_map encode cs) = length (below i cs)) as X.
  { destruct (X O) as [X1 X2]. split; [lia|]. rewrite count_cons, count_app, X2. change (count true [false]) with O. change (eqb true true) with true. cbv iota. lia. }
  induction IH as [|c cs [H1 H2] _ IHcs]; intros i; cbn [below flat_map map fold_right]; [split; reflexivity|].
  destruct (IHcs (S i)) as [X1 X2]. rewrite app_length, map_length, count_app, Nat2Z.inj_add, X2, H2. split; [|reflexivity]. rewrite <- X1, <- H1. reflexivity.
Qed.

Lemma below_sel cs : Forall (fun c => forall k p, nth_error (preorder c) k = Some p ->
    (exists s, subtree c p = Some s) /\ is_select true (encode c) k (Z.to_nat (opening c p))) cs ->
  forall i k p, nth_error (below i cs) k = Some p -> exists j c p' s, p = (i + j)%nat :: p' /\ nth_error cs j = Some c /\ subtree c p' = Some s /\
    is_select true (flat_map encode cs) k (Z.to_nat (zlen (flat_map encode (firstn j cs)) + opening c p')).
Proof.
  induction 1 as [|c cs HC _ IH]; intros i k p Hk; cbn [below] in Hk; [destruct k; discriminate|].
  destruct (Nat.lt_ge_cases k (length (preorder c))) as [L|G].
  - rewrite nth_error_app1 in Hk by (rewrite map_length; exact L). rewrite nth_error_map in Hk.
    destruct (nth_error (preorder c) k) as [p'|] eqn:Ep; [|discriminate]. injection Hk as <-.
    destruct (HC k p' Ep) as [[s HS] HSel]. exists O, c, p', s. rewrite Nat.add_0_r. split; [reflexivity|]. split; [reflexivity|]. split; [exact HS|].
    cbn [firstn flat_map]. change (zlen (@nil bool)) with 0. rewrite Z.add_0_l. apply is_select_app1. exact HSel.
  - rewrite nth_error_app2 in Hk by (rewrite map_length; exact G). rewrite map_length in Hk.
    destruct (IH _ _ _ Hk) as (j & d & p' & s & -> & Ed & HS & HSel). exists (S j), d, p', s.
    split; [f_equal; lia|]. split; [exact Ed|]. split; [exact HS|].
    rewrite firstn_cons. cbn [flat_map]. rewrite zlen_app.
    pose proof (is_select_app2 true (encode c) _ _ _ HSel) as X. destruct (preorder_length c) as [_ LC]. rewrite LC in X.
    pose proof (zlen_nonneg (flat_map encode (firstn j cs))). destruct (opening_in _ _ _ HS).
    replace (length (preorder c) + (k - length (preorder c)))%nat with k in X by lia.
    replace (Z.to_nat (zlen (encode c) + zlen (flat_map encode (firstn j cs)) + opening d p'))
      with (length (encode c) + Z.to_nat (zlen (flat_map encode (firstn j cs)) + opening d p'))%nat by (unfold zlen in *; lia).
    exact X.
Qed.

Lemma preorder_sel t : forall k p, nth_error (preorder t) k = Some p ->
  (exists s, subtree t p = Some s) /\ is_select true (encode t) k (Z.to_nat (opening t p)).
Proof.
  induction t as [cs IH] using tree_ind'. intros k p. rewrite preorder_below. destruct k as [|k]; cbn [nth_error]; intros Hk.
  - injection Hk as <-. split; [eexists; reflexivity|]. split; reflexivity.
  - destruct (below_sel cs IH _ _ _ Hk) as (j & c & p' & s & -> & Ec & HS & HSel). cbn [Nat.add subtree opening]. rewrite Ec. split; [eauto|].
    pose proof (zlen_nonneg (flat_map encode (firstn j cs))). destruct (opening_in _ _ _ HS).
    cbn [encode]. pose proof (is_select_app2 true [true] _ _ _ (is_select_app1 true (flat_map encode cs) [false] _ _ HSel)) as X.
    replace (Z.to_nat (1 + zlen (flat_map encode (firstn j cs)) + opening c p')) with (length [true] + Z.to_nat (zlen (flat_map encode (firstn j cs)) + opening c p'))%nat by (cbn [length]; lia).
    exact X.
Qed.

Lemma below_in cs : forall i j c p, nth_error cs j = Some c -> In p (preorder c) -> In ((i + j)%nat :: p) (below i cs).
Proof.
  induction cs as [|d cs IH]; intros i [|j] c p Hj Hp; cbn in Hj; try discriminate; cbn [below]; apply in_or_app.
  - injection Hj as ->. left. rewrite Nat.add_0_r. apply in_map. exact Hp.
  - right. replace (i + S j)%nat with (S i + j)%nat by lia. eapply IH; eauto.
Qed.
Lemma preorder_all p : forall t s, subtree t p = Some s -> In p (preorder t).
Proof.
  induction p as [|i p IH]; intros [cs] s HS; rewrite preorder_below; [left; reflexivity|right].
  cbn [subtree] in HS. destruct (nth_error cs i) as [c|] eqn:Ec; [|discriminate]. apply (below_in cs 0 i c p Ec). eapply IH; eauto.
Qed.

Lemma tree_preorder uninit h h0 t : zlen (encode t) < 2 ^ 31 -> exists bp, bp_build uninit (bv_range (encode t)) h h0 = Ok bp /\
  num_ones (bp_rs bp) = Ok (nodes t) /\ zlen (preorder t) = nodes t /\
  (forall p s, subtree t p = Some s -> In p (preorder t)) /\
  forall k p, nth_error (preorder t) k = Some p -> (exists s, subtree t p = Some s) /\
    rs_select (bp_rs bp) (Z.of_nat k) = Ok (opening t p) /\ rs_rank (bp_rs bp) (opening t p) = Ok (Z.of_nat k).
Proof.
  intros Hs. destruct (tree_build uninit h h0 t Hs) as (bp & Eb & HB). exists bp. split; [exact Eb|].
  destruct HB as (HR & _). destruct (preorder_length t) as [L1 L2].
  split; [rewrite (num_ones_ok (encode t)) by exact HR; rewrite L2; f_equal; exact L1|]. split; [exact L1|].
  split; [intros p s HS; eapply preorder_all; eauto|]. intros k p Hk. destruct (preorder_sel t k p Hk) as [[s HS] HSel]. split; [eauto|].
  destruct (opening_in _ _ _ HS) as [P0 P1]. pose proof (nodes_pos s). split.
  - rewrite rs_select_eq, (select_gen_ok false (encode t) _ _ _ HR HSel). f_equal. lia.
  - rewrite (rs_rank_ok (encode t)) by (auto; rewrite zlen_encode; lia). destruct HSel as [_ ->]. reflexivity.
Qed.
