From Verif Require Import Base Spec Lib M_Broadword M_BitVector M_RsBitVector M_Darray M_Bp M_Steps.
From Verif Require Import P_BvLib P_BvRank S_BitVector P_RsGen P_RsBuild P_RsQuery S_Bp P_BpWord P_BpBuild P_BpSearch P_BpSpec P_BpRmq P_BvGen P_BvEnum P_BitVector P_Builder S_Darray P_Darray P_Space2 P_Safety P_BvProps.

Lemma pow2_S k : 2 ^ Z.of_nat (S k) = 2 * 2 ^ Z.of_nat k.
Proof. replace (Z.of_nat (S k)) with (Z.of_nat k + 1) by lia. apply pow2_succ. lia. Qed.
Lemma pow2_pos k : 0 < 2 ^ Z.of_nat k.
Proof. apply Z.pow_pos_nonneg; lia. Qed.

(** ** Binary searches *)
Lemma block_search_fast k pairs n : forall a b fuel c, 0 <= a -> a <= b -> b - a <= 2 ^ Z.of_nat k ->
  block_search fuel pairs n a b = Ok c -> block_search k pairs n a b = Ok c.
Proof.
  induction k as [|k IH]; intros a b fuel c Ha Hb Hk E.
  - change (2 ^ Z.of_nat 0) with 1 in Hk. cbn [block_search]. replace (1 <? sub64 b a) with false by (rewrite sub64_ok by lia; lia).
    destruct fuel; cbn [block_search] in E; replace (1 <? sub64 b a) with false in E by (rewrite sub64_ok by lia; lia); exact E.
  - rewrite pow2_S in Hk. cbn [block_search]. destruct fuel as [|fuel]; cbn [block_search] in E.
    + destruct (1 <? sub64 b a); [discriminate|exact E].
    + rewrite sub64_ok in * by lia. destruct (Z.ltb_spec 1 (b - a)) as [C|C]; [|exact E].
      destruct (block_rank pairs (a + (b - a) / 2)) as [x|]; [|discriminate]. cbn [bind] in *.
      destruct (x <=? n); apply IH with (fuel := fuel); auto; clear - Ha Hb Hk C; dlia.
Qed.
Lemma block_search0_fast k pairs n : forall a b fuel c, 0 <= a -> a <= b -> b - a <= 2 ^ Z.of_nat k ->
  block_search0 fuel pairs n a b = Ok c -> block_search0 k pairs n a b = Ok c.
Proof.
  induction k as [|k IH]; intros a b fuel c Ha Hb Hk E.
  - change (2 ^ Z.of_nat 0) with 1 in Hk. cbn [block_search0]. replace (1 <? sub64 b a) with false by (rewrite sub64_ok by lia; lia).
    destruct fuel; cbn [block_search0] in E; replace (1 <? sub64 b a) with false in E by (rewrite sub64_ok by lia; lia); exact E.
  - rewrite pow2_S in Hk. cbn [block_search0]. destruct fuel as [|fuel]; cbn [block_search0] in E.
    + destruct (1 <? sub64 b a); [discriminate|exact E].
    + rewrite sub64_ok in * by lia. destruct (Z.ltb_spec 1 (b - a)) as [C|C]; [|exact E].
      destruct (block_rank0 pairs (a + (b - a) / 2)) as [x|]; [|discriminate]. cbn [bind] in *.
      destruct (x <=? n); apply IH with (fuel := fuel); auto; clear - Ha Hb Hk C; dlia.
Qed.

(** ** The min tree *)
Lemma tree_up_fast n dir bp e : forall cur fuel r, 0 <= cur < 2 ^ Z.of_nat n ->
  tree_up_loop fuel dir bp cur e = Ok r -> tree_up_loop n dir bp cur e = Ok r.
Proof.
  induction n as [|n IH]; intros cur fuel r Hc E; destruct fuel as [|fuel]; try discriminate; cbn [tree_up_loop] in *.
  - change (2 ^ Z.of_nat 0) with 1 in Hc. replace cur with 0 in E by lia. discriminate.
  - rewrite pow2_S in Hc. destruct (negb (cur =? 0)) eqn:E0; [|discriminate]. cbn [assert_ bind] in *.
    assert (H2 : 0 <= cur / 2 < 2 ^ Z.of_nat n) by (clear - Hc; dlia).
    destruct (Bool.eqb (Z.odd cur) dir); [eapply IH; eauto|].
    destruct (in_node_range bp (if dir then cur + 1 else sub64 cur 1) e) as [[]|]; try discriminate; cbn [bind] in *; [exact E|].
    eapply IH; eauto.
Qed.
Lemma tree_down_fast n dir bp e : forall cur fuel r, 0 < cur -> bp_internal_nodes bp <= cur * 2 ^ Z.of_nat n -> bp_internal_nodes bp < 2 ^ 62 ->
  tree_down_loop fuel dir bp cur e = Ok r -> tree_down_loop n dir bp cur e = Ok r.
Proof.
  induction n as [|n IH]; intros cur fuel r Hc Hi Hs E.
  - change (2 ^ Z.of_nat 0) with 1 in Hi. cbn [tree_down_loop]. replace (bp_internal_nodes bp <=? cur) with true by lia.
    destruct fuel; cbn [tree_down_loop] in E; replace (bp_internal_nodes bp <=? cur) with true in E by lia; exact E.
  - rewrite pow2_S in Hi. cbn [tree_down_loop]. destruct fuel as [|fuel]; cbn [tree_down_loop] in E; [destruct (_ <=? _); [exact E|discriminate]|].
    destruct (Z.leb_spec (bp_internal_nodes bp) cur) as [C|C]; [exact E|]. pose proof (pow2_pos n) as P0.
    destruct (in_node_range bp _ e) as [[]|]; try discriminate; cbn [bind] in *.
    + eapply IH; [| | |exact E]; destruct dir; try assumption; nia.
    + destruct (in_node_range bp (if dir then _ else _) e) as [[]|]; try discriminate; cbn [bind assert_] in *.
      eapply IH; [| | |exact E]; destruct dir; try assumption; rewrite ?sub64_ok by lia; nia.
Qed.

Lemma rd_bound (l : list Z) i x : rd l i = Ok x -> 0 <= i < zlen l.
Proof. intros E. destruct (Z_lt_ge_dec i 0); [rewrite rd_oob in E by lia; discriminate|]. destruct (Z_lt_ge_dec i (zlen l)); [lia|rewrite rd_oob in E by lia; discriminate]. Qed.

(** a tree with at most 2^k inner nodes *)
Definition small_tree (k : nat) (bp : bp_vector) : Prop :=
  0 < bp_internal_nodes bp <= 2 ^ Z.of_nat k /\ bp_internal_nodes bp < 2 ^ 62 /\
  zlen (bp_superblock_excess_min bp) <= 2 * bp_internal_nodes bp /\
  zlen (bp_block_excess_min bp) <= 32 * bp_internal_nodes bp.

Lemma in_node_range_bound bp i e r : in_node_range bp i e = Ok r -> 0 <= i < zlen (bp_superblock_excess_min bp).
Proof. unfold in_node_range. intros E. apply bind_inv in E. destruct E as (v & E & _). eapply rd_bound; eauto. Qed.

Lemma tree_up_node fuel dir bp e : forall cur r, tree_up_loop fuel dir bp cur e = Ok r -> 0 <= r.
Proof.
  induction fuel as [|fuel IH]; intros cur r E; [discriminate|]. cbn [tree_up_loop] in E.
  destruct (negb (cur =? 0)); [|discriminate]. cbn [assert_ bind] in E.
  destruct (Bool.eqb (Z.odd cur) dir); [eapply IH; eauto|].
  destruct (in_node_range _ _ e) as [[]|] eqn:Er; try discriminate; cbn [bind] in E; [|eapply IH; eauto].
  apply in_node_range_bound in Er. injection E as <-. lia.
Qed.

Lemma search_min_tree_fast k dir bp block e r : small_tree k bp -> 0 <= block ->
  (dir = true -> block <= zlen (bp_block_excess_min bp)) ->
  search_min_tree dir bp block e = Ok r -> search_min_tree_in (S k) dir bp block e = Ok r.
Proof.
  intros (S1 & S2 & S3 & S4) Hb Hd E. unfold search_min_tree in E. unfold search_min_tree_in.
  destruct (search_block_in_superblock dir bp block e) as [[f|]|] eqn:Es; try discriminate; cbn [bind] in *; [exact E|].
  change superblock_size with 32 in *. set (I := bp_internal_nodes bp) in *.
  assert (B : block < 32 * I \/ dir = true /\ block = 32 * I).
  { destruct dir; [specialize (Hd eq_refl); lia|]. left. unfold search_block_in_superblock in Es. change superblock_size with 32 in Es.
    destruct (get_block_excess _ _) as [x|]; [|discriminate]. cbn [bind] in Es.
    assert (N : exists m, Z.to_nat (block + 1 - block / 32 * 32) = S m) by (exists (Z.to_nat (block - block / 32 * 32)); clear - Hb; dlia).
    destruct N as (m & N). rewrite N in Es. cbn [block_search_loop] in Es. apply bind_inv in Es. destruct Es as (v & Es & _).
    apply rd_bound in Es. lia. }
  destruct (tree_up_loop (length (bp_superblock_excess_min bp)) dir bp (I + block / 32) e) as [cur|] eqn:Eu; [|discriminate].
  assert (Eu' : tree_up_loop (S k) dir bp (I + block / 32) e = Ok cur).
  { destruct B as [B|[-> B]].
    - eapply tree_up_fast; [|exact Eu]. rewrite pow2_S. clear - B S1 Hb. dlia.
    - exfalso. replace (I + block / 32) with (2 * I) in Eu by (subst block; clear; dlia). destruct (length _); [discriminate|]. cbn [tree_up_loop] in Eu.
      replace (negb (2 * I =? 0)) with true in Eu by lia. cbn [assert_ bind] in Eu. rewrite Z.odd_mul in Eu. change (Z.odd 2) with false in Eu. cbn [andb Bool.eqb] in Eu.
      destruct (in_node_range bp (2 * I + 1) e) eqn:Er; [|discriminate]. apply in_node_range_bound in Er. lia. }
  rewrite Eu'. cbn [bind] in *. destruct (negb (cur =? 0)) eqn:E0; [|discriminate]. cbn [assert_ bind] in *.
  apply tree_up_node in Eu. destruct (tree_down_loop _ dir bp cur e) as [leaf|] eqn:Ed; [|discriminate].
  apply tree_down_fast with (n := S k) in Ed; [|lia|rewrite pow2_S; fold I; nia|assumption].
  rewrite Ed. exact E.
Qed.

Lemma find_close_fast k sp bp pos r : small_tree k bp -> 0 <= pos -> zlen (bp_words bp) <= 4 * zlen (bp_block_excess_min bp) ->
  find_close sp bp pos = Ok r -> find_close_in (S k) sp bp pos = Ok r.
Proof.
  intros T Hp Hw E. unfold find_close in E. unfold find_close_in.
  destruct (bv_get _ pos) as [b|]; [|discriminate]. cbn [bind] in *. destruct b; [|discriminate]. cbn [assert_ bind] in *.
  destruct (rd (bp_words bp) ((pos + 1) / 64)) as [w|] eqn:Ew; [|discriminate]. apply rd_bound in Ew. cbn [bind] in *.
  destruct (shr w _) as [x|]; [|discriminate]. cbn [bind] in *.
  destruct (shl_p sp _ _) as [o|]; [|discriminate]. cbn [bind] in *.
  destruct (find_close_in_word _ _ 1) as [[q|]|]; try discriminate; cbn [bind] in *; [exact E|].
  destruct (int32 _) as [e1|]; [|discriminate]. cbn [bind] in *.
  destruct (find_close_in_block _ _ e1 _) as [[q|]|]; try discriminate; cbn [bind] in *; [exact E|].
  destruct (excess bp pos) as [pe|]; [|discriminate]. cbn [bind] in *.
  destruct (search_min_tree true bp _ pe) as [fb|] eqn:Es; [|discriminate]. cbn [bind] in *.
  apply search_min_tree_fast with (k := k) in Es; [rewrite Es; exact E|exact T|change bp_block_size with 4; clear - Hp; dlia|].
  intros _. change bp_block_size with 4. clear - Ew Hw. generalize dependent ((pos + 1) / 64). intros. dlia.
Qed.

Lemma find_open_fast k sp bp pos r : small_tree k bp ->
  find_open sp bp pos = Ok r -> find_open_in (S k) sp bp pos = Ok r.
Proof.
  intros T E. unfold find_open in E. unfold find_open_in.
  destruct (negb (pos =? 0)); [|discriminate]. cbn [assert_ bind] in *.
  destruct (rd (bp_words bp) (pos / 64)) as [w|] eqn:Ew; [|discriminate]. apply rd_bound in Ew. cbn [bind] in *.
  destruct (shl_p sp _ _) as [x|]; [|discriminate]. cbn [bind] in *.
  destruct (find_open_in_word _ _ 1) as [[q|]|]; try discriminate; cbn [bind] in *; [exact E|].
  destruct (int32 _) as [e0|]; [|discriminate]. cbn [bind] in *.
  destruct (int32 (e0 + 1)) as [e1|]; [|discriminate]. cbn [bind] in *.
  destruct (find_open_in_block _ _ e1 _) as [[q|]|]; try discriminate; cbn [bind] in *; [exact E|].
  destruct (excess bp pos) as [pe|]; [|discriminate]. cbn [bind] in *.
  destruct (int32 (pe - 1)) as [e2|]; [|discriminate]. cbn [bind] in *.
  destruct (search_min_tree false bp _ e2) as [fb|] eqn:Es; [|discriminate]. cbn [bind] in *.
  apply search_min_tree_fast with (k := k) in Es; [rewrite Es; exact E|exact T| |discriminate].
  change bp_block_size with 4. unfold sub64. destruct (Z.leb_spec 1 (pos / 64 / 4)); [lia|unfold u64; apply Z.mod_pos_bound; lia].
Qed.
Lemma enclose_fast k sp bp pos r : small_tree k bp ->
  enclose sp bp pos = Ok r -> enclose_in (S k) sp bp pos = Ok r.
Proof.
  intros T E. unfold enclose in E. unfold enclose_in.
  destruct (bv_get _ pos) as [b|]; [|discriminate]. cbn [bind] in *. destruct b; [|discriminate]. cbn [assert_ bind] in *.
  apply find_open_fast; auto.
Qed.

(** ** The range search over superblocks *)
Lemma span_up_fast n tree se : forall cur h span nme nmi fuel r, 0 <= cur < 2 ^ Z.of_nat n ->
  span_up_loop fuel tree se cur h span nme nmi = Ok r -> span_up_loop n tree se cur h span nme nmi = Ok r.
Proof.
  induction n as [|n IH]; intros cur h span nme nmi fuel r Hc E; destruct fuel as [|fuel]; try discriminate; cbn [span_up_loop] in *.
  - change (2 ^ Z.of_nat 0) with 1 in Hc. replace cur with 0 in E by lia. discriminate.
  - rewrite pow2_S in Hc. destruct (negb (cur =? 0)) eqn:E0; [|discriminate]. cbn [assert_ bind] in *.
    assert (H2 : 0 <= cur / 2 < 2 ^ Z.of_nat n) by (clear - Hc; dlia).
    destruct (Z.odd cur); [eapply IH; eauto|].
    destruct (shl 1 h) as [s|]; [|discriminate]. cbn [bind] in *.
    destruct (if span + s <? se then _ else _) as [[a b]|]; [|discriminate]. cbn [bind] in *.
    destruct (se - 1 <=? span + s); [exact E|]. eapply IH; eauto.
Qed.
(** what the climb returns: the height is at most the number of halvings, the best node is a node *)
Lemma span_up_inv tree se : forall fuel n cur h span nme nmi r, 0 <= cur < 2 ^ Z.of_nat n -> 0 < nmi ->
  span_up_loop fuel tree se cur h span nme nmi = Ok r ->
  let '(_, h', _, _, nmi') := r in h' < h + Z.of_nat n /\ 0 < nmi'.
Proof.
  induction fuel as [|fuel IH]; intros n cur h span nme nmi r Hc Hm E; [discriminate|]. cbn [span_up_loop] in E.
  destruct (Z.eqb_spec cur 0) as [|C]; [discriminate|]. cbn [negb assert_ bind] in E.
  destruct n as [|n]; [change (2 ^ Z.of_nat 0) with 1 in Hc; lia|]. rewrite pow2_S in Hc.
  assert (H2 : 0 <= cur / 2 < 2 ^ Z.of_nat n) by (clear - Hc; dlia).
  destruct (Z.odd cur).
  { specialize (IH n (cur / 2) (h + 1) span nme nmi r H2 Hm E). destruct r as [[[[? ?] ?] ?] ?]. lia. }
  destruct (shl 1 h) as [s|]; [|discriminate]. cbn [bind] in E.
  destruct (if span + s <? se then _ else _) as [[a b]|] eqn:Eb; [|discriminate]. cbn [bind] in E.
  assert (B : 0 < b).
  { destruct (span + s <? se); [|injection Eb as <- <-; exact Hm]. apply bind_inv in Eb. destruct Eb as (v & _ & Eb).
    destruct (v <? nme); injection Eb as <- <-; lia. }
  destruct (se - 1 <=? span + s); [injection E as <-; lia|].
  specialize (IH n (cur / 2) (h + 1) (span + s) a b r H2 B E). destruct r as [[[[? ?] ?] ?] ?]. lia.
Qed.
Lemma span_up_cur tree se : forall fuel cur h span nme nmi r, 0 <= cur ->
  span_up_loop fuel tree se cur h span nme nmi = Ok r -> let '(c, _, _, _, _) := r in 0 < c.
Proof.
  induction fuel as [|fuel IH]; intros cur h span nme nmi r Hc E; [discriminate|]. cbn [span_up_loop] in E.
  destruct (Z.eqb_spec cur 0) as [|C]; [discriminate|]. cbn [negb assert_ bind] in E.
  assert (H2 : 0 <= cur / 2) by (clear - Hc; dlia).
  destruct (Z.odd cur); [eapply IH; eauto|].
  destruct (shl 1 h) as [s|]; [|discriminate]. cbn [bind] in E.
  destruct (if span + s <? se then _ else _) as [[a b]|] eqn:Eb; [|discriminate]. cbn [bind] in E.
  destruct (se - 1 <=? span + s); [injection E as <-; lia|]. eapply IH; eauto.
Qed.
Lemma span_down_fast n tree se : forall cur h span nme nmi fuel r, h <= Z.of_nat n ->
  span_down_loop fuel tree se cur h span nme nmi = Ok r -> span_down_loop n tree se cur h span nme nmi = Ok r.
Proof.
  induction n as [|n IH]; intros cur h span nme nmi fuel r Hh E; cbn [span_down_loop];
    destruct fuel as [|fuel]; cbn [span_down_loop] in E; try (destruct (span <=? se - 1); [exact E|discriminate]).
  - destruct (span <=? se - 1); [exact E|]. destruct (cur <? zlen tree); [|discriminate]. cbn [assert_ bind] in E.
    replace (0 <? h) with false in E by lia. discriminate.
  - destruct (span <=? se - 1); [exact E|]. destruct (cur <? zlen tree); [|discriminate]. cbn [assert_ bind] in *.
    destruct (0 <? h); [|discriminate]. cbn [assert_ bind] in *.
    destruct (shl 1 (h - 1)) as [s|]; [|discriminate]. cbn [bind] in *.
    destruct (se - 1 <=? sub64 span s); [eapply IH; [lia|exact E]|].
    destruct (rd tree (cur * 2)) as [v|]; [|discriminate]. cbn [bind] in *.
    destruct (v <? nme); (eapply IH; [lia|exact E]).
Qed.
Lemma span_down_inv tree se : forall fuel cur h span nme nmi r, 0 < cur -> 0 < nmi ->
  span_down_loop fuel tree se cur h span nme nmi = Ok r -> let '(c, _, _, nmi') := r in 0 < c /\ 0 < nmi'.
Proof.
  induction fuel as [|fuel IH]; intros cur h span nme nmi r Hc Hm E; cbn [span_down_loop] in E;
    (destruct (span <=? se - 1); [injection E as <-; lia|]); [discriminate|].
  destruct (cur <? zlen tree); [|discriminate]. cbn [assert_ bind] in *.
  destruct (0 <? h); [|discriminate]. cbn [assert_ bind] in *.
  destruct (shl 1 (h - 1)) as [s|]; [|discriminate]. cbn [bind] in *.
  destruct (se - 1 <=? sub64 span s); [eapply IH; [| |exact E]; lia|].
  destruct (rd tree (cur * 2)) as [v|]; [|discriminate]. cbn [bind] in *.
  destruct (v <? nme); (eapply IH; [| |exact E]; lia).
Qed.
Lemma min_leaf_fast n tree I : forall cur fuel r, 0 < cur -> I <= cur * 2 ^ Z.of_nat n ->
  min_leaf_loop fuel tree I cur = Ok r -> min_leaf_loop n tree I cur = Ok r.
Proof.
  induction n as [|n IH]; intros cur fuel r Hc Hi E.
  - change (2 ^ Z.of_nat 0) with 1 in Hi. cbn [min_leaf_loop]. replace (I <=? cur) with true by lia.
    destruct fuel; cbn [min_leaf_loop] in E; replace (I <=? cur) with true in E by lia; exact E.
  - rewrite pow2_S in Hi. cbn [min_leaf_loop]. destruct fuel as [|fuel]; cbn [min_leaf_loop] in E; [destruct (_ <=? _); [exact E|discriminate]|].
    destruct (Z.leb_spec I cur) as [C|C]; [exact E|]. pose proof (pow2_pos n) as P0.
    destruct (rd tree (cur * 2 + 1)) as [r1|]; [|discriminate]. cbn [bind] in *.
    destruct (rd tree (cur * 2)) as [l1|]; [|discriminate]. cbn [bind] in *.
    eapply IH; [| |exact E]; destruct (r1 <? l1); nia.
Qed.

Lemma find_min_superblock_fast k bp a b me mi r : small_tree k bp -> 0 <= a ->
  find_min_superblock bp a b me mi = Ok r -> find_min_superblock_in (S k) bp a b me mi = Ok r.
Proof.
  intros (S1 & S2 & S3 & S4) Ha E. unfold find_min_superblock in E. unfold find_min_superblock_in.
  destruct (a =? b); [exact E|]. destruct (rd _ (bp_internal_nodes bp + a)) as [v|] eqn:Ev; [|discriminate]. apply rd_bound in Ev. cbn [bind] in *.
  destruct (sub64 b a =? 1); [exact E|].
  assert (Hc : 0 <= bp_internal_nodes bp + a < 2 ^ Z.of_nat (S k)) by (rewrite pow2_S; lia).
  destruct (span_up_loop _ _ b (bp_internal_nodes bp + a) 0 a v _) as [[[[[cur h] span] nme] nmi]|] eqn:Eu; [|discriminate].
  assert (Hm : 0 < bp_internal_nodes bp + a) by lia.
  pose proof (span_up_inv _ _ _ (S k) _ _ _ _ _ _ Hc Hm Eu) as (I1 & I2). pose proof (span_up_cur _ _ _ _ _ _ _ _ _ (proj1 Hc) Eu) as I3.
  rewrite (span_up_fast (S k) _ _ _ _ _ _ _ _ _ Hc Eu). cbn [bind] in *.
  destruct (negb (cur =? 0)); [|discriminate]. cbn [assert_ bind] in *.
  destruct (span_down_loop _ _ b cur h span nme nmi) as [[[[cur2 span2] nme2] nmi2]|] eqn:Ed; [|discriminate].
  pose proof (span_down_inv _ _ _ _ _ _ _ _ _ I3 I2 Ed) as (J1 & J2).
  assert (Hh : h <= Z.of_nat (S k)) by lia.
  rewrite (span_down_fast (S k) _ _ _ _ _ _ _ _ _ Hh Ed). cbn [bind] in *.
  destruct (if span2 <? b then _ else _) as [[nme3 nmi3]|] eqn:Eb; [|discriminate]. cbn [bind] in *.
  assert (B : 0 < nmi3).
  { destruct (span2 <? b); [|injection Eb as <- <-; exact J2]. apply bind_inv in Eb. destruct Eb as (x & _ & Eb).
    destruct (x <? nme2); injection Eb as <- <-; assumption. }
  destruct (span2 =? b - 1); [|discriminate]. cbn [assert_ bind] in *.
  destruct (nme3 <? me); [|exact E].
  destruct (min_leaf_loop _ _ _ nmi3) as [leaf|] eqn:El; [|discriminate].
  assert (Hi : bp_internal_nodes bp <= nmi3 * 2 ^ Z.of_nat (S k)) by (rewrite pow2_S; nia).
  rewrite (min_leaf_fast (S k) _ _ _ _ _ B Hi El). exact E.
Qed.

Lemma excess_rmq_blocks_fast k cs bp a b me mi r : small_tree k bp -> 0 <= a ->
  excess_rmq_blocks cs bp a b me mi = Ok r -> excess_rmq_blocks_in (S k) cs bp a b me mi = Ok r.
Proof.
  intros T Ha E. unfold excess_rmq_blocks in E. unfold excess_rmq_blocks_in. change superblock_size with 32 in *.
  destruct ((a + 1) / 32 =? b / 32); [exact E|].
  destruct (excess_rmq_in_superblock bp (a + 1) _ _ _) as [[x y]|]; [|discriminate]. cbn [bind] in *.
  destruct (find_min_superblock _ _ _ _ _) as [[x' y']|] eqn:Ef; [|discriminate].
  assert (H1 : 0 <= (a + 1) / 32 + 1) by (clear - Ha; dlia). rewrite (find_min_superblock_fast k _ _ _ _ _ _ T H1 Ef). exact E.
Qed.
Lemma excess_rmq_fast k cs bp a b r : small_tree k bp -> 0 <= a ->
  excess_rmq cs bp a b = Ok r -> excess_rmq_in (S k) cs bp a b = Ok r.
Proof.
  intros T Ha E. unfold excess_rmq in E. unfold excess_rmq_in. change bp_block_size with 4 in *.
  destruct (a <=? b); [|discriminate]. cbn [assert_ bind] in *.
  destruct (excess bp a) as [ce|]; [|discriminate]. cbn [bind] in *.
  destruct (a =? b); [exact E|].
  destruct (rd _ (a / 64)) as [wa|]; [|discriminate]. cbn [bind] in *.
  destruct (shr wa _) as [x|]; [|discriminate]. cbn [bind] in *.
  destruct (if Z.min _ _ =? 64 then _ else _) as [y|]; [|discriminate]. cbn [bind] in *.
  destruct (excess_rmq_in_word cs y ce a ce a) as [[[c1 m1] i1]|]; [|discriminate]. cbn [bind] in *.
  destruct (a / 64 =? (b - 1) / 64); [exact E|].
  destruct (int32 _) as [c2|]; [|discriminate]. cbn [bind] in *.
  destruct (a / 64 / 4 =? (b - 1) / 64 / 4); [exact E|].
  destruct (excess_rmq_in_block cs _ (a / 64 + 1) _ c2 m1 i1) as [[[c3 m3] i3]|]; [|discriminate]. cbn [bind] in *.
  destruct (excess_rmq_blocks _ _ _ _ _ _) as [[m4 i4]|] eqn:Eb; [|discriminate].
  assert (H1 : 0 <= a / 64 / 4) by (clear - Ha; dlia). rewrite (excess_rmq_blocks_fast k _ _ _ _ _ _ _ T H1 Eb). exact E.
Qed.

(** ** The parentheses structure of a sequence of at most 8192 * 2^k symbols *)
Lemma bp_small_tree l uninit h h0 k bp : zlen l < 2 ^ 31 -> prefix_ok l -> 0 < zlen l -> zlen l <= 8192 * 2 ^ Z.of_nat k ->
  bp_build uninit (bv_range l) h h0 = Ok bp -> bp_ok l bp ->
  small_tree k bp /\ zlen (bp_words bp) <= 4 * zlen (bp_block_excess_min bp).
Proof.
  intros Hs HP H0 Hk E HB. destruct (bp_space uninit h h0 l Hs HP H0) as (bp' & E' & Lm & Li & Lt). rewrite E in E'. injection E' as <-.
  destruct HB as ((Ebv & _) & _ & _ & HB). destruct (HB H0) as (_ & H & Hi & T1 & _). clear HB.
  set (lv := (zlen l + 8191) / 8192) in *. assert (Hl : lv <= 2 ^ Z.of_nat k) by (unfold lv; clear - Hk; dlia).
  assert (H1 : H <= Z.of_nat k).
  { destruct (Z.le_gt_cases H (Z.of_nat k)) as [|C]; [assumption|]. exfalso.
    assert (2 ^ (Z.of_nat k + 1) <= 2 ^ H) by (apply Z.pow_le_mono_r; lia). rewrite pow2_succ in * by lia. lia. }
  assert (H2 : 2 ^ H <= 2 ^ Z.of_nat k) by (apply Z.pow_le_mono_r; lia).
  assert (H3 : 2 ^ H <= 2 ^ 33) by (apply Z.pow_le_mono_r; lia).
  assert (H4 : 2 ^ 33 < 2 ^ 62) by reflexivity. assert (H5 : 0 < 2 ^ H) by (apply Z.pow_pos_nonneg; lia).
  split; [split; [|split; [|split]]|]; [lia|lia|lia| |].
  - rewrite Lm. unfold lv in Li. clear - Li. dlia.
  - unfold bp_words. rewrite Ebv. cbn [canonical bv_words]. rewrite Lm, zlen_pack. clear. dlia.
Qed.

Lemma steps_parentheses f uninit h h0 l k : zlen l < 2 ^ 31 -> prefix_ok l -> zlen l <= 8192 * 2 ^ Z.of_nat k ->
  exists bp, bp_build uninit (bv_range l) h h0 = Ok bp /\
  (forall p m, matches l p m -> find_close_in (S k) (loose_shift f) bp p = Ok m /\ find_open_in (S k) (loose_shift f) bp m = Ok p) /\
  (forall p r, nth_error l p = Some true -> innermost l r (Z.of_nat p) -> enclose_in (S k) (loose_shift f) bp (Z.of_nat p) = Ok r) /\
  (forall p, nth_error l p <> Some true ->
     find_close_in (S k) (loose_shift f) bp (Z.of_nat p) = Ub AssertFailed /\ enclose_in (S k) (loose_shift f) bp (Z.of_nat p) = Ub AssertFailed).
Proof.
  intros Hs HP Hk. destruct (bp_build_ok l uninit h h0 Hs (proj1 (prefix_ok_nonneg l) HP)) as (bp & Eb & HB).
  exists bp. split; [exact Eb|]. split; [|split].
  - intros p m HM. pose proof (proj1 (matches_excess l p m) HM) as (P0 & P1 & _ & (P2 & _)).
    destruct (bp_small_tree l uninit h h0 k bp Hs HP ltac:(lia) Hk Eb HB) as (T & Hw).
    split; [apply find_close_fast|apply find_open_fast]; auto; [eapply find_close_matches; eauto|eapply find_open_matches; eauto].
  - intros p r Hn HI. apply nth_zbit in Hn. destruct Hn as [Hn Zn].
    destruct (bp_small_tree l uninit h h0 k bp Hs HP ltac:(lia) Hk Eb HB) as (T & _).
    apply enclose_fast; auto. destruct (enclose_ok f l bp r (Z.of_nat p) HB Hn Zn (proj1 HI)) as (r' & -> & HI').
    f_equal. eapply innermost_unique; eauto.
  - intros p Np. destruct HB as ((Hbv & _) & _). assert (G : (do b <- bv_get (rs_bv (bp_rs bp)) (Z.of_nat p); assert_ b (Ok tt)) = Ub AssertFailed).
    { rewrite Hbv. destruct (nth_error l p) as [b|] eqn:E.
      - rewrite (bv_get_nth l p b E). cbn [bind]. destruct b; [congruence|reflexivity].
      - apply nth_error_None in E. unfold bv_get. rewrite assert_false; [reflexivity|]. cbn [canonical bv_size]. unfold zlen. lia. }
    unfold find_close_in, enclose_in. destruct (bv_get (rs_bv (bp_rs bp)) (Z.of_nat p)) as [[|]|r]; cbn [bind assert_] in G |- *; try discriminate; auto.
    injection G as ->. auto.
Qed.

Lemma steps_rmq uninit h h0 l k : zlen l < 2 ^ 31 -> prefix_ok l -> zlen l <= 8192 * 2 ^ Z.of_nat k ->
  (bal l \/ forall p, 0 <= p <= zlen l -> depth l p < 2 ^ 31 - 64) ->
  exists bp, bp_build uninit (bv_range l) h h0 = Ok bp /\
  forall a b, 0 <= a <= b -> b <= zlen l ->
    exists p, excess_rmq_in (S k) true bp a b = Ok (p, depth l p) /\ leftmost_min_depth l a b p.
Proof.
  intros Hs HP Hk HD. destruct (bp_rmq uninit h h0 l Hs HP HD) as (bp & Eb & HQ).
  exists bp. split; [exact Eb|]. intros a b Ha Hb. destruct (HQ a b Ha Hb) as (p & E & HL). exists p. split; [|exact HL].
  destruct (Z.eq_dec a b) as [<-|N].
  - unfold excess_rmq in E. unfold excess_rmq_in. rewrite Z.eqb_refl in *. exact E.
  - destruct (bp_build_ok l uninit h h0 Hs (proj1 (prefix_ok_nonneg l) HP)) as (bp' & Eb' & HB). rewrite Eb in Eb'. injection Eb' as <-.
    destruct (bp_small_tree l uninit h h0 k bp Hs HP ltac:(lia) Hk Eb HB) as (T & _). apply excess_rmq_fast; auto. lia.
Qed.

(** ** select of a bit vector of at most 512 * (2^k - 1) bits *)
Lemma nb_small l k : zlen l + 512 <= 512 * 2 ^ Z.of_nat k -> nb l + 1 <= 2 ^ Z.of_nat k.
Proof. unfold nb. rewrite zlen_pack. intros H. dlia. Qed.

Lemma select_range neg l rs n q : rs_ok l rs -> is_select (negb neg) l n q ->
  exists a b, range_gen (if neg then rs_hints0 rs else rs_hints rs) (rs_pairs rs) (Z.of_nat n) = Ok (a, b) /\ 0 <= a < b /\ b <= nb l + 1.
Proof.
  intros (Ebv & P & H1 & H2) Hq. pose proof (is_select_bound _ _ _ _ Hq) as Hql.
  assert (Hm := is_select_bpad neg l n q Hq).
  assert (Hqw : 0 <= Z.of_nat q / 64 < zlen (pack l)) by (apply block_lt; unfold zlen; lia).
  pose proof (nb_words l) as Nw.
  assert (Hn : 0 <= Z.of_nat n < G neg l (8 * nb l)).
  { split; [lia|]. destruct (Z.lt_ge_cases (Z.of_nat n) (G neg l (8 * nb l))) as [|C]; auto. exfalso.
    apply (sel_G neg l n q (8 * nb l) Hm ltac:(lia)) in C. revert C Hqw Nw. clear.
    generalize (nb l). intros. dlia. }
  destruct (search_range_ok neg l (if neg then rs_hints0 rs else rs_hints rs) (rs_pairs rs) (Z.of_nat n) P
     ltac:(destruct neg; auto) Hn) as (a & b & E & A1 & A2 & _). exists a, b. auto.
Qed.

Lemma select_fast l k rs n q : zlen l + 512 <= 512 * 2 ^ Z.of_nat k -> rs_ok l rs ->
  is_select true l n q -> rs_select_in k rs (Z.of_nat n) = Ok (Z.of_nat q).
Proof.
  intros Hk HR Hq. pose proof (nb_small l k Hk) as Hb.
  assert (E : rs_select rs (Z.of_nat n) = Ok (Z.of_nat q)) by (rewrite rs_select_eq; apply (select_gen_ok false l); auto).
  destruct (select_range false l rs n q HR Hq) as (a & b & Er & A1 & A2). change range_gen with search_range in Er.
  unfold rs_select in E. unfold rs_select_in. rewrite Er in *. cbn [bind] in *.
  destruct (num_ones rs) as [t|]; [|discriminate]. cbn [bind] in *. destruct (Z.of_nat n <? t); [|discriminate]. cbn [assert_ bind] in *.
  destruct (block_search _ _ _ a b) as [c|] eqn:Ec; [|discriminate].
  assert (D : 0 <= a /\ a <= b /\ b - a <= 2 ^ Z.of_nat k) by lia. destruct D as (D1 & D2 & D3).
  rewrite (block_search_fast k _ _ _ _ _ _ D1 D2 D3 Ec). exact E.
Qed.
Lemma select0_fast l k rs n q : zlen l + 512 <= 512 * 2 ^ Z.of_nat k -> rs_ok l rs ->
  is_select false l n q -> rs_select0_in k rs (Z.of_nat n) = Ok (Z.of_nat q).
Proof.
  intros Hk HR Hq. pose proof (nb_small l k Hk) as Hb.
  assert (E : rs_select0 rs (Z.of_nat n) = Ok (Z.of_nat q)) by (rewrite rs_select0_eq; apply (select_gen_ok true l); auto).
  destruct (select_range true l rs n q HR Hq) as (a & b & Er & A1 & A2). change range_gen with search_range0 in Er.
  unfold rs_select0 in E. unfold rs_select0_in. rewrite Er in *. cbn [bind] in *.
  destruct (num_zeros rs) as [t|]; [|discriminate]. cbn [bind] in *. destruct (Z.of_nat n <? t); [|discriminate]. cbn [assert_ bind] in *.
  destruct (block_search0 _ _ _ a b) as [c|] eqn:Ec; [|discriminate].
  assert (D : 0 <= a /\ a <= b /\ b - a <= 2 ^ Z.of_nat k) by lia. destruct D as (D1 & D2 & D3).
  rewrite (block_search0_fast k _ _ _ _ _ _ D1 D2 D3 Ec). exact E.
Qed.
Lemma steps_select l h h0 k : zlen l + 512 <= 512 * 2 ^ Z.of_nat k -> exists rs, rs_build (bv_range l) h h0 = Ok rs /\
  (forall n q, is_select true l n q -> rs_select_in k rs (Z.of_nat n) = Ok (Z.of_nat q)) /\
  (forall n q, is_select false l n q -> rs_select0_in k rs (Z.of_nat n) = Ok (Z.of_nat q)).
Proof.
  intros Hk. rewrite bv_range_ok. destruct (rs_build_ok l h h0) as (rs & E & HR). exists rs. split; [exact E|].
  split; intros n q Hq; [eapply select_fast|eapply select0_fast]; eauto.
Qed.

(** ** darray and darray64: words read after the first one *)
Lemma darray_loop_fast neg ws n : forall i w r fuel i' w' r', darray_loop neg fuel ws i w r = Ok (i', w', r') ->
  i' - i <= Z.of_nat n -> darray_loop neg n ws i w r = Ok (i', w', r').
Proof.
  assert (Mono : forall fuel i w r i' w' r', darray_loop neg fuel ws i w r = Ok (i', w', r') -> i <= i').
  { induction fuel as [|fuel IH]; intros i w r i' w' r' E; cbn [darray_loop] in E; destruct (r <? popcount w).
    - injection E as <- <- <-. lia. - discriminate. - injection E as <- <- <-. lia.
    - destruct (getw neg ws (i + 1)) as [x|]; [|discriminate]. cbn [bind] in E. apply IH in E. lia. }
  induction n as [|n IH]; intros i w r fuel i' w' r' E Hn; destruct fuel as [|fuel]; cbn [darray_loop] in *;
    destruct (r <? popcount w); auto; try discriminate; (destruct (getw neg ws (i + 1)) as [x|]; [|discriminate]); cbn [bind] in *.
  - apply Mono in E. lia.
  - eapply IH; [exact E|lia].
Qed.

Lemma darray_scan_fast neg l s r p q n : 0 <= r ->
  is_select (negb neg) l s p -> is_select (negb neg) l (s + Z.to_nat r) q -> Z.of_nat q / 64 - Z.of_nat p / 64 <= Z.of_nat n ->
  darray_scan_in n neg (pack l) (Z.of_nat p) r = Ok (Z.of_nat q).
Proof.
  intros Hr Hp Hq Hn. unfold darray_scan_in. destruct (Z.eqb_spec r 0) as [->|Hr0].
  { rewrite Nat.add_0_r in Hq. rewrite (is_select_unique _ _ _ _ _ Hp Hq). reflexivity. }
  pose proof (is_select_bound _ _ _ _ Hp) as Bp.
  apply is_select_padded, is_select_flip in Hp. apply is_select_padded, is_select_flip in Hq.
  set (m := flip neg (padded l)) in *. set (P := Z.of_nat p) in *.
  assert (B : 0 <= P / 64 < zlen (pack l)).
  { rewrite zlen_pack. unfold P, zlen. clear - Bp. dlia. }
  destruct (getw_masked neg l (P / 64) B) as (w & E & M). fold m in M. rewrite E. cbn [bind].
  rewrite shl_ok by (apply Z.mod_pos_bound; lia). cbn [bind].
  assert (Rm : 0 <= P mod 64 < 64) by (apply Z.mod_pos_bound; lia).
  pose proof (masked_above _ _ _ _ (P mod 64) M ltac:(lia) Rm) as M'.
  set (w1 := Z.land w (u64 (Z.shiftl (2 ^ 64 - 1) (P mod 64)))) in *.
  assert (S0 : 64 * (P / 64) + P mod 64 = P) by (pose proof (Z.div_mod P 64 ltac:(lia)); lia).
  assert (Rk : rank true m (Z.to_nat (64 * (P / 64) + P mod 64)) = s).
  { rewrite S0. unfold P. rewrite Nat2Z.id. apply Hp. }
  destruct (skip_search neg l P w1 (P mod 64) r q) as (sk & pos' & w' & lo' & E' & _ & _ & S & _ & _ & X);
    auto; try lia.
  { fold m. rewrite Rk. auto. }
  apply darray_loop_skip in E'. rewrite Z.sub_0_r in E'. apply darray_loop_fast with (n := n) in E'; [|lia]. rewrite E'. cbn [bind].
  rewrite S. cbn [bind]. f_equal. lia.
Qed.

Lemma steps_darray64 gr skips : Forall (fun s => 0 <= s <= 64) skips -> exists b d,
  append1_all gr d64_new skips = Ok b /\ d64_build b = Ok d /\
  forall i q, 0 <= i -> is_select true (d64_seq skips) (Z.to_nat i) q -> d64_select_in 64 d i = Ok (Z.of_nat q).
Proof.
  intros F. destruct (append1_all_ok gr skips _ _ d64_new_ok F) as (b & E & I). cbn [app] in I.
  exists b. set (l := d64_seq skips) in *. destruct I as (I1 & I2 & I3 & I4 & I5 & I6 & I7 & I8 & I9).
  set (ps := positions l 0) in *.
  unfold d64_build. rewrite (binv_bv _ _ I1). cbn [bind]. eexists. split; [auto|]. split; [reflexivity|].
  intros i q' Hi0 Hq'.
  assert (Hi : 0 <= i < zlen ps).
  { split; [lia|]. unfold ps. rewrite zlen_positions. pose proof (is_select_rank_lt _ _ _ _ (length l) Hq' (is_select_bound _ _ _ _ Hq')) as R.
    rewrite rank_all in R by lia. lia. }
  unfold d64_select_in. cbn [d64_num_ones d64_blocks d64_subs d64_bits canonical bv_words].
  rewrite assert_true by lia. unfold d64_block_size, d64_subblock_size.
  rewrite W_rd by (rewrite I3; clear - Hi; dlia). cbn [bind].
  rewrite W_rd by (rewrite I4; clear - Hi; dlia). cbn [bind].
  destruct (positions_select l 0 i) as (q & Eq & Hq); [fold ps; lia|]. rewrite (is_select_unique _ _ _ _ _ Hq' Hq).
  pose proof (Z.div_mod i 64 ltac:(lia)) as Ds. pose proof (Z.mod_pos_bound i 64 ltac:(lia)) as Ms.
  assert (Es : i / 1024 = i / 64 / 16) by (rewrite Z.div_div by lia; reflexivity). rewrite Es.
  set (s := i / 64) in *. rewrite I6 by lia.
  destruct (positions_select l 0 (64 * s)) as (p & Ep & Hp); [fold ps; lia|]. fold ps in Ep, Eq. rewrite Ep.
  apply (darray_scan_fast false l (Z.to_nat (64 * s))); auto; [lia| |].
  { replace (Z.to_nat (64 * s) + Z.to_nat (i mod 64))%nat with (Z.to_nat i) by lia. auto. }
  pose proof (d64_gap ps (Z.to_nat (i mod 64)) I7 (64 * s) ltac:(lia) ltac:(lia)) as D.
  replace (64 * s + Z.of_nat (Z.to_nat (i mod 64))) with i in D by lia. rewrite Ep, Eq in D.
  change (Z.of_nat 64) with 64. assert (Z.of_nat q - Z.of_nat p <= 65 * 63) by lia. clear - H. dlia.
Qed.

(** a dense block of a darray spans less than 2^16 *)
Lemma flush_sign cur blocks subs ovf n st' b : flush_cur_block (mk_dstate cur blocks subs ovf n) = Ok st' ->
  d_blocks st' = blocks ++ [b] -> zlen ovf < 2 ^ 63 -> 0 <= b -> W cur 0 <= W cur (zlen cur - 1) ->
  W cur (zlen cur - 1) - W cur 0 < 2 ^ 16.
Proof.
  unfold flush_cur_block. cbn [d_cur d_blocks d_subs d_ovf d_n]. intros E Eb Ho Hb Hc. pose proof (zlen_nonneg ovf) as No.
  destruct (rd cur (zlen cur - 1)) as [e|] eqn:Ee; [|discriminate]. cbn [bind] in E. pose proof (rd_bound _ _ _ Ee) as Bf. rewrite W_rd in Ee by lia. injection Ee as <-.
  rewrite (W_rd cur 0) in E by lia. cbn [bind] in E.
  rewrite sub64_ok in E by lia. unfold max_in_block_distance in E.
  destruct (Z.ltb_spec (W cur (zlen cur - 1) - W cur 0) (2 ^ 16)) as [C|C]; [exact C|].
  destruct (sub_loop _ true _ _ _ _) as [s|]; [|discriminate]. cbn [bind] in E. injection E as <-. cbn [d_blocks] in Eb.
  apply app_inv_head in Eb. injection Eb as <-. rewrite i64_small in Hb by lia. lia.
Qed.

Definition dspan (ps blocks : list Z) : Prop :=
  forall i k, 0 <= i < zlen blocks -> 0 <= W blocks i -> 0 <= k < 1024 -> 1024 * i + k < zlen ps ->
    W ps (1024 * i + k) - W ps (1024 * i) < 2 ^ 16.

Lemma dspan_app ps qs blocks : 1024 * zlen blocks <= zlen ps -> dspan ps blocks -> dspan (ps ++ qs) blocks.
Proof.
  intros HL H i k Hi Hb Hk Hl. specialize (H i k Hi Hb Hk). rewrite !W_app.
  replace (1024 * i + k <? zlen ps) with true by lia. replace (1024 * i <? zlen ps) with true by lia. apply H. lia.
Qed.

Lemma flush_dspan ps j blocks subs ovf n st' : 0 <= j -> 1024 * j < zlen ps <= 1024 * j + 1024 ->
  good ps -> zlen blocks = j -> zlen subs = 32 * j -> zlen ovf <= 1024 * j ->
  flush_cur_block (mk_dstate (skipn (Z.to_nat (1024 * j)) ps) blocks subs ovf n) = Ok st' ->
  dspan ps blocks -> dspan ps (d_blocks st').
Proof.
  intros Hj Hl (G1 & G2 & G3) Lb Ls Lo E D.
  destruct (flush_ok ps j blocks subs ovf n Hj Hl G1 G2 Lb Ls Lo G3) as (b & s & o & E' & _). rewrite E in E'. injection E' as Est.
  subst st'. cbn [d_blocks]. intros i k Hi Hb Hk Hl'. rewrite zlen_app in Hi. change (zlen [b]) with 1 in Hi.
  rewrite W_app in Hb. destruct (Z.ltb_spec i (zlen blocks)) as [C|C]; [apply D; auto; lia|].
  replace i with j in * by lia. replace (j - zlen blocks) with 0 in Hb by lia. change (W [b] 0) with b in Hb.
  set (cur := skipn (Z.to_nat (1024 * j)) ps) in *.
  assert (Lc : zlen cur = zlen ps - 1024 * j) by (unfold cur; rewrite zlen_skipn; lia).
  assert (Wc : forall i, 0 <= i -> W cur i = W ps (1024 * j + i)) by (intros; unfold cur; rewrite W_skipn by lia; f_equal; lia).
  assert (Mn : W cur 0 <= W cur (zlen cur - 1)) by (rewrite !Wc by lia; apply G1; lia).
  pose proof (flush_sign cur blocks subs ovf n _ b E eq_refl ltac:(lia) Hb Mn) as F.
  rewrite !Wc in F by lia. rewrite Z.add_0_r in F.
  pose proof (G1 (1024 * j + k) (1024 * j + (zlen cur - 1)) ltac:(lia) ltac:(lia)). lia.
Qed.

Lemma add_all_span qs : forall ps st st', dinv ps st -> good (ps ++ qs) -> dspan ps (d_blocks st) ->
  add_all st qs = Ok st' -> dspan (ps ++ qs) (d_blocks st').
Proof.
  induction qs as [|q qs IH]; intros ps st st' I G D E; cbn [add_all] in E.
  - injection E as <-. rewrite app_nil_r. exact D.
  - replace (ps ++ q :: qs) with ((ps ++ [q]) ++ qs) in * by (rewrite <- app_assoc; auto).
    destruct (add_position_ok ps q st I (good_firstn _ _ G)) as (st1 & E1 & I1'). rewrite E1 in E. cbn [bind] in E.
    apply (IH (ps ++ [q]) st1 st' I1' G); [|exact E]. clear E IH.
    destruct I as (I1 & I2 & I3 & I4 & I5 & _). set (j := zlen ps / 1024) in *. pose proof (zlen_nonneg ps) as N.
    assert (Hj : 0 <= j /\ 1024 * j <= zlen ps < 1024 * j + 1024) by (unfold j; dlia).
    assert (D' : dspan (ps ++ [q]) (d_blocks st)) by (apply dspan_app; [lia|exact D]).
    assert (Lp : zlen (ps ++ [q]) = zlen ps + 1) by (rewrite zlen_app; reflexivity).
    assert (Ec : d_cur st ++ [q] = skipn (Z.to_nat (1024 * j)) (ps ++ [q])).
    { rewrite I1, skipn_app. f_equal.
      replace (Z.to_nat (1024 * j) - length ps)%nat with 0%nat by (unfold zlen in *; lia). reflexivity. }
    unfold add_position in E1. cbn [d_cur d_blocks d_subs d_ovf d_n] in E1. rewrite Ec in E1.
    destruct (_ =? d_block_size).
    + destruct (flush_cur_block _) as [st2|] eqn:E2; [|discriminate]. cbn [bind] in E1. injection E1 as <-. cbn [d_blocks].
      eapply flush_dspan; [| | | | | |exact E2|exact D']; try lia; eauto using good_firstn.
    + cbn [bind] in E1. injection E1 as <-. exact D'.
Qed.

Lemma darray_build_span neg l d : zlen l < 2 ^ 63 -> darray_build neg (canonical l) = Ok d -> dspan (pos_of neg l) (da_blocks d).
Proof.
  intros H E. pose proof (pos_good neg l H) as Gd. set (ps := pos_of neg l) in *.
  unfold darray_build, canonical in E. cbn [bv_words bv_size] in E. rewrite dwords_all in E. fold ps in E.
  assert (I0 : dinv [] (mk_dstate [] [] [] [] 0)).
  { unfold dinv. change (zlen (@nil Z) / 1024) with 0. cbn [d_cur d_blocks d_subs d_ovf d_n].
    change (zlen (@nil Z)) with 0. split; [reflexivity|]. repeat (split; [lia|]). intros. lia. }
  destruct (add_all_ok ps [] _ I0 Gd) as (st & E1 & I1 & I2 & I3 & I4 & I5 & I6).
  assert (D0 : dspan [] (d_blocks (mk_dstate [] [] [] [] 0))) by (intros i k Hi; change (zlen (d_blocks (mk_dstate [] [] [] [] 0))) with 0 in Hi; lia).
  pose proof (add_all_span ps [] _ st I0 Gd D0 E1) as D. cbn [app] in *. rewrite E1 in E. cbn [bind] in E. clear E1 I0 D0.
  pose proof (zlen_nonneg ps) as N. set (j := zlen ps / 1024) in *.
  assert (Hj : 0 <= j /\ 1024 * j <= zlen ps < 1024 * j + 1024) by (unfold j; dlia).
  assert (Lc : zlen (d_cur st) = zlen ps - 1024 * j) by (rewrite I1, zlen_skipn; lia).
  rewrite Lc in E. destruct (Z.eqb_spec (zlen ps - 1024 * j) 0) as [C|C].
  - cbn [bind] in E. injection E as <-. exact D.
  - destruct (flush_cur_block st) as [st2|] eqn:E3; [|discriminate]. cbn [bind] in E. injection E as <-. cbn [da_blocks].
    destruct st as [cu bl su ov n]. cbn [d_cur d_blocks d_subs d_ovf d_n] in *. subst cu.
    eapply flush_dspan; [| | | | | |exact E3|exact D]; try lia; auto.
Qed.

Lemma steps_darray neg l : zlen l < 2 ^ 63 -> exists d, darray_build neg (canonical l) = Ok d /\
  forall n q, is_select (negb neg) l n q -> darray_select_in 1024 neg d (canonical l) (Z.of_nat n) = Ok (Z.of_nat q).
Proof.
  intros H. destruct (darray_build_ok neg l H) as (d & E & D1 & D2). exists d. split; [exact E|]. intros n q Hq.
  pose proof (darray_build_span neg l d H E) as Sp. set (ps := pos_of neg l) in *. set (i := Z.of_nat n).
  assert (Hi : 0 <= i < zlen ps).
  { split; [lia|]. unfold ps. rewrite pos_count. pose proof (is_select_rank_lt _ _ _ _ (length l) Hq (is_select_bound _ _ _ _ Hq)) as R.
    rewrite rank_all in R by lia. lia. }
  destruct (pos_select neg l i Hi) as (q' & Eq & Hq'). unfold i in Hq'. rewrite Nat2Z.id in Hq'.
  rewrite <- (is_select_unique _ _ _ _ _ Hq Hq') in Eq. clear Hq' q'. fold ps in Eq.
  unfold darray_select_in. rewrite assert_true by lia. unfold d_block_size, d_subblock_size.
  destruct (D2 i Hi) as (len & Hlen & B1 & B).
  pose proof (Z.div_mod i 1024 ltac:(lia)) as Dj. pose proof (Z.mod_pos_bound i 1024 ltac:(lia)) as Mj.
  assert (Pj : 0 <= i / 1024) by (apply Z.div_pos; lia).
  rewrite W_rd by lia. cbn [bind].
  destruct B as [[B2 B3]|[B2 [B3 B4]]].
  - replace (W (da_blocks d) (i / 1024) <? 0) with false by lia.
    pose proof (Sp (i / 1024) (i mod 1024) ltac:(lia) B2 Mj ltac:(lia)) as S1. rewrite <- Dj, Eq in S1.
    pose proof (Z.div_mod i 32 ltac:(lia)) as Ds. pose proof (Z.mod_pos_bound i 32 ltac:(lia)) as Ms.
    set (j := i / 1024) in *. set (s := i / 32) in *.
    destruct (B3 (s - 32 * j)) as [B4 B5].
    { clear - Dj Mj Ds Ms. lia. }
    { clear - Dj Mj Ds Ms Hlen. lia. }
    replace (32 * j + (s - 32 * j)) with s in * by lia.
    replace (1024 * j + 32 * (s - 32 * j)) with (32 * s) in * by lia.
    rewrite W_rd by lia. cbn [bind]. rewrite B5.
    destruct (pos_select neg l (32 * s)) as (p & Ep & Hp); [fold ps; lia|]. fold ps in Ep. rewrite Ep.
    apply (darray_scan_fast neg l (Z.to_nat (32 * s))); auto; [lia| |].
    { replace (Z.to_nat (32 * s) + Z.to_nat (i mod 32))%nat with n by lia. exact Hq. }
    assert (S2 : W ps (1024 * j) <= Z.of_nat p) by (rewrite <- Ep; apply (pos_mono neg l); [lia|fold ps; lia]).
    change (Z.of_nat 1024) with 1024. assert (S3 : Z.of_nat q - Z.of_nat p < 2 ^ 16) by lia. clear - S3. dlia.
  - replace (W (da_blocks d) (i / 1024) <? 0) with true by lia.
    destruct (B4 (i mod 1024) ltac:(lia)) as [B5 B6].
    rewrite u64_small by lia. rewrite W_rd by lia. rewrite B6, <- Dj. f_equal. exact Eq.
Qed.
