(** Proofs for C114 *)
From Verif Require Import Base Spec Lib M_BitVector M_Bp M_Gen M_GenDepth.
From Verif Require Import S_Bp P_RsBuild P_BpSpec P_Gen P_GenAll S_GenDepth.

(** the split of a size, as in helper_ok *)
Lemma split_ok size r : 3 <= size < 2 ^ 64 -> size mod 2 = 1 ->
  exists left right, u64 (2 * (u64 r mod sub64 size 1 / 2) + 1) = left /\ sub64 (sub64 size 1) left = right /\
    1 <= left /\ 1 <= right /\ left + right + 1 = size /\ left mod 2 = 1 /\ right mod 2 = 1 /\ u64 (left + right + 1) = size /\
    (0 <= r < size - 1 -> left = 2 * (r / 2) + 1) /\ (0 <= r < 2 ^ 64 -> left <= r + 1).
Proof.
  intros Hs Ho. rewrite sub64_ok by lia. set (x := u64 r mod (size - 1)).
  assert (Hx : 0 <= x < size - 1) by (apply Z.mod_pos_bound; lia).
  exists (2 * (x / 2) + 1), (size - 1 - (2 * (x / 2) + 1)).
  assert (HL : 1 <= 2 * (x / 2) + 1 <= size - 2) by dlia.
  rewrite (u64_small (2 * (x / 2) + 1)) by lia. rewrite sub64_ok by lia.
  split; [auto|]. split; [auto|]. split; [lia|]. split; [lia|]. split; [lia|]. split; [dlia|]. split; [dlia|].
  split; [rewrite u64_small; lia|]. split.
  - intros Hr. unfold x. rewrite u64_small by lia. rewrite (Z.mod_small r) by lia. reflexivity.
  - intros Hr. assert (x <= r); [|dlia]. unfold x. rewrite u64_small by lia. apply Z.mod_le; lia.
Qed.

Lemma preorder_len t : zlen (preorder t) mod 2 = 1 /\ 2 * Z.of_nat (height t) <= zlen (preorder t) + 1 /\ (1 <= height t)%nat.
Proof.
  induction t as [|a IHa b IHb]; [change (zlen (preorder Leaf)) with 1; cbn [height]; split; [reflexivity|lia]|]. cbn [preorder height]. rewrite zlen_cons, zlen_app.
  split; [dlia|]. lia.
Qed.
Lemma preorder_log t : zlen (preorder t) + 1 <= 2 ^ Z.of_nat (height t).
Proof.
  induction t as [|a IHa b IHb]; [change (zlen (preorder Leaf)) with 1; cbn [height]; lia|]. cbn [preorder height]. rewrite zlen_cons, zlen_app.
  rewrite Nat2Z.inj_succ, Z.pow_succ_r by lia.
  assert (2 ^ Z.of_nat (height a) <= 2 ^ Z.of_nat (Nat.max (height a) (height b))) by (apply Z.pow_le_mono_r; lia).
  assert (2 ^ Z.of_nat (height b) <= 2 ^ Z.of_nat (Nat.max (height a) (height b))) by (apply Z.pow_le_mono_r; lia).
  lia.
Qed.

(** the left height: the frames when the right call reuses its frame *)
Fixpoint lheight (t : full) : nat := match t with Leaf => 1%nat | Inner l r => Nat.max (S (lheight l)) (lheight r) end.
Lemma lheight_pos t : (1 <= lheight t <= height t)%nat.
Proof. induction t; cbn [lheight height]; lia. Qed.

Definition exact_frames (run : nat -> list bool -> res (list bool * nat)) (h : nat) (t : full) (i' : nat) : Prop :=
  forall fr v, run fr v = if (h <=? fr)%nat then Ok (v ++ preorder t, i') else Ub OutOfFuel.

(** what the values of rand() make *)
Lemma helper_exact rnd : forall n size i, (Z.to_nat size <= n)%nat -> 1 <= size < 2 ^ 64 -> size mod 2 = 1 ->
  exists t i', zlen (preorder t) = size /\
    exact_frames (fun fr v => random_binary_tree_helper vpush rnd fr i v size) (height t) t i' /\
    (forall fuel, size <= Z.of_nat fuel -> exact_frames (fun fr v => tail_helper vpush rnd fuel fr i v size) (lheight t) t i').
Proof.
  induction n as [|n IH]; intros size i Hn Hs Ho; [lia|]. destruct (Z.eq_dec size 1) as [->|N].
  - exists Leaf, i. split; [reflexivity|]. split.
    + intros fr v. destruct fr; reflexivity.
    + intros fuel Hf fr v. destruct fuel; [lia|]. destruct fr; reflexivity.
  - assert (3 <= size) by dlia.
    destruct (split_ok size (rnd i) ltac:(lia) Ho) as (l & r & El & Er & Hl & Hr & Hlr & Ol & Or & Eu & _).
    destruct (IH l (S i) ltac:(lia) ltac:(lia) Ol) as (a & i1 & La & Ha & Ta).
    destruct (IH r i1 ltac:(lia) ltac:(lia) Or) as (b & i2 & Lb & Hb & Tb).
    exists (Inner a b), i2. split; [cbn [preorder]; rewrite zlen_cons, zlen_app; lia|]. split.
    + intros fr v. destruct fr as [|fr]; [reflexivity|]. cbn [random_binary_tree_helper].
      rewrite assert_true by lia. replace (size =? 1) with false by lia. change (vpush v true) with (Ok (v ++ [true])). cbn [bind].
      rewrite El, Er. rewrite !assert_true by (try rewrite Eu; lia). rewrite (Ha fr). cbn [height preorder].
      destruct (Nat.leb_spec (height a) fr); cbn [bind].
      * rewrite (Hb fr). destruct (Nat.leb_spec (height b) fr).
        -- rewrite (proj2 (Nat.leb_le _ _)) by lia. repeat (rewrite <- app_assoc; cbn [app]). reflexivity.
        -- rewrite (proj2 (Nat.leb_gt _ _)) by lia. reflexivity.
      * rewrite (proj2 (Nat.leb_gt _ _)) by lia. reflexivity.
    + intros fuel Hf fr v. destruct fuel as [|fuel]; [lia|]. cbn [lheight preorder]. destruct fr as [|fr].
      { rewrite (proj2 (Nat.leb_gt _ _)) by lia. reflexivity. }
      cbn [tail_helper].
      rewrite assert_true by lia. replace (size =? 1) with false by lia. change (vpush v true) with (Ok (v ++ [true])). cbn [bind].
      rewrite El, Er. rewrite !assert_true by (try rewrite Eu; lia). rewrite (Ta fuel ltac:(lia) fr).
      destruct (Nat.leb_spec (lheight a) fr); cbn [bind].
      * rewrite (Tb fuel ltac:(lia) (S fr)). destruct (Nat.leb_spec (lheight b) (S fr)).
        -- rewrite (proj2 (Nat.leb_le _ _)) by lia. repeat (rewrite <- app_assoc; cbn [app]). reflexivity.
        -- rewrite (proj2 (Nat.leb_gt _ _)) by lia. reflexivity.
      * rewrite (proj2 (Nat.leb_gt _ _)) by lia. reflexivity.
Qed.

(** nesting *)
Lemma net_app a b : net (a ++ b) = net a + net b.
Proof. induction a as [|[] a IH]; cbn [app net]; lia. Qed.
Lemma net_pre t : net (preorder t) = -1.
Proof. induction t as [|a IHa b IHb]; [reflexivity|]. cbn [preorder net]. rewrite net_app. lia. Qed.
Lemma nested_pre t : forall d, nested_at_most d (preorder t) <-> Z.of_nat (lheight t) <= d + 1.
Proof.
  induction t as [|a IHa b IHb]; intros d; cbn [preorder lheight].
  - split; [intros H; specialize (H 0%nat); cbn in *; lia|]. intros H [|k]; cbn in *; [lia|]. rewrite firstn_nil. cbn. lia.
  - rewrite Nat2Z.inj_max, Nat2Z.inj_succ. split.
    + intros H. assert (A : nested_at_most (d - 1) (preorder a)).
      { intros k. specialize (H (S (Nat.min k (length (preorder a))))). cbn [firstn net] in H.
        rewrite firstn_app in H. replace (Nat.min k (length (preorder a)) - length (preorder a))%nat with 0%nat in H by lia.
        cbn [firstn] in H. rewrite app_nil_r in H. destruct (Nat.le_ge_cases k (length (preorder a))) as [L|L].
        - rewrite Nat.min_l in H by lia. lia.
        - rewrite Nat.min_r in H by lia. rewrite firstn_all in H. rewrite firstn_all2 by lia. lia. }
      assert (Bb : nested_at_most d (preorder b)).
      { intros k. specialize (H (S (length (preorder a) + k))). cbn [firstn net] in H. rewrite firstn_app_2, net_app, net_pre in H. lia. }
      apply IHa in A. apply IHb in Bb. lia.
    + intros H k. assert (A : nested_at_most (d - 1) (preorder a)) by (apply IHa; lia).
      assert (Bb : nested_at_most d (preorder b)) by (apply IHb; lia). destruct k as [|k].
      { cbn. pose proof (lheight_pos b). lia. }
      cbn [firstn net]. rewrite firstn_app, net_app. destruct (Nat.le_ge_cases k (length (preorder a))) as [L|L].
      * replace (k - length (preorder a))%nat with 0%nat by lia. cbn [firstn net]. specialize (A k). lia.
      * rewrite firstn_all2, net_pre by lia. specialize (Bb (k - length (preorder a))%nat). lia.
Qed.
Lemma nested_all t d : nested_at_most d (true :: preorder t) <-> Z.of_nat (lheight t) <= d.
Proof.
  pose proof (lheight_pos t). split.
  - intros H0. assert (A : nested_at_most (d - 1) (preorder t)) by (intros k; specialize (H0 (S k)); cbn [firstn net] in H0; lia).
    apply nested_pre in A. lia.
  - intros H0 [|k]; [cbn; lia|]. assert (A : nested_at_most (d - 1) (preorder t)) by (apply nested_pre; lia).
    specialize (A k). cbn [firstn net]. lia.
Qed.

Lemma tree_exact rnd v size : 2 <= size < 2 ^ 64 -> size mod 2 = 0 ->
  exists t, zlen (preorder t) = size - 1 /\ (forall frames, (height t <= frames)%nat ->
      random_binary_tree_frames vpush rnd frames v size = Ok (v ++ true :: preorder t)) /\
    (forall frames, (frames < height t)%nat -> random_binary_tree_frames vpush rnd frames v size = Ub OutOfFuel).
Proof.
  intros Hs He. destruct (helper_exact rnd _ (size - 1) 0 (Nat.le_refl _) ltac:(lia) ltac:(dlia)) as (t & i & L & H & _).
  exists t. split; [exact L|]. unfold exact_frames in H. cbv beta in H.
  split; intros fr Hfr; unfold random_binary_tree_frames; (rewrite assert_true by lia); unfold vpush at 1; cbn [bind]; rewrite H.
  - rewrite (proj2 (Nat.leb_le _ _)) by lia. cbn [bind]. rewrite <- app_assoc. reflexivity.
  - rewrite (proj2 (Nat.leb_gt _ _)) by lia. reflexivity.
Qed.
Lemma tree_log t size : zlen (preorder t) = size - 1 -> size <= 2 ^ Z.of_nat (height t) /\ 2 * Z.of_nat (height t) <= size.
Proof. intros E. pose proof (preorder_log t). pose proof (preorder_len t). lia. Qed.
Lemma tail_exact rnd v size : 2 <= size < 2 ^ 64 -> size mod 2 = 0 ->
  exists u, random_binary_tree vpush rnd v size = Ok (v ++ u) /\ forall frames,
    (nested_at_most (Z.of_nat frames) u -> random_binary_tree_tail vpush rnd frames v size = Ok (v ++ u)) /\
    (~ nested_at_most (Z.of_nat frames) u -> random_binary_tree_tail vpush rnd frames v size = Ub OutOfFuel).
Proof.
  intros Hs He. destruct (helper_exact rnd _ (size - 1) 0 (Nat.le_refl _) ltac:(lia) ltac:(dlia)) as (t & i & L & H & T).
  exists (true :: preorder t). split.
  - unfold random_binary_tree. rewrite assert_true by lia. unfold vpush at 1. cbn [bind]. unfold exact_frames in H. cbv beta in H. rewrite H.
    pose proof (preorder_len t). rewrite (proj2 (Nat.leb_le _ _)) by lia. cbn [bind]. rewrite <- app_assoc. reflexivity.
  - intros fr. rewrite nested_all. specialize (T (Z.to_nat size) ltac:(lia)). unfold exact_frames in T. cbv beta in T.
    unfold random_binary_tree_tail. rewrite assert_true by lia. unfold vpush at 1 3. cbn [bind]. rewrite T. split; intros Hfr.
    + rewrite (proj2 (Nat.leb_le _ _)) by lia. cbn [bind]. rewrite <- app_assoc. reflexivity.
    + rewrite (proj2 (Nat.leb_gt _ _)) by lia. reflexivity.
Qed.

(** enough frames, whatever is pushed to *)
Lemma helper_enough {B} (push : B -> bool -> res B) rnd : forall n f1 f2 i b size, (Z.to_nat size <= n)%nat -> 1 <= size < 2 ^ 64 -> size mod 2 = 1 ->
  size + 1 <= 2 * Z.of_nat f1 -> size + 1 <= 2 * Z.of_nat f2 ->
  random_binary_tree_helper push rnd f1 i b size = random_binary_tree_helper push rnd f2 i b size.
Proof.
  induction n as [|n IH]; intros f1 f2 i b size Hn Hs Ho H1 H2; [lia|]. destruct f1 as [|f1]; [lia|]. destruct f2 as [|f2]; [lia|].
  cbn [random_binary_tree_helper]. rewrite !assert_true by lia. destruct (Z.eqb_spec size 1); [reflexivity|].
  destruct (split_ok size (rnd i) ltac:(dlia) Ho) as (l & r & El & Er & Hl & Hr & Hlr & Ol & Or & Eu & _). rewrite El, Er.
  destruct (push b true) as [b1|]; cbn [bind]; [|reflexivity]. rewrite !assert_true by (try rewrite Eu; lia).
  rewrite (IH f1 f2) by (auto; lia). destruct (random_binary_tree_helper push rnd f2 (S i) b1 l) as [[b2 i2]|]; cbn [bind]; [|reflexivity].
  apply IH; auto; lia.
Qed.
Lemma tree_enough {B} (push : B -> bool -> res B) rnd b size frames : 2 <= size < 2 ^ 64 -> size mod 2 = 0 -> size <= 2 * Z.of_nat frames ->
  random_binary_tree_frames push rnd frames b size = random_binary_tree push rnd b size.
Proof.
  intros Hs He Hf. unfold random_binary_tree_frames, random_binary_tree. rewrite !assert_true by lia. destruct (push b true) as [b1|]; cbn [bind]; [|reflexivity].
  rewrite (helper_enough push rnd _ frames (Z.to_nat size) 0 b1 (size - 1) (Nat.le_refl _)) by (try lia; dlia). reflexivity.
Qed.

(** with the smallest values of rand() all the right calls nest *)
Lemma helper_zero rnd : (forall i, 0 <= rnd i <= 1) -> forall fr i v size, 1 <= size < 2 ^ 64 -> size mod 2 = 1 -> 2 * Z.of_nat fr < size + 1 ->
  random_binary_tree_helper vpush rnd fr i v size = Ub OutOfFuel.
Proof.
  intros R. induction fr as [|fr IH]; intros i v size Hs Ho Hf; [reflexivity|]. cbn [random_binary_tree_helper].
  rewrite !assert_true by lia. replace (size =? 1) with false by dlia. change (vpush v true) with (Ok (v ++ [true])). cbn [bind].
  destruct (split_ok size (rnd i) ltac:(dlia) Ho) as (l & r & El & Er & Hl & Hr & Hlr & Ol & Or & Eu & Es & _). rewrite El, Er.
  rewrite !assert_true by (try rewrite Eu; lia). specialize (R i). specialize (Es ltac:(dlia)).
  assert (L1 : l = 1) by dlia. clear El Er Eu Es. subst l.
  destruct fr as [|fr]; [reflexivity|]. cbn [random_binary_tree_helper]. rewrite assert_true by reflexivity. rewrite Z.eqb_refl.
  unfold vpush at 1. cbn [bind]. apply IH; auto; lia.
Qed.
Lemma tree_zero rnd v size frames : (forall i, 0 <= rnd i <= 1) -> 2 <= size < 2 ^ 64 -> size mod 2 = 0 -> 2 * Z.of_nat frames < size ->
  random_binary_tree_frames vpush rnd frames v size = Ub OutOfFuel.
Proof.
  intros R Hs He Hf. unfold random_binary_tree_frames. rewrite !assert_true by lia. unfold vpush at 1. cbn [bind].
  rewrite helper_zero; auto; [lia|dlia|lia].
Qed.

(** with jumps the value of rand() bounds the frames *)
Lemma helper_tail_enough {B} (push : B -> bool -> res B) rnd : forall n fuel f1 f2 i b size, (Z.to_nat size <= n)%nat -> 1 <= size < 2 ^ 64 -> size mod 2 = 1 ->
  size <= Z.of_nat fuel -> size + 1 <= 2 * Z.of_nat f1 -> size + 1 <= 2 * Z.of_nat f2 ->
  tail_helper push rnd fuel f1 i b size = random_binary_tree_helper push rnd f2 i b size.
Proof.
  induction n as [|n IH]; intros fuel f1 f2 i b size Hn Hs Ho Hf H1 H2; [lia|]. destruct fuel as [|fuel]; [lia|]. destruct f1 as [|f1]; [lia|]. destruct f2 as [|f2]; [lia|].
  cbn [random_binary_tree_helper tail_helper]. rewrite !assert_true by lia. destruct (Z.eqb_spec size 1); [reflexivity|].
  destruct (split_ok size (rnd i) ltac:(dlia) Ho) as (l & r & El & Er & Hl & Hr & Hlr & Ol & Or & Eu & _). rewrite El, Er.
  destruct (push b true) as [b1|]; cbn [bind]; [|reflexivity]. rewrite !assert_true by (try rewrite Eu; lia).
  rewrite (IH fuel f1 f2) by (auto; lia). destruct (random_binary_tree_helper push rnd f2 (S i) b1 l) as [[b2 i2]|]; cbn [bind]; [|reflexivity].
  apply IH; auto; lia.
Qed.
Lemma helper_tail_rand {B} (push : B -> bool -> res B) rnd rm : 0 <= rm < 2 ^ 64 -> (forall i, 0 <= rnd i <= rm) -> forall n fuel f1 f2 i b size,
  (Z.to_nat size <= n)%nat -> 1 <= size < 2 ^ 64 -> size mod 2 = 1 ->
  size <= Z.of_nat fuel -> rm / 2 + 2 <= Z.of_nat f1 -> size + 1 <= 2 * Z.of_nat f2 ->
  tail_helper push rnd fuel f1 i b size = random_binary_tree_helper push rnd f2 i b size.
Proof.
  intros Hrm R. induction n as [|n IH]; intros fuel f1 f2 i b size Hn Hs Ho Hf H1 H2; [lia|]. destruct fuel as [|fuel]; [lia|]. destruct f1 as [|f1]; [dlia|]. destruct f2 as [|f2]; [lia|].
  cbn [random_binary_tree_helper tail_helper]. rewrite !assert_true by lia. destruct (Z.eqb_spec size 1); [reflexivity|].
  destruct (split_ok size (rnd i) ltac:(dlia) Ho) as (l & r & El & Er & Hl & Hr & Hlr & Ol & Or & Eu & _ & Es). rewrite El, Er.
  specialize (R i). specialize (Es ltac:(lia)).
  destruct (push b true) as [b1|]; cbn [bind]; [|reflexivity]. rewrite !assert_true by (try rewrite Eu; lia).
  rewrite (helper_tail_enough push rnd _ fuel f1 f2 (S i) b1 l (Nat.le_refl _)) by (auto; dlia).
  destruct (random_binary_tree_helper push rnd f2 (S i) b1 l) as [[b2 i2]|]; cbn [bind]; [|reflexivity].
  apply IH; auto; lia.
Qed.
Lemma tail_enough {B} (push : B -> bool -> res B) rnd rm b size frames : 2 <= size < 2 ^ 64 -> size mod 2 = 0 ->
  0 <= rm < 2 ^ 64 -> (forall i, 0 <= rnd i <= rm) -> Z.min (size / 2) (rm / 2 + 2) <= Z.of_nat frames ->
  random_binary_tree_tail push rnd frames b size = random_binary_tree push rnd b size.
Proof.
  intros Hs He Hrm R Hf. unfold random_binary_tree_tail, random_binary_tree. rewrite !assert_true by lia. destruct (push b true) as [b1|]; cbn [bind]; [|reflexivity].
  destruct (Z.le_ge_cases (size / 2) (rm / 2 + 2)) as [C|C].
  - rewrite Z.min_l in Hf by lia.
    rewrite (helper_tail_enough push rnd _ (Z.to_nat size) frames (Z.to_nat size) 0 b1 (size - 1) (Nat.le_refl _)) by (try lia; dlia). reflexivity.
  - rewrite Z.min_r in Hf by lia.
    rewrite (helper_tail_rand push rnd rm Hrm R _ (Z.to_nat size) frames (Z.to_nat size) 0 b1 (size - 1) (Nat.le_refl _)) by (try lia; dlia). reflexivity.
Qed.

(** a path needs the most *)
Lemma zlen_rep (b : bool) k : zlen (repeat b k) = Z.of_nat k.
Proof. unfold zlen. rewrite repeat_length. reflexivity. Qed.
Lemma net_rep b k : net (repeat b k) = (if b then 1 else -1) * Z.of_nat k.
Proof. destruct b; induction k as [|k IH]; cbn [repeat net]; lia. Qed.
Lemma bal_path k : bal (repeat true k ++ repeat false k).
Proof.
  induction k as [|k IH]; [constructor|]. replace (repeat true (S k) ++ repeat false (S k)) with (true :: (repeat true k ++ repeat false k) ++ false :: []);
  [constructor; [auto|constructor]|]. cbn [repeat app]. f_equal. rewrite <- app_assoc. f_equal. symmetry. apply repeat_cons.
Qed.
Lemma tail_path rm size : 0 <= rm -> 2 <= size < 2 ^ 64 -> size mod 2 = 0 -> size - 4 <= rm ->
  exists rnd, (forall i, 0 <= rnd i <= rm) /\ forall frames, 2 * Z.of_nat frames < size ->
    random_binary_tree_tail vpush rnd frames [] size = Ub OutOfFuel.
Proof.
  intros Hr Hs He Hm. set (k := Z.to_nat (size / 2 - 1)). assert (Hk : 2 * Z.of_nat k + 2 = size) by (unfold k; dlia).
  destruct (all_trees rm (repeat true k ++ repeat false k) (bal_path k) Hr) as (rnd & R & E).
  - rewrite zlen_app, !zlen_rep. lia.
  - rewrite zlen_app, !zlen_rep. lia.
  - exists rnd. split; [exact R|]. intros fr Hfr. rewrite zlen_app, !zlen_rep in E. replace (Z.of_nat k + Z.of_nat k + 2) with size in E by lia.
    destruct (tail_exact rnd [] size Hs He) as (u & E' & T). rewrite E in E'. injection E' as <-. apply (proj2 (T fr)).
    intros N. specialize (N (S k)). cbn [firstn net] in N. rewrite <- app_assoc, firstn_app, repeat_length, Nat.sub_diag in N. cbn [firstn] in N.
    rewrite app_nil_r, firstn_all2, net_rep in N by (rewrite repeat_length; lia). lia.
Qed.
