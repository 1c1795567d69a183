(** Indexing lemmas shared by the bit_vector proofs. *)
From Verif Require Import Base Spec Lib.

(** bit [p] of a sequence, [false] outside it *)
Definition zbit (l : list bool) (p : Z) : bool :=
  if p <? 0 then false else nth (Z.to_nat p) l false.
Global Arguments zbit : simpl never.
Global Arguments window : simpl never.
Global Arguments pack : simpl never.
(** word [k] of an array, 0 outside it *)
Definition W (ws : list Z) (k : Z) : Z := if k <? 0 then 0 else nth (Z.to_nat k) ws 0.

Lemma zbit_out l p : p < 0 \/ zlen l <= p -> zbit l p = false.
Proof.
  intros H. unfold zbit, zlen in *. destruct (Z.ltb_spec p 0); auto.
  apply nth_overflow. lia.
Qed.

Lemma zbit_nth l n : zbit l (Z.of_nat n) = nth n l false.
Proof. unfold zbit. replace (Z.of_nat n <? 0) with false by lia. rewrite Nat2Z.id. reflexivity. Qed.

Lemma zbit_nil p : zbit [] p = false.
Proof. apply zbit_out. change (zlen (@nil bool)) with 0. lia. Qed.

Lemma zbit_app l m p : zbit (l ++ m) p = if p <? zlen l then zbit l p else zbit m (p - zlen l).
Proof.
  unfold zbit, zlen. destruct (Z.ltb_spec p (Z.of_nat (length l))).
  - destruct (Z.ltb_spec p 0); auto. apply app_nth1. lia.
  - replace (p <? 0) with false by lia.
    replace (p - Z.of_nat (length l) <? 0) with false by lia.
    rewrite app_nth2 by lia. f_equal. lia.
Qed.

Lemma zbit_single b p : zbit [b] p = (p =? 0) && b.
Proof.
  destruct (Z.eqb_spec p 0) as [->|H]; [reflexivity|].
  destruct (Z.lt_ge_cases p 0).
  - apply zbit_out; lia.
  - apply zbit_out. rewrite zlen_cons. change (zlen (@nil bool)) with 0. lia.
Qed.

Lemma zlen_bits_of n w : zlen (bits_of n w) = Z.of_nat n.
Proof. unfold zlen. rewrite bits_of_length. reflexivity. Qed.
Lemma zlen_repeat {A} (x : A) n : zlen (repeat x n) = Z.of_nat n.
Proof. unfold zlen. rewrite repeat_length. reflexivity. Qed.
Lemma zlen_rev {A} (l : list A) : zlen (rev l) = zlen l.
Proof. unfold zlen. rewrite rev_length. reflexivity. Qed.
Lemma zlen_firstn {A} (l : list A) n : zlen (firstn n l) = Z.min (Z.of_nat n) (zlen l).
Proof. unfold zlen. rewrite firstn_length. lia. Qed.
Lemma zlen_skipn {A} (l : list A) n : zlen (skipn n l) = Z.max 0 (zlen l - Z.of_nat n).
Proof. unfold zlen. rewrite skipn_length. lia. Qed.
Lemma zlen_upd {A} (l : list A) n x : zlen (upd l n x) = zlen l.
Proof. unfold zlen. rewrite upd_length. reflexivity. Qed.
Lemma zlen_map {A B} (f : A -> B) l : zlen (map f l) = zlen l.
Proof. unfold zlen. rewrite map_length. reflexivity. Qed.

Lemma zbit_bits_of n w p : zbit (bits_of n w) p = (p <? Z.of_nat n) && Z.testbit w p.
Proof.
  destruct (Z.ltb_spec p (Z.of_nat n)).
  - destruct (Z.ltb_spec p 0).
    + rewrite zbit_out by lia. rewrite Z.testbit_neg_r by lia. reflexivity.
    + unfold zbit. replace (p <? 0) with false by lia. rewrite nth_bits_of by lia.
      rewrite Z2Nat.id by lia. reflexivity.
  - apply zbit_out. rewrite zlen_bits_of. lia.
Qed.

Lemma zbit_repeat b n p : zbit (repeat b n) p = (0 <=? p) && (p <? Z.of_nat n) && b.
Proof.
  destruct (Z.leb_spec 0 p); [|apply zbit_out; lia].
  destruct (Z.ltb_spec p (Z.of_nat n)); [|apply zbit_out; rewrite zlen_repeat; lia].
  unfold zbit. replace (p <? 0) with false by lia. simpl.
  assert (G : forall m k, (k < m)%nat -> nth k (repeat b m) false = b).
  { induction m; intros [|k] ?; simpl; try lia; auto. apply IHm. lia. }
  apply G. lia.
Qed.

Lemma zbit_firstn l n p : zbit (firstn n l) p = (p <? Z.of_nat n) && zbit l p.
Proof.
  destruct (Z.ltb_spec p 0); [rewrite !zbit_out by lia; rewrite andb_false_r; auto|].
  destruct (Z.ltb_spec p (Z.of_nat n)).
  - unfold zbit. replace (p <? 0) with false by lia. simpl.
    rewrite <- (firstn_skipn n l) at 2.
    destruct (Nat.lt_ge_cases (Z.to_nat p) (length (firstn n l))).
    + rewrite app_nth1; auto.
    + rewrite (nth_overflow (firstn n l)) by lia. rewrite firstn_length in *.
      rewrite firstn_skipn. rewrite nth_overflow; auto. lia.
  - apply zbit_out. rewrite zlen_firstn. lia.
Qed.

Lemma zbit_skipn l n p : 0 <= p -> zbit (skipn n l) p = zbit l (p + Z.of_nat n).
Proof.
  intros H. unfold zbit. replace (p <? 0) with false by lia.
  replace (p + Z.of_nat n <? 0) with false by lia.
  rewrite <- (firstn_skipn n l) at 2.
  destruct (Nat.le_gt_cases n (length l)).
  - rewrite app_nth2 by (rewrite firstn_length; lia). f_equal. rewrite firstn_length. lia.
  - rewrite firstn_skipn. rewrite (nth_overflow l) by lia. apply nth_overflow.
    rewrite skipn_length. lia.
Qed.

Lemma zbit_window l a n p : 0 <= p ->
  zbit (window l a n) p = (p <? Z.of_nat n) && zbit l (Z.of_nat a + p).
Proof.
  intros. unfold window. rewrite zbit_firstn, zbit_skipn by lia. f_equal. f_equal. lia.
Qed.

Lemma zbit_rev l p : 0 <= p < zlen l -> zbit (rev l) p = zbit l (zlen l - 1 - p).
Proof.
  intros H. unfold zbit, zlen in *. replace (p <? 0) with false by lia.
  replace (Z.of_nat (length l) - 1 - p <? 0) with false by lia.
  rewrite rev_nth by lia. f_equal. lia.
Qed.

Lemma zbit_map_negb l p : 0 <= p < zlen l -> zbit (map negb l) p = negb (zbit l p).
Proof.
  intros H. unfold zbit, zlen in *. replace (p <? 0) with false by lia.
  rewrite nth_indep with (d' := negb false) by (rewrite map_length; lia). apply map_nth.
Qed.

Lemma zbit_ext l m : zlen l = zlen m -> (forall p, 0 <= p < zlen l -> zbit l p = zbit m p) -> l = m.
Proof.
  unfold zlen. intros H1 H2. apply nth_ext_bool; [lia|].
  intros i Hi. rewrite <- !zbit_nth. apply H2. lia.
Qed.

Lemma testbit_value_z l i : Z.testbit (value l) i = zbit l i.
Proof.
  unfold zbit. destruct (Z.ltb_spec i 0).
  - apply Z.testbit_neg_r. lia.
  - apply testbit_value; lia.
Qed.

Lemma zbit_nth_error l p : 0 <= p < zlen l -> nth_error l (Z.to_nat p) = Some (zbit l p).
Proof.
  unfold zlen, zbit. intros. replace (p <? 0) with false by lia. apply nth_error_nth'. lia.
Qed.

(** ** words *)
Lemma W_rd ws k : 0 <= k < zlen ws -> rd ws k = Ok (W ws k).
Proof.
  intros. unfold W. replace (k <? 0) with false by lia. apply (rd_ok 0). auto.
Qed.
Lemma W_out ws k : k < 0 \/ zlen ws <= k -> W ws k = 0.
Proof.
  intros H. unfold W, zlen in *. destruct (Z.ltb_spec k 0); auto. apply nth_overflow. lia.
Qed.
Lemma W_app ws vs k : W (ws ++ vs) k = if k <? zlen ws then W ws k else W vs (k - zlen ws).
Proof.
  unfold W, zlen. destruct (Z.ltb_spec k (Z.of_nat (length ws))).
  - destruct (Z.ltb_spec k 0); auto. apply app_nth1. lia.
  - replace (k <? 0) with false by lia.
    replace (k - Z.of_nat (length ws) <? 0) with false by lia.
    rewrite app_nth2 by lia. f_equal. lia.
Qed.
Lemma W_single w k : W [w] k = if k =? 0 then w else 0.
Proof.
  destruct (Z.eqb_spec k 0) as [->|]; [reflexivity|]. apply W_out.
  rewrite zlen_cons. change (zlen (@nil Z)) with 0. lia.
Qed.
Lemma W_upd ws i x k : 0 <= i < zlen ws ->
  W (upd ws (Z.to_nat i) x) k = if k =? i then x else W ws k.
Proof.
  unfold W, zlen. intros. destruct (Z.ltb_spec k 0).
  - replace (k =? i) with false by lia. auto.
  - rewrite upd_nth. replace (Nat.ltb (Z.to_nat i) (length ws)) with true
      by (symmetry; apply Nat.ltb_lt; lia).
    rewrite andb_true_r. destruct (Z.eqb_spec k i) as [->|].
    + rewrite Nat.eqb_refl. auto.
    + replace (Nat.eqb (Z.to_nat k) (Z.to_nat i)) with false; auto.
      symmetry. apply Nat.eqb_neq. lia.
Qed.
Lemma W_repeat x n k : 0 <= k < Z.of_nat n -> W (repeat x n) k = x.
Proof.
  intros. unfold W. replace (k <? 0) with false by lia.
  assert (G : forall m j, (j < m)%nat -> nth j (repeat x m) 0 = x).
  { induction m; intros [|j] ?; simpl; try lia; auto. apply IHm. lia. }
  apply G. lia.
Qed.
Lemma W_repeat0 n k : W (repeat 0 n) k = 0.
Proof.
  destruct (Z.lt_ge_cases k 0); [apply W_out; lia|].
  destruct (Z.lt_ge_cases k (Z.of_nat n)); [apply W_repeat; lia|].
  apply W_out. rewrite zlen_repeat. lia.
Qed.
Lemma W_range ws k : Forall is_u64 ws -> is_u64 (W ws k).
Proof.
  intros H. unfold W. destruct (k <? 0); [unfold is_u64; lia|].
  destruct (Nat.lt_ge_cases (Z.to_nat k) (length ws)).
  - rewrite Forall_forall in H. apply H. apply nth_In. auto.
  - rewrite nth_overflow by lia. unfold is_u64; lia.
Qed.
Lemma W_ext ws vs : zlen ws = zlen vs -> (forall k, 0 <= k < zlen ws -> W ws k = W vs k) -> ws = vs.
Proof.
  unfold zlen. intros H1 H2. apply nth_ext with (d := 0) (d' := 0); [lia|].
  intros n Hn. specialize (H2 (Z.of_nat n) ltac:(lia)). unfold W in H2.
  replace (Z.of_nat n <? 0) with false in H2 by lia. rewrite !Nat2Z.id in H2. auto.
Qed.
Lemma Forall_upd (P : Z -> Prop) ws n x : Forall P ws -> P x -> Forall P (upd ws n x).
Proof.
  intros H Hx. revert n; induction H as [|y ws Hy H IH]; intros [|n]; simpl; constructor; auto.
Qed.
Lemma Forall_repeat {A} (P : A -> Prop) x n : P x -> Forall P (repeat x n).
Proof. intros; induction n; simpl; constructor; auto. Qed.
Lemma W_cons w ws k : W (w :: ws) k = if k =? 0 then w else W ws (k - 1).
Proof.
  change (w :: ws) with ([w] ++ ws). rewrite W_app, W_single, zlen_cons.
  change (zlen (@nil Z)) with 0. replace (0 + 1) with 1 by lia.
  destruct (Z.eqb_spec k 0) as [->|]; [reflexivity|].
  destruct (Z.ltb_spec k 1); auto. symmetry; apply W_out; lia.
Qed.
Lemma W_firstn ws n k : W (firstn n ws) k = if k <? Z.of_nat n then W ws k else 0.
Proof.
  destruct (Z.ltb_spec k 0).
  - rewrite !W_out by lia. destruct (k <? Z.of_nat n); auto.
  - destruct (Z.ltb_spec k (Z.of_nat n)); [|apply W_out; rewrite zlen_firstn; lia].
    rewrite <- (firstn_skipn n ws) at 2. rewrite W_app, zlen_firstn.
    destruct (Z.ltb_spec k (Z.min (Z.of_nat n) (zlen ws))); auto.
    rewrite !W_out; auto; rewrite ?zlen_firstn, ?zlen_skipn; lia.
Qed.
Lemma W_skipn ws n k : 0 <= k -> W (skipn n ws) k = W ws (k + Z.of_nat n).
Proof.
  intros. destruct (Z.lt_ge_cases (zlen ws) (Z.of_nat n)).
  - rewrite !W_out; auto; rewrite ?zlen_skipn; lia.
  - rewrite <- (firstn_skipn n ws) at 2. rewrite W_app, zlen_firstn.
    replace (k + Z.of_nat n <? Z.min (Z.of_nat n) (zlen ws)) with false by lia.
    f_equal. lia.
Qed.
Lemma W_rev ws k : 0 <= k < zlen ws -> W (rev ws) k = W ws (zlen ws - 1 - k).
Proof.
  intros H. unfold W, zlen in *. replace (k <? 0) with false by lia.
  replace (Z.of_nat (length ws) - 1 - k <? 0) with false by lia.
  rewrite rev_nth by lia. f_equal. lia.
Qed.

(** ** words that store a bit sequence *)
Definition words_ok (ws : list Z) (l : list bool) : Prop :=
  Forall is_u64 ws /\ zlen ws = (zlen l + 63) / 64 /\
  forall k i, 0 <= k -> 0 <= i < 64 -> Z.testbit (W ws k) i = zbit l (64 * k + i).

Lemma words_ok_intro ws l :
  Forall is_u64 ws -> zlen ws = (zlen l + 63) / 64 ->
  (forall k i, 0 <= k < zlen ws -> 0 <= i < 64 -> Z.testbit (W ws k) i = zbit l (64 * k + i)) ->
  words_ok ws l.
Proof.
  intros H1 H2 H3. split; [auto|split; [auto|]]. intros k i Hk Hi.
  destruct (Z.lt_ge_cases k (zlen ws)); [apply H3; lia|].
  rewrite W_out, Z.testbit_0_l by lia. symmetry. apply zbit_out. right. dlia.
Qed.

Lemma zlen_pack l : zlen (pack l) = (zlen l + 63) / 64.
Proof. unfold pack. rewrite zlen_map. unfold zlen. rewrite seq_length. dlia. Qed.

Lemma W_pack l k : 0 <= k -> W (pack l) k = value (window l (Z.to_nat (64 * k)) 64).
Proof.
  intros Hk. destruct (Z.lt_ge_cases k (zlen (pack l))).
  - pose proof H as H'. unfold W. replace (k <? 0) with false by lia.
    rewrite zlen_pack in H. unfold pack.
    set (f := fun k0 : nat => value (window l (64 * k0) 64)).
    rewrite nth_indep with (d' := f 0%nat).
    2:{ rewrite map_length, seq_length. unfold zlen in H. dlia. }
    rewrite map_nth, seq_nth by (unfold zlen in H; dlia). unfold f. do 2 f_equal. lia.
  - rewrite W_out by lia. rewrite zlen_pack in H. unfold window.
    rewrite skipn_all2 by (unfold zlen in H; dlia). rewrite firstn_nil. reflexivity.
Qed.

Lemma value_window_u64 l a : is_u64 (value (window l a 64)).
Proof.
  unfold is_u64. pose proof (value_range (window l a 64)) as H.
  assert (zlen (window l a 64) <= 64) by (unfold window; rewrite zlen_firstn; lia).
  pose proof (Z.pow_le_mono_r 2 (zlen (window l a 64)) 64). lia.
Qed.

Lemma words_ok_pack l : words_ok (pack l) l.
Proof.
  split; [|split].
  - unfold pack. apply Forall_forall. intros x Hx. apply in_map_iff in Hx.
    destruct Hx as [k [<- _]]. apply value_window_u64.
  - apply zlen_pack.
  - intros k i Hk Hi. rewrite W_pack by auto. rewrite testbit_value_z, zbit_window by lia.
    replace (i <? Z.of_nat 64) with true by lia. simpl. f_equal. lia.
Qed.

Lemma words_ok_eq ws l : words_ok ws l -> ws = pack l.
Proof.
  intros (H1 & H2 & H3). destruct (words_ok_pack l) as (G1 & G2 & G3).
  apply W_ext; [lia|]. intros k Hk. apply bits_inj64; [apply W_range; auto..|].
  intros i Hi. rewrite H3, G3 by lia. reflexivity.
Qed.

Lemma words_ok_inj ws l m : words_ok ws l -> words_ok ws m -> zlen l = zlen m -> l = m.
Proof.
  intros (_ & _ & H) (_ & _ & G) E. apply zbit_ext; auto. intros p Hp.
  specialize (H (p / 64) (p mod 64)). specialize (G (p / 64) (p mod 64)).
  replace (64 * (p / 64) + p mod 64) with p in * by dlia.
  rewrite <- H, <- G by dlia. reflexivity.
Qed.

Lemma words_ok_nil : words_ok [] [].
Proof. apply words_ok_intro; [constructor|reflexivity|]. intros k i Hk. change (zlen (@nil Z)) with 0 in Hk. lia. Qed.

(** bit [p] of the array *)
Lemma words_ok_bit ws l p : words_ok ws l -> 0 <= p ->
  Z.testbit (W ws (p / 64)) (p mod 64) = zbit l p.
Proof.
  intros (_ & _ & H) Hp. rewrite H by dlia. f_equal. dlia.
Qed.

(** ** bits of shifted words *)
Lemma testbit_shl64 x s i : 0 <= s -> 0 <= i < 64 ->
  Z.testbit (u64 (Z.shiftl x s)) i = Z.testbit x (i - s).
Proof.
  intros. rewrite testbit_u64, Z.shiftl_spec by lia. replace (i <? 64) with true by lia. reflexivity.
Qed.
Lemma u64_is x : is_u64 (u64 x).
Proof. apply u64_range. Qed.
Lemma lor_is x y : is_u64 x -> is_u64 y -> is_u64 (Z.lor x y).
Proof. intros; apply lor_range; auto; lia. Qed.
Lemma land_is x y : is_u64 x -> is_u64 y -> is_u64 (Z.land x y).
Proof. unfold is_u64; intros; apply land_range; auto; lia. Qed.
Lemma shiftr_is x s : 0 <= s -> is_u64 x -> is_u64 (Z.shiftr x s).
Proof. intros; apply shiftr_range64; auto. Qed.
Lemma not64_is x : is_u64 (not64 x).
Proof. apply not64_range. Qed.
Lemma testbit_max i : 0 <= i -> Z.testbit (2 ^ 64 - 1) i = (i <? 64).
Proof.
  intros. change (2 ^ 64 - 1) with (Z.ones 64). apply Z.testbit_ones_nonneg; lia.
Qed.
Lemma testbit_mask len i : 0 <= len < 64 -> 0 <= i -> Z.testbit (u64 (u64 (Z.shiftl 1 len) - 1)) i = (i <? len).
Proof.
  intros. rewrite Z.shiftl_1_l.
  assert (1 <= 2 ^ len < 2 ^ 64).
  { split; [apply (Z.pow_le_mono_r 2 0); lia | apply Z.pow_lt_mono_r; lia]. }
  rewrite !u64_small by (rewrite ?u64_small; lia).
  replace (2 ^ len - 1) with (Z.ones len) by (rewrite Z.ones_equiv; lia).
  apply Z.testbit_ones_nonneg; lia.
Qed.

Global Hint Resolve u64_is lor_is land_is shiftr_is not64_is W_range : u64s.

(** ** replacing a window *)
Lemma zbit_splice l pos len m p :
  0 <= pos -> zlen m = len -> pos + len <= zlen l -> 0 <= p ->
  zbit (firstn (Z.to_nat pos) l ++ m ++ skipn (Z.to_nat pos + Z.to_nat len) l) p =
  if (pos <=? p) && (p <? pos + len) then zbit m (p - pos) else zbit l p.
Proof.
  intros H1 H2 H3 H4. pose proof (zlen_nonneg m). rewrite zbit_app, zlen_firstn.
  replace (Z.min (Z.of_nat (Z.to_nat pos)) (zlen l)) with pos by lia.
  destruct (Z.ltb_spec p pos).
  - replace (pos <=? p) with false by lia. rewrite zbit_firstn.
    replace (p <? Z.of_nat (Z.to_nat pos)) with true by lia. reflexivity.
  - replace (pos <=? p) with true by lia. cbn [andb]. rewrite zbit_app, H2.
    destruct (Z.ltb_spec (p - pos) len).
    + replace (p <? pos + len) with true by lia. reflexivity.
    + replace (p <? pos + len) with false by lia. rewrite zbit_skipn by lia. f_equal. lia.
Qed.
Lemma zlen_splice (l : list bool) pos len m :
  0 <= pos -> zlen m = len -> pos + len <= zlen l ->
  zlen (firstn (Z.to_nat pos) l ++ m ++ skipn (Z.to_nat pos + Z.to_nat len) l) = zlen l.
Proof.
  intros. pose proof (zlen_nonneg m). rewrite !zlen_app, zlen_firstn, zlen_skipn. lia.
Qed.

(** ** bit [q] of an array of words, [false] outside *)
Definition wb (ws : list Z) (q : Z) : bool :=
  if q <? 0 then false else Z.testbit (W ws (q / 64)) (q mod 64).
Lemma wb_neg ws q : q < 0 -> wb ws q = false.
Proof. intros; unfold wb. replace (q <? 0) with true by lia. reflexivity. Qed.
Lemma wb_ok ws l q : words_ok ws l -> wb ws q = zbit l q.
Proof.
  intros H. unfold wb. destruct (Z.ltb_spec q 0).
  - rewrite zbit_out by lia. auto.
  - apply words_ok_bit; auto.
Qed.
Lemma wb_nil q : wb [] q = false.
Proof.
  unfold wb. destruct (q <? 0); auto. rewrite W_out, Z.testbit_0_l; auto.
  change (zlen (@nil Z)) with 0. lia.
Qed.
Lemma wb_cons w ws q : wb (w :: ws) q = if q <? 64 then Z.testbit w q else wb ws (q - 64).
Proof.
  unfold wb. destruct (Z.ltb_spec q 0).
  - replace (q <? 64) with true by lia. rewrite Z.testbit_neg_r; auto.
  - rewrite W_cons. destruct (Z.ltb_spec q 64).
    + replace (q / 64 =? 0) with true by dlia. rewrite Z.mod_small by lia. auto.
    + replace (q - 64 <? 0) with false by lia. replace (q / 64 =? 0) with false by dlia.
      replace ((q - 64) / 64) with (q / 64 - 1) by dlia.
      replace ((q - 64) mod 64) with (q mod 64) by dlia. auto.
Qed.
Lemma wb_W ws k i : 0 <= k -> 0 <= i < 64 -> wb ws (64 * k + i) = Z.testbit (W ws k) i.
Proof.
  intros. unfold wb. replace (64 * k + i <? 0) with false by lia.
  replace ((64 * k + i) / 64) with k by dlia. replace ((64 * k + i) mod 64) with i by dlia. auto.
Qed.
Lemma wb_out ws q : 64 * zlen ws <= q -> wb ws q = false.
Proof.
  intros H. unfold wb. destruct (q <? 0); auto. rewrite W_out, Z.testbit_0_l; auto.
  right. apply Z.div_le_lower_bound; lia.
Qed.
