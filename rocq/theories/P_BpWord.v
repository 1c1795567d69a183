(** Excess of a bit function; the excess tables and the searches in one word. *)
From Verif Require Import Base Spec Lib M_Broadword P_Broadword P_Broadword2 P_Broadword3 P_BvLib P_RsBuild M_Bp.
From Coq Require Import ZifyBool ZifyNat.

(** ** Excess of the first [k] values of [f] *)
Fixpoint exb (f : Z -> bool) (n : nat) : Z :=
  match n with O => 0 | S n => exb f n + (if f (Z.of_nat n) then 1 else -1) end.
Definition ex (f : Z -> bool) (k : Z) : Z := exb f (Z.to_nat k).
Global Arguments ex : simpl never.

Lemma ex_0 f : ex f 0 = 0.
Proof. reflexivity. Qed.

Lemma ex_succ f k : 0 <= k -> ex f (k + 1) = ex f k + (if f k then 1 else -1).
Proof.
  intros H. unfold ex. replace (Z.to_nat (k + 1)) with (S (Z.to_nat k)) by lia. cbn [exb].
  rewrite Z2Nat.id by lia. reflexivity.
Qed.

Lemma ex_ind (P : Z -> Prop) : P 0 -> (forall k, 0 <= k -> P k -> P (k + 1)) -> forall k, 0 <= k -> P k.
Proof. intros H0 HS k Hk. revert k Hk. apply natlike_ind; auto. Qed.

Lemma ex_ext f g k : (forall i, 0 <= i < k -> f i = g i) -> ex f k = ex g k.
Proof.
  destruct (Z_lt_le_dec k 0) as [N|Hk]; [intros _; unfold ex; replace (Z.to_nat k) with O by lia; reflexivity|].
  revert k Hk. apply (ex_ind (fun k => (forall i, 0 <= i < k -> f i = g i) -> ex f k = ex g k)).
  - reflexivity.
  - intros k Hk IH H. rewrite !ex_succ by lia. rewrite IH by (intros; apply H; lia). rewrite H by lia. reflexivity.
Qed.

Lemma ex_shift f a k : 0 <= a -> 0 <= k -> ex f (a + k) = ex f a + ex (fun i => f (a + i)) k.
Proof.
  intros Ha. revert k. apply (ex_ind (fun k => ex f (a + k) = ex f a + ex (fun i => f (a + i)) k)).
  - rewrite Z.add_0_r, ex_0. lia.
  - intros k Hk IH. rewrite Z.add_assoc, !ex_succ by lia. rewrite IH. lia.
Qed.

Lemma ex_lip f a b : 0 <= a <= b -> ex f a - (b - a) <= ex f b <= ex f a + (b - a).
Proof.
  intros H. replace b with (a + (b - a)) by lia. set (k := b - a). assert (Hk : 0 <= k) by lia. clearbody k.
  assert (Ha : 0 <= a) by lia. clear b H. replace (a + k - a) with k by lia. revert k Hk.
  apply (ex_ind (fun k => ex f a - k <= ex f (a + k) <= ex f a + k)).
  - rewrite Z.add_0_r. lia.
  - intros k Hk IH. rewrite Z.add_assoc, ex_succ by lia. destruct (f (a + k)); lia.
Qed.

Lemma ex_bound f k : 0 <= k -> - k <= ex f k <= k.
Proof. intros H. pose proof (ex_lip f 0 k). rewrite ex_0 in *. lia. Qed.

Lemma ex_negb f k : ex (fun i => negb (f i)) k = - ex f k.
Proof.
  destruct (Z_lt_le_dec k 0) as [N|Hk]; [unfold ex; replace (Z.to_nat k) with O by lia; reflexivity|].
  revert k Hk. apply (ex_ind (fun k => ex (fun i => negb (f i)) k = - ex f k)).
  - reflexivity.
  - intros k Hk IH. rewrite !ex_succ by lia. rewrite IH. destruct (f k); cbn [negb]; lia.
Qed.

(** reading backwards *)
Lemma ex_rev f n k : 0 <= k <= n -> ex (fun i => f (n - 1 - i)) k = ex f n - ex f (n - k).
Proof.
  intros [Hk Hn]. revert Hn.
  apply (ex_ind (fun k => k <= n -> ex (fun i => f (n - 1 - i)) k = ex f n - ex f (n - k))); [| |exact Hk].
  - intros _. rewrite ex_0, Z.sub_0_r. lia.
  - intros j Hj IH H. rewrite ex_succ by lia. rewrite IH by lia.
    replace (n - j) with (n - (j + 1) + 1) by lia. rewrite (ex_succ f (n - (j + 1))) by lia.
    replace (n - 1 - j) with (n - (j + 1)) by lia. lia.
Qed.

Lemma ex_bits w n : ex (Z.testbit w) (Z.of_nat n) = 2 * Z.of_nat (count true (bits_of n w)) - Z.of_nat n.
Proof.
  induction n as [|n IH]; [reflexivity|].
  replace (Z.of_nat (S n)) with (Z.of_nat n + 1) by lia. rewrite ex_succ, IH by lia.
  unfold bits_of. rewrite seq_S, map_app, count_app. cbn [map]. rewrite Nat.add_0_l, count_cons, count_nil.
  destruct (Z.testbit w (Z.of_nat n)); cbn [eqb]; lia.
Qed.

(** ** Table rows *)

(** [pos] at [k]: where the first [i] values first reach excess [- k] *)
Definition pos_inv (f : Z -> bool) (i : Z) (pos : list Z) : Prop :=
  zlen pos = 9 /\ forall k, 1 <= k <= 8 ->
    (W pos k = 0 /\ forall j, 0 <= j <= i -> - k < ex f j) \/
    (0 < W pos k <= i /\ ex f (W pos k) = - k /\ forall j, 0 <= j < W pos k -> - k < ex f j).

(** the first minimum *)
Definition min_inv (f : Z -> bool) (i mn mi : Z) : Prop :=
  0 <= mi <= i /\ mn = - ex f mi /\ (forall j, 0 <= j <= i -> ex f mi <= ex f j) /\
  forall j, 0 <= j < mi -> ex f mi < ex f j.

Lemma pos_inv_0 f : pos_inv f 0 (repeat 0 9).
Proof.
  split; [reflexivity|]. intros k Hk. left. split.
  - assert (H : forall n, W (repeat 0 n) k = 0); [|apply H].
    intros n. unfold W. destruct (k <? 0); [reflexivity|]. revert n. generalize (Z.to_nat k).
    intros m. induction m as [|m IH]; intros [|n]; cbn; auto.
  - intros j Hj. replace j with 0 by lia. rewrite ex_0. lia.
Qed.

Lemma min_inv_0 f : min_inv f 0 0 0.
Proof. repeat split; try lia; intros j Hj; try (replace j with 0 by lia; lia); lia. Qed.

(** nothing new below *)
Lemma pos_inv_up f i pos : 0 <= i -> pos_inv f i pos -> f i = true \/ 0 <= ex f (i + 1) -> pos_inv f (i + 1) pos.
Proof.
  intros Hi [HL H] Hup. split; [exact HL|]. intros k Hk. destruct (H k Hk) as [[H0 H1]|[H0 H1]].
  - left. split; [exact H0|]. intros j Hj. destruct (Z.eq_dec j (i + 1)) as [->|]; [|apply H1; lia].
    specialize (H1 i ltac:(lia)). destruct Hup as [Hf|Hp]; [|lia]. rewrite ex_succ, Hf by lia. lia.
  - right. split; [lia|exact H1].
Qed.

Lemma pos_inv_down f i pos : 0 <= i -> pos_inv f i pos -> f i = false -> -8 <= ex f (i + 1) < 0 ->
  pos_inv f (i + 1) (if W pos (- ex f (i + 1)) =? 0 then upd pos (Z.to_nat (- ex f (i + 1))) (i + 1) else pos).
Proof.
  intros Hi [HL H] Hf Hd. pose proof (ex_succ f i Hi) as ES. rewrite Hf in ES.
  set (d := - ex f (i + 1)) in *. assert (Hd' : 1 <= d <= 8) by lia.
  destruct (Z.eqb_spec (W pos d) 0) as [E|N].
  - split; [rewrite zlen_upd; exact HL|]. intros k Hk. rewrite W_upd by lia.
    destruct (Z.eqb_spec k d) as [->|Nk].
    + right. split; [lia|]. split; [lia|]. destruct (H d Hd') as [[_ H1]|[H0 _]]; [|lia].
      intros j Hj. apply H1. lia.
    + destruct (H k Hk) as [[H0 H1]|[H0 H1]].
      * left. split; [exact H0|]. intros j Hj. destruct (Z.eq_dec j (i + 1)) as [->|]; [|apply H1; lia].
        specialize (H1 i ltac:(lia)). lia.
      * right. split; [lia|exact H1].
  - split; [exact HL|]. intros k Hk. destruct (H k Hk) as [[H0 H1]|[H0 H1]].
    + left. split; [exact H0|]. intros j Hj. destruct (Z.eq_dec j (i + 1)) as [->|]; [|apply H1; lia].
      specialize (H1 i ltac:(lia)). assert (k <> d) by congruence. lia.
    + right. split; [lia|exact H1].
Qed.

Lemma min_inv_step f i mn mi : 0 <= i -> min_inv f i mn mi ->
  min_inv f (i + 1) (if mn <? - ex f (i + 1) then - ex f (i + 1) else mn) (if mn <? - ex f (i + 1) then i + 1 else mi).
Proof.
  intros Hi (H0 & H1 & H2 & H3). destruct (Z.ltb_spec mn (- ex f (i + 1))).
  - split; [lia|]. split; [lia|]. split.
    + intros j Hj. destruct (Z.eq_dec j (i + 1)) as [->|]; [lia|]. specialize (H2 j ltac:(lia)). lia.
    + intros j Hj. specialize (H2 j ltac:(lia)). lia.
  - split; [lia|]. split; [lia|]. split; [|exact H3].
    intros j Hj. destruct (Z.eq_dec j (i + 1)) as [->|]; [lia|]. apply H2. lia.
Qed.

Lemma fwd_loop_ok c : forall n i pos mn mi, 0 <= i -> Z.of_nat n + i = 8 ->
  pos_inv (Z.testbit c) i pos -> min_inv (Z.testbit c) i mn mi ->
  exists pos' mn' mi', fwd_loop n i c (ex (Z.testbit c) i) pos mn mi = Ok (ex (Z.testbit c) 8, pos', mn', mi') /\
    pos_inv (Z.testbit c) 8 pos' /\ min_inv (Z.testbit c) 8 mn' mi'.
Proof.
  induction n as [|n IH]; intros i pos mn mi Hi Hn HP HM.
  - replace i with 8 in * by lia. exists pos, mn, mi. auto.
  - cbn [fwd_loop]. set (f := Z.testbit c) in *. change (Z.testbit c i) with (f i).
    pose proof (ex_succ f i Hi) as ES. pose proof (ex_bound f i Hi).
    pose proof (min_inv_step f i mn mi Hi HM) as HM'.
    assert (X : (if f i then Ok (ex f i + 1, pos) else
             if ex f i - 1 <? 0 then
               do p <- rd pos (- (ex f i - 1));
               if p =? 0 then do pos <- wr pos (- (ex f i - 1)) (u8 (i + 1)); Ok (ex f i - 1, pos) else Ok (ex f i - 1, pos)
             else Ok (ex f i - 1, pos)) =
            Ok (ex f (i + 1), if f i then pos else if ex f (i + 1) <? 0 then
               (if W pos (- ex f (i + 1)) =? 0 then upd pos (Z.to_nat (- ex f (i + 1))) (i + 1) else pos) else pos)).
    { destruct (f i); [rewrite ES; reflexivity|]. replace (ex f i - 1) with (ex f (i + 1)) by lia.
      destruct (Z.ltb_spec (ex f (i + 1)) 0); [|reflexivity].
      destruct HP as [HL _]. rewrite W_rd by lia. cbn [bind].
      destruct (Z.eqb_spec (W pos (- ex f (i + 1))) 0) as [_|_].
      - rewrite wr_ok by lia. cbn [bind]. rewrite u8_small by lia. reflexivity.
      - reflexivity. }
    cbv zeta. rewrite X. clear X. cbn [bind].
    assert (HP' : pos_inv f (i + 1) (if f i then pos else if ex f (i + 1) <? 0 then
               (if W pos (- ex f (i + 1)) =? 0 then upd pos (Z.to_nat (- ex f (i + 1))) (i + 1) else pos) else pos)).
    { destruct (f i) eqn:Ef; [apply pos_inv_up; auto|].
      destruct (Z.ltb_spec (ex f (i + 1)) 0); [apply pos_inv_down; auto; lia|apply pos_inv_up; auto]. }
    set (pos2 := if f i then pos else _) in *. clearbody pos2.
    replace (if mn <? - ex f (i + 1) then (u8 (- ex f (i + 1)), u8 (i + 1)) else (mn, mi))
      with (if mn <? - ex f (i + 1) then - ex f (i + 1) else mn, if mn <? - ex f (i + 1) then i + 1 else mi).
    + apply IH; [lia|lia|exact HP'|exact HM'].
    + destruct (Z.ltb_spec mn (- ex f (i + 1))); [|reflexivity].
      destruct HM as (HM0 & HM1 & HM2 & _). specialize (HM2 0 ltac:(lia)). rewrite ex_0 in HM2.
      rewrite !u8_small by (destruct (f i); lia). reflexivity.
Qed.

Lemma fwd_row_ok c : exists pos mn mi, fwd_row c = Ok (ex (Z.testbit c) 8, pos, mn, mi) /\
  pos_inv (Z.testbit c) 8 pos /\ min_inv (Z.testbit c) 8 mn mi.
Proof. apply (fwd_loop_ok c 8 0); [lia|lia|apply pos_inv_0|apply min_inv_0]. Qed.

Definition back (c i : Z) : bool := negb (Z.testbit c (7 - i)).

Lemma bwd_loop_ok c : forall n i pos mn mi, 0 <= i -> Z.of_nat n + i = 8 ->
  pos_inv (back c) i pos -> min_inv (back c) i mn mi ->
  exists pos' mn' mi', bwd_loop n i c (- ex (back c) i) pos mn = Ok (pos', mn') /\
    pos_inv (back c) 8 pos' /\ min_inv (back c) 8 mn' mi'.
Proof.
  induction n as [|n IH]; intros i pos mn mi Hi Hn HP HM.
  - replace i with 8 in * by lia. exists pos, mn, mi. auto.
  - cbn [bwd_loop]. set (f := back c) in *.
    replace (Z.testbit c (7 - i)) with (negb (f i)) by (unfold f, back; apply negb_involutive).
    pose proof (ex_succ f i Hi) as ES. pose proof (ex_bound f i Hi).
    pose proof (min_inv_step f i mn mi Hi HM) as HM'.
    assert (X : (if negb (f i) then
             if 0 <? - ex f i + 1 then
               do p <- rd pos (u8 (- ex f i + 1));
               if p =? 0 then do pos <- wr pos (u8 (- ex f i + 1)) (u8 (i + 1)); Ok (- ex f i + 1, pos) else Ok (- ex f i + 1, pos)
             else Ok (- ex f i + 1, pos)
             else Ok (- ex f i - 1, pos)) =
            Ok (- ex f (i + 1), if f i then pos else if ex f (i + 1) <? 0 then
               (if W pos (- ex f (i + 1)) =? 0 then upd pos (Z.to_nat (- ex f (i + 1))) (i + 1) else pos) else pos)).
    { destruct (f i); cbn [negb]; [rewrite ES; do 2 f_equal; lia|].
      replace (- ex f i + 1) with (- ex f (i + 1)) by lia.
      destruct (Z.ltb_spec (ex f (i + 1)) 0); [|replace (0 <? - ex f (i + 1)) with false by lia; reflexivity].
      replace (0 <? - ex f (i + 1)) with true by lia. rewrite (u8_small (- ex f (i + 1))) by lia.
      destruct HP as [HL _]. rewrite W_rd by lia. cbn [bind].
      destruct (Z.eqb_spec (W pos (- ex f (i + 1))) 0) as [_|_].
      - rewrite wr_ok by lia. cbn [bind]. rewrite u8_small by lia. reflexivity.
      - reflexivity. }
    cbv zeta. rewrite X. clear X. cbn [bind].
    assert (HP' : pos_inv f (i + 1) (if f i then pos else if ex f (i + 1) <? 0 then
               (if W pos (- ex f (i + 1)) =? 0 then upd pos (Z.to_nat (- ex f (i + 1))) (i + 1) else pos) else pos)).
    { destruct (f i) eqn:Ef; [apply pos_inv_up; auto|].
      destruct (Z.ltb_spec (ex f (i + 1)) 0); [apply pos_inv_down; auto; lia|apply pos_inv_up; auto]. }
    set (pos2 := if f i then pos else _) in *. clearbody pos2.
    destruct HM as (HM0 & HM1 & HM2 & HM3). pose proof (HM2 0 ltac:(lia)) as HM2'. rewrite ex_0 in HM2'.
    pose proof (ex_bound f mi ltac:(lia)).
    replace (u8 (Z.max (- ex f (i + 1)) mn)) with (if mn <? - ex f (i + 1) then - ex f (i + 1) else mn).
    + apply IH with (mi := if mn <? - ex f (i + 1) then i + 1 else mi); [lia|lia|exact HP'|exact HM'].
    + destruct (f i); rewrite u8_small by lia; destruct (Z.ltb_spec mn (- ex f (i + 1))); lia.
Qed.

Lemma bwd_row_ok c : exists pos mn mi, bwd_row c = Ok (pos, mn) /\
  pos_inv (back c) 8 pos /\ min_inv (back c) 8 mn mi.
Proof. apply (bwd_loop_ok c 8 0 (repeat 0 9) 0 0); [lia|lia|apply pos_inv_0|apply min_inv_0]. Qed.

(** ** Lanes *)
Lemma land_byte w i : Z.land (Z.shiftr w (8 * Z.of_nat i)) 0xFF = byte w i.
Proof.
  change 0xFF with (Z.ones 8). rewrite Z.land_ones, Z.shiftr_div_pow2 by lia. reflexivity.
Qed.

Lemma shr_ok x s : 0 <= s < 64 -> shr x s = Ok (Z.shiftr x s).
Proof. intros H. unfold shr. replace ((0 <=? s) && (s <? 64)) with true by lia. reflexivity. Qed.
Lemma shl_ok x s : 0 <= s < 64 -> shl x s = Ok (u64 (Z.shiftl x s)).
Proof. intros H. unfold shl. replace ((0 <=? s) && (s <? 64)) with true by lia. reflexivity. Qed.

Lemma lanes_loop_ok f (rev : bool) word (v : nat -> Z) :
  (forall i, (i < 8)%nat -> f (byte word (if rev then 7 - i else i)%nat) = Ok (v i) /\ 0 <= v i < 256) ->
  forall n i acc, (n + i = 8)%nat -> 0 <= acc < 2 ^ (8 * Z.of_nat i) ->
  lanes_loop f rev word n (8 * Z.of_nat i) acc = Ok (acc + 2 ^ (8 * Z.of_nat i) * dval 8 (map v (seq i n))).
Proof.
  intros Hv. induction n as [|n IH]; intros i acc Hn Ha.
  - cbn [lanes_loop seq map dval]. f_equal. lia.
  - cbn [lanes_loop]. destruct (Hv i ltac:(lia)) as [E R].
    set (s := if rev then 64 - 8 * Z.of_nat i - 8 else 8 * Z.of_nat i).
    assert (Es : Z.land (Z.shiftr word s) 0xFF = byte word (if rev then 7 - i else i)%nat /\ 0 <= s < 64).
    { unfold s. destruct rev; (split; [|lia]); rewrite <- land_byte; do 2 f_equal; lia. }
    destruct Es as [Es Hs]. rewrite shr_ok by exact Hs. cbn [bind]. rewrite Es, E. cbn [bind].
    rewrite shl_ok by lia. cbn [bind].
    assert (P : 0 < 2 ^ (8 * Z.of_nat i)) by (apply Z.pow_pos_nonneg; lia).
    assert (P64 : 2 ^ (8 * Z.of_nat i) * 256 <= 2 ^ 64).
    { change 256 with (2 ^ 8). rewrite <- Z.pow_add_r by lia. apply Z.pow_le_mono_r; lia. }
    rewrite u64_small by (rewrite Z.shiftl_mul_pow2 by lia; nia).
    rewrite lor_disjoint by lia.
    replace (8 * Z.of_nat i + 8) with (8 * Z.of_nat (S i)) by lia.
    assert (Ep : 2 ^ (8 * Z.of_nat (S i)) = 2 ^ (8 * Z.of_nat i) * 256).
    { replace (8 * Z.of_nat (S i)) with (8 * Z.of_nat i + 8) by lia. rewrite Z.pow_add_r by lia. reflexivity. }
    rewrite IH; [|lia|rewrite Ep; nia].
    f_equal. cbn [seq map dval]. rewrite Ep. change (2 ^ 8) with 256. ring.
Qed.

Lemma lanes_ok f (rev : bool) word (v : nat -> Z) :
  (forall i, (i < 8)%nat -> f (byte word (if rev then 7 - i else i)%nat) = Ok (v i) /\ 0 <= v i < 256) ->
  exists m, lanes_loop f rev word 8 0 0 = Ok m /\ is_u64 m /\ forall i, (i < 8)%nat -> byte m i = v i.
Proof.
  intros Hv. exists (dval 8 (map v (seq 0 8))).
  assert (D : Forall (digit 8) (map v (seq 0 8))).
  { apply Forall_forall. intros x Hx. apply in_map_iff in Hx. destruct Hx as (i & <- & Hi). apply in_seq in Hi.
    destruct (Hv i ltac:(lia)). unfold digit. lia. }
  split; [|split].
  - change 0 with (8 * Z.of_nat 0) at 1. rewrite (lanes_loop_ok f rev word v Hv); [|lia|cbn; lia].
    change (2 ^ (8 * Z.of_nat 0)) with 1. f_equal. lia.
  - apply dval8_range; [exact D|reflexivity].
  - intros i Hi. rewrite <- land_byte, dval_byte by (auto; rewrite map_length, seq_length; lia).
    rewrite nth_indep with (d' := v O) by (rewrite map_length, seq_length; lia).
    rewrite map_nth, seq_nth by lia. reflexivity.
Qed.

(** digits of a sum of lanes that need not be digits themselves above lane [h] *)
Lemma byte_sum ds h q : (h < length ds)%nat -> length ds = 8%nat -> (forall i, (i < h)%nat -> 0 <= nth i ds 0 < 256) ->
  byte (u64 (dval 8 ds + 2 ^ 64 * q)) h = nth h ds 0 mod 256.
Proof.
  intros Hh HL Hd. unfold byte, u64. rewrite <- (firstn_skipn h ds) at 1.
  assert (Hs : skipn h ds = nth h ds 0 :: skipn (S h) ds).
  { clear - Hh. revert ds Hh. induction h as [|h IH]; intros [|d ds] Hh; cbn in *; try lia; auto. apply IH. lia. }
  rewrite dval_app, Hs by lia. cbn [dval].
  assert (Hf : Forall (digit 8) (firstn h ds)).
  { apply Forall_forall. intros x Hx. apply (In_nth _ _ 0) in Hx. destruct Hx as (i & Hi & <-).
    rewrite firstn_length in Hi. specialize (Hd i ltac:(lia)). unfold digit.
    rewrite <- (firstn_skipn h ds) in Hd. rewrite app_nth1 in Hd by (rewrite firstn_length; lia). lia. }
  apply (dval_range 8) in Hf; [|lia].
  assert (El : zlen (firstn h ds) = Z.of_nat h) by (unfold zlen; rewrite firstn_length; lia). rewrite El in *.
  set (low := dval 8 (firstn h ds)) in *. set (d := nth h ds 0). set (r := dval 8 (skipn (S h) ds)).
  clearbody low d r. change (2 ^ 8) with 256.
  replace (8 * Z.of_nat h) with (Z.of_nat h * 8) in * by lia.
  set (t := Z.of_nat h * 8) in *. assert (Ht : 0 <= t <= 56) by lia. clearbody t.
  assert (E64 : 2 ^ 64 = 2 ^ t * (256 * 2 ^ (56 - t))).
  { change 256 with (2 ^ 8). rewrite <- !Z.pow_add_r by lia. f_equal. lia. }
  assert (P : 0 < 2 ^ t) by (apply Z.pow_pos_nonneg; lia).
  assert (P2 : 0 < 2 ^ (56 - t)) by (apply Z.pow_pos_nonneg; lia).
  rewrite E64. set (A := 2 ^ t) in *. set (B := 2 ^ (56 - t)) in *. clearbody A B.
  replace (low + A * (d + 256 * r) + A * (256 * B) * q) with (low + A * (d + 256 * r + 256 * B * q)) by ring.
  set (y := d + 256 * r + 256 * B * q).
  assert (Ey : (low + A * y) mod (A * (256 * B)) = low + A * (y mod (256 * B))).
  { symmetry. apply Z.mod_unique with (y / (256 * B)).
    - left. pose proof (Z.mod_pos_bound y (256 * B)). nia.
    - pose proof (Z.div_mod y (256 * B)). nia. }
  rewrite Ey. replace (low + A * (y mod (256 * B))) with (y mod (256 * B) * A + low) by ring.
  rewrite Z.div_add_l by lia. rewrite Z.div_small, Z.add_0_r by lia.
  assert (Em : (y mod (256 * B)) mod 256 = y mod 256).
  { rewrite (Z.div_mod y (256 * B)) at 2 by nia. replace (256 * B * (y / (256 * B)) + y mod (256 * B)) with
      (y mod (256 * B) + B * (y / (256 * B)) * 256) by ring. rewrite Z.mod_add by lia. reflexivity. }
  rewrite Em. unfold y. replace (d + 256 * r + 256 * B * q) with (d + (r + B * q) * 256) by ring.
  rewrite Z.mod_add by lia. reflexivity.
Qed.

(** the cumulative lanes: [cs] are the steps *)
Lemma cum_lanes e (c : nat -> Z) S : 
  S = dval 8 (map c (seq 0 8)) ->
  exists q, (e + 2 ^ 8 * S) * ones_step_8 =
    dval 8 (map (fun i => e + zsum (map c (seq 0 i))) (seq 0 8)) + 2 ^ 64 * q.
Proof.
  intros ->. cbn [seq map dval zsum]. 
  set (c0 := c 0%nat). set (c1 := c 1%nat). set (c2 := c 2%nat). set (c3 := c 3%nat).
  set (c4 := c 4%nat). set (c5 := c 5%nat). set (c6 := c 6%nat). set (c7 := c 7%nat).
  clearbody c0 c1 c2 c3 c4 c5 c6 c7. unfold ones_step_8.
  exists (c0 + c1 + c2 + c3 + c4 + c5 + c6 + c7 + 256 * (c1 + c2 + c3 + c4 + c5 + c6 + c7) +
    256 ^ 2 * (c2 + c3 + c4 + c5 + c6 + c7) + 256 ^ 3 * (c3 + c4 + c5 + c6 + c7) + 256 ^ 4 * (c4 + c5 + c6 + c7) +
    256 ^ 5 * (c5 + c6 + c7) + 256 ^ 6 * (c6 + c7) + 256 ^ 7 * c7).
  change (2 ^ 8) with 256. change (2 ^ 64) with 18446744073709551616. ring.
Qed.

Lemma dval_bytes x v : is_u64 x -> (forall i, (i < 8)%nat -> byte x i = v i) -> x = dval 8 (map v (seq 0 8)).
Proof.
  intros Hx Hv. rewrite (digits8 x Hx) at 1. f_equal. apply nth_ext with 0 0.
  - rewrite digits_length. reflexivity.
  - rewrite digits_length. intros i Hi. rewrite <- lane_digits by lia. change (lane 8 x i) with (byte x i).
    rewrite Hv by lia. rewrite nth_indep with (d' := v O) by (rewrite map_length, seq_length; lia).
    rewrite map_nth, seq_nth by lia. reflexivity.
Qed.

Lemma u64_mul_l a b : u64 (u64 a * b) = u64 (a * b).
Proof. unfold u64. apply Z.mul_mod_idemp_l. lia. Qed.
Lemma u64_add_r a b : u64 (a + u64 b) = u64 (a + b).
Proof. unfold u64. apply Z.add_mod_idemp_r. lia. Qed.
Lemma u64_sub_r a b : u64 (a - u64 b) = u64 (a - b).
Proof. unfold u64. apply Zminus_mod_idemp_r. Qed.
Lemma u64_shl8 a : u64 (Z.shiftl (u64 a) 8) = u64 (2 ^ 8 * a).
Proof. rewrite Z.shiftl_mul_pow2, u64_mul_l, Z.mul_comm by lia. reflexivity. Qed.

Lemma is_u64_u64 x : is_u64 (u64 x).
Proof. unfold is_u64, u64. apply Z.mod_pos_bound. lia. Qed.

(** ** The lane search *)
Lemma leq_step_8_range x y : is_u64 x -> is_u64 y -> is_u64 (leq_step_8 x y).
Proof.
  intros Hx Hy. rewrite (digits8 x Hx), (digits8 y Hy).
  assert (Dx : Forall (digit 8) (digits 8 8 x)) by (apply digits_range; lia).
  assert (Dy : Forall (digit 8) (digits 8 8 y)) by (apply digits_range; lia).
  rewrite leq_step_8_dval by (auto using digits_length). apply dval8_range.
  - apply digit_map2; auto. intros. unfold digit, leq8_lane.
    repeat match goal with |- context [if ?c then _ else _] => destruct c end; lia.
  - rewrite map2_length; rewrite !digits_length; auto.
Qed.

Section LaneSearch.
Context (F : Z -> bool) (e : Z) (X M : Z) (pos : nat -> list Z) (mn mi : nat -> Z).
Hypothesis He : 1 <= e <= 64.
Hypothesis HX : is_u64 X.
Hypothesis HM : is_u64 M.
Let d (i : nat) := e + ex F (8 * Z.of_nat i).
Hypothesis HXb : forall h, (h < 8)%nat -> (forall i, (i < h)%nat -> 0 <= d i < 256) -> byte X h = d h mod 256.
Hypothesis HMb : forall i, (i < 8)%nat -> byte M i = mn i.
Hypothesis Hpos : forall i, (i < 8)%nat -> pos_inv (fun t => F (8 * Z.of_nat i + t)) 8 (pos i).
Hypothesis Hmin : forall i, (i < 8)%nat -> min_inv (fun t => F (8 * Z.of_nat i + t)) 8 (mn i) (mi i).

Lemma lane_search_aux n : (n <= 8)%nat ->
  (exists h, (h < n)%nat /\ (forall i, (i < h)%nat -> byte (leq_step_8 X M) i = 0) /\ byte (leq_step_8 X M) h = 1 /\
     1 <= byte X h <= 8 /\ 1 <= W (pos h) (byte X h) <= 8 /\
     e + ex F (8 * Z.of_nat h + W (pos h) (byte X h)) = 0 /\
     forall k, 0 <= k < 8 * Z.of_nat h + W (pos h) (byte X h) -> 0 < e + ex F k) \/
  ((forall i, (i < n)%nat -> byte (leq_step_8 X M) i = 0) /\ forall k, 0 <= k <= 8 * Z.of_nat n -> 0 < e + ex F k).
Proof.
  induction n as [|n IH]; intros Hn.
  { right. split; [lia|]. intros k Hk. replace k with 0 by lia. rewrite ex_0. lia. }
  destruct (IH ltac:(lia)) as [(h & Hh & H)|[Hz Hp]]; [left; exists h; split; [lia|exact H]|].
  assert (Hd : forall i, (i <= n)%nat -> 1 <= d i <= 120).
  { intros i Hi. unfold d. pose proof (Hp (8 * Z.of_nat i) ltac:(lia)). pose proof (ex_bound F (8 * Z.of_nat i) ltac:(lia)). lia. }
  assert (EX : byte X n = d n).
  { rewrite HXb; [apply Z.mod_small; specialize (Hd n (le_n n)); lia|lia|]. intros i Hi. specialize (Hd i ltac:(lia)). lia. }
  specialize (Hd n (le_n n)).
  pose proof (HMb n ltac:(lia)) as EM. destruct (Hmin n ltac:(lia)) as (M0 & M1 & M2 & M3).
  set (f := fun t => F (8 * Z.of_nat n + t)) in *.
  pose proof (ex_bound f (mi n) ltac:(lia)) as B.
  assert (EL : byte (leq_step_8 X M) n = if d n <=? mn n then 1 else 0).
  { rewrite leq_step_8_correct; [rewrite EX, EM; reflexivity|auto|auto|lia|rewrite EX, EM; lia]. }
  assert (ES : forall j, 0 <= j -> ex F (8 * Z.of_nat n + j) = ex F (8 * Z.of_nat n) + ex f j) by (intros j Hj; apply ex_shift; lia).
  unfold d in *. destruct (Z.leb_spec (e + ex F (8 * Z.of_nat n)) (mn n)) as [Hle|Hgt].
  - left. exists n. split; [lia|]. split; [exact Hz|]. split; [exact EL|]. rewrite EX in *.
    split; [lia|]. destruct (Hpos n ltac:(lia)) as [_ P]. fold f in P.
    set (dn := e + ex F (8 * Z.of_nat n)) in *.
    destruct (P dn ltac:(lia)) as [[P0 P1]|(P0 & P1 & P2)].
    { specialize (P1 (mi n) ltac:(lia)). lia. }
    split; [lia|]. rewrite ES by lia. split; [lia|]. intros k Hk.
    destruct (Z_le_gt_dec k (8 * Z.of_nat n)); [apply Hp; lia|].
    replace k with (8 * Z.of_nat n + (k - 8 * Z.of_nat n)) by lia. rewrite ES by lia.
    specialize (P2 (k - 8 * Z.of_nat n) ltac:(lia)). lia.
  - right. split.
    + intros i Hi. destruct (Nat.eq_dec i n) as [->|]; [exact EL|apply Hz; lia].
    + intros k Hk. destruct (Z_le_gt_dec k (8 * Z.of_nat n)); [apply Hp; lia|].
      replace k with (8 * Z.of_nat n + (k - 8 * Z.of_nat n)) by lia. rewrite ES by lia.
      specialize (M2 (k - 8 * Z.of_nat n) ltac:(lia)). lia.
Qed.

Lemma lane_search : is_u64 (leq_step_8 X M) ->
  (exists h, (h < 8)%nat /\ lsb_opt (leq_step_8 X M) = Ok (Some (8 * Z.of_nat h)) /\
     1 <= byte X h <= 8 /\ 1 <= W (pos h) (byte X h) <= 8 /\
     e + ex F (8 * Z.of_nat h + W (pos h) (byte X h)) = 0 /\
     forall k, 0 <= k < 8 * Z.of_nat h + W (pos h) (byte X h) -> 0 < e + ex F k) \/
  (lsb_opt (leq_step_8 X M) = Ok None /\ forall k, 0 <= k <= 64 -> 0 < e + ex F k).
Proof.
  intros HL. pose proof (lane_search_aux 8 (le_n 8)) as HA. set (L := leq_step_8 X M) in *. clearbody L.
  destruct HA as [(h & Hh & Hz & H1 & H2)|[Hz Hp]].
  - left. exists h. split; [exact Hh|]. split; [|exact H2]. apply lsb_opt_correct; [exact HL|]. split; [lia|]. split.
    + replace (8 * Z.of_nat h) with (8 * Z.of_nat h + 0) by lia. rewrite <- byte_testbit, H1 by lia. reflexivity.
    + intros i Hi. pose proof (Z.div_mod i 8 ltac:(lia)). pose proof (Z.mod_pos_bound i 8 ltac:(lia)).
      replace i with (8 * Z.of_nat (Z.to_nat (i / 8)) + i mod 8) by lia. rewrite <- byte_testbit, Hz by lia. apply Z.testbit_0_l.
  - right. split; [|intros k Hk; apply Hp; lia].
    replace L with 0; [apply lsb_opt_zero|]. symmetry. rewrite (dval_bytes L (fun _ => 0) HL Hz). reflexivity.
Qed.
End LaneSearch.

(** first position after which the excess, starting from [e], is zero *)
Definition first_zero (F : Z -> bool) (e n r : Z) : Prop :=
  0 <= r < n /\ e + ex F (r + 1) = 0 /\ forall k, 0 <= k <= r -> 0 < e + ex F k.
Definition no_zero (F : Z -> bool) (e n : Z) : Prop := forall k, 0 <= k <= n -> 0 < e + ex F k.

Lemma map_seq_ext {A} (f g : nat -> A) a n : (forall i, (a <= i < a + n)%nat -> f i = g i) -> map f (seq a n) = map g (seq a n).
Proof. intros H. apply map_ext_in. intros i Hi. apply in_seq in Hi. auto. Qed.

Lemma ex_byte w i : ex (fun t => Z.testbit w (8 * Z.of_nat i + t)) 8 = ex (Z.testbit (byte w i)) 8.
Proof. apply ex_ext. intros t Ht. symmetry. apply byte_testbit. exact Ht. Qed.

Lemma zsum_ex F i : zsum (map (fun j => ex (fun t => F (8 * Z.of_nat j + t)) 8) (seq 0 i)) = ex F (8 * Z.of_nat i).
Proof.
  induction i as [|i IH]; [reflexivity|]. rewrite seq_S, map_app. cbn [map].
  assert (E : forall l x, zsum (l ++ [x]) = zsum l + x) by (clear; induction l; intros; cbn [app zsum]; [lia|rewrite IHl; lia]).
  rewrite E, IH. replace (8 * Z.of_nat (S i)) with (8 * Z.of_nat i + 8) by lia. rewrite Nat.add_0_l. symmetry. apply ex_shift; lia.
Qed.

Lemma nth_map_seq {A} (f : nat -> A) n i d : (i < n)%nat -> nth i (map f (seq 0 n)) d = f i.
Proof.
  intros Hi. rewrite nth_indep with (d' := f O) by (rewrite map_length, seq_length; lia).
  rewrite map_nth, seq_nth by lia. reflexivity.
Qed.

Lemma byte_counts_range w : is_u64 w -> is_u64 (byte_counts w).
Proof.
  intros Hw. unfold byte_counts. cbv zeta. apply land_range_l; [lia|vm_compute; discriminate|apply is_u64_u64].
Qed.

Lemma cum_byte F e c X : (forall i, (i < 8)%nat -> c i = ex (fun t => F (8 * Z.of_nat i + t)) 8) ->
  X = u64 ((e + 2 ^ 8 * dval 8 (map c (seq 0 8))) * ones_step_8) ->
  forall h, (h < 8)%nat -> (forall i, (i < h)%nat -> 0 <= e + ex F (8 * Z.of_nat i) < 256) ->
  byte X h = (e + ex F (8 * Z.of_nat h)) mod 256.
Proof.
  intros Hc -> h Hh Hd. destruct (cum_lanes e c _ eq_refl) as [q ->].
  assert (N : forall i, (i < 8)%nat -> nth i (map (fun i => e + zsum (map c (seq 0 i))) (seq 0 8)) 0 = e + ex F (8 * Z.of_nat i)).
  { intros i Hi. rewrite nth_map_seq by lia. rewrite <- zsum_ex. do 2 f_equal. apply map_seq_ext. intros j Hj. apply Hc. lia. }
  rewrite byte_sum.
  - rewrite N by lia. reflexivity.
  - rewrite map_length, seq_length. lia.
  - rewrite map_length, seq_length. lia.
  - intros i Hi. rewrite N by lia. auto.
Qed.

(** rows of the tables, lane by lane *)
Definition fw_pos (c : Z) : list Z := match fwd_row c with Ok (_, p, _, _) => p | _ => [] end.
Definition fw_min (c : Z) : Z := match fwd_row c with Ok (_, _, m, _) => m | _ => 0 end.
Definition fw_idx (c : Z) : Z := match fwd_row c with Ok (_, _, _, i) => i | _ => 0 end.
Definition bw_pos (c : Z) : list Z := match bwd_row c with Ok (p, _) => p | _ => [] end.
Definition bw_min (c : Z) : Z := match bwd_row c with Ok (_, m) => m | _ => 0 end.

Lemma fwd_row_eq c : fwd_row c = Ok (ex (Z.testbit c) 8, fw_pos c, fw_min c, fw_idx c) /\
  pos_inv (Z.testbit c) 8 (fw_pos c) /\ min_inv (Z.testbit c) 8 (fw_min c) (fw_idx c).
Proof.
  destruct (fwd_row_ok c) as (p & m & i & E & HP & HM). unfold fw_pos, fw_min, fw_idx. rewrite E. auto.
Qed.
Lemma bwd_row_eq c : bwd_row c = Ok (bw_pos c, bw_min c) /\ pos_inv (back c) 8 (bw_pos c) /\
  exists mi, min_inv (back c) 8 (bw_min c) mi.
Proof.
  destruct (bwd_row_ok c) as (p & m & i & E & HP & HM). unfold bw_pos, bw_min. rewrite E. eauto.
Qed.

Lemma pos_inv_ext f g pos : (forall t, 0 <= t < 8 -> f t = g t) -> pos_inv f 8 pos -> pos_inv g 8 pos.
Proof.
  intros E [L H]. split; [exact L|]. intros k Hk. destruct (H k Hk) as [[H0 H1]|(H0 & H1 & H2)].
  - left. split; [exact H0|]. intros j Hj. rewrite <- (ex_ext f g j) by (intros; apply E; lia). apply H1. exact Hj.
  - right. split; [exact H0|]. rewrite <- (ex_ext f g) by (intros; apply E; lia). split; [exact H1|].
    intros j Hj. rewrite <- (ex_ext f g j) by (intros; apply E; lia). apply H2. exact Hj.
Qed.
Lemma min_inv_ext f g mn mi : (forall t, 0 <= t < 8 -> f t = g t) -> min_inv f 8 mn mi -> min_inv g 8 mn mi.
Proof.
  intros E (H0 & H1 & H2 & H3). assert (X : forall j, 0 <= j <= 8 -> ex f j = ex g j) by (intros j Hj; apply ex_ext; intros; apply E; lia).
  split; [exact H0|]. rewrite <- (X mi) by lia. split; [exact H1|]. split; intros j Hj; rewrite <- X by lia; auto.
Qed.
Lemma min_inv_range f mn mi : min_inv f 8 mn mi -> 0 <= mn <= 8.
Proof.
  intros (H0 & H1 & H2 & H3). pose proof (H2 0 ltac:(lia)). rewrite ex_0 in *. pose proof (ex_bound f mi). lia.
Qed.

Lemma lin_lanes a : 2 * dval 8 (map a (seq 0 8)) - 8 * ones_step_8 = dval 8 (map (fun i => 2 * a i - 8) (seq 0 8)).
Proof.
  cbn [seq map dval].
  generalize (a 0%nat), (a 1%nat), (a 2%nat), (a 3%nat), (a 4%nat), (a 5%nat), (a 6%nat), (a 7%nat).
  intros. unfold ones_step_8. change (2 ^ 8) with 256. ring.
Qed.

Lemma find_close_in_word_ok w e : is_u64 w -> 1 <= e <= 64 ->
  (exists r, find_close_in_word w (byte_counts w) e = Ok (Some r) /\ first_zero (Z.testbit w) e 64 r) \/
  (find_close_in_word w (byte_counts w) e = Ok None /\ no_zero (Z.testbit w) e 64).
Proof.
  intros Hw He. unfold find_close_in_word. replace ((0 <? e) && (e <=? 64)) with true by lia. unfold assert_. cbv iota.
  rewrite u64_shl8. rewrite u64_add_r, u64_mul_l.
  set (c := fun i => ex (fun t => Z.testbit w (8 * Z.of_nat i + t)) 8).
  assert (EB : 2 * byte_counts w - 8 * ones_step_8 = dval 8 (map c (seq 0 8))).
  { rewrite (dval_bytes (byte_counts w) (fun i => Z.of_nat (count true (bits_of 8 (byte w i))))).
    - rewrite lin_lanes. f_equal. apply map_seq_ext. intros i Hi. unfold c. rewrite ex_byte, (ex_bits _ 8). lia.
    - apply byte_counts_range. exact Hw.
    - intros i Hi. apply byte_counts_correct; auto. }
  rewrite EB. set (X := u64 _).
  destruct (lanes_ok fwd_min false w (fun i => fw_min (byte w i))) as (M & EM & RM & BM).
  { intros i Hi. unfold fwd_min. destruct (fwd_row_eq (byte w i)) as (E & _ & HM). rewrite E. cbn [bind].
    split; [reflexivity|]. apply min_inv_range in HM. lia. }
  rewrite EM. cbn [bind].
  assert (RX : is_u64 X) by apply is_u64_u64.
  destruct (lane_search (Z.testbit w) e X M (fun i => fw_pos (byte w i)) (fun i => fw_min (byte w i)) (fun i => fw_idx (byte w i)))
    as [(h & Hh & EL & B1 & B2 & Z1 & Z2)|[EL NZ]]; auto.
  - apply cum_byte with c; [reflexivity|reflexivity].
  - intros i Hi. apply pos_inv_ext with (Z.testbit (byte w i)); [intros; apply byte_testbit; auto|apply fwd_row_eq].
  - intros i Hi. apply min_inv_ext with (Z.testbit (byte w i)); [intros; apply byte_testbit; auto|apply fwd_row_eq].
  - apply leq_step_8_range; auto.
  - left. rewrite EL. cbn [bind]. rewrite !shr_ok by lia. cbn [bind]. rewrite !land_byte.
    unfold fwd_pos. destruct (fwd_row_eq (byte w h)) as (E & [HL _] & _). rewrite E. cbn [bind].
    rewrite W_rd by lia. cbn [bind]. set (b := W (fw_pos (byte w h)) (byte X h)) in *.
    replace (0 <? b) with true by lia. cbv iota. eexists. split; [reflexivity|].
    split; [lia|]. split; [rewrite <- Z1; do 2 f_equal; lia|]. intros k Hk. apply Z2. lia.
  - right. rewrite EL. cbn [bind]. split; [reflexivity|exact NZ].
Qed.

(** the word read from the top, opening parentheses lowering the excess *)
Definition down (w i : Z) : bool := negb (Z.testbit w (63 - i)).

Lemma back_byte w i t : (i < 8)%nat -> 0 <= t < 8 -> back (byte w (7 - i)) t = down w (8 * Z.of_nat i + t).
Proof.
  intros Hi Ht. unfold back, down. rewrite byte_testbit by lia. do 2 f_equal. lia.
Qed.

Lemma ex_down_byte w i : (i < 8)%nat -> ex (fun t => down w (8 * Z.of_nat i + t)) 8 = - ex (Z.testbit (byte w (7 - i))) 8.
Proof.
  intros Hi. rewrite <- (ex_ext (back (byte w (7 - i)))) by (intros; apply back_byte; auto).
  unfold back. rewrite ex_negb. f_equal.
  rewrite (ex_ext _ (fun t => Z.testbit (byte w (7 - i)) (8 - 1 - t))) by (intros; f_equal; lia).
  rewrite ex_rev by lia. change (8 - 8) with 0. rewrite ex_0. lia.
Qed.

Lemma dval_neg a : dval 8 (map (fun i : nat => - a i) (seq 0 8)) = - dval 8 (map a (seq 0 8)).
Proof. cbn [seq map dval]. ring. Qed.

Lemma find_open_in_word_ok w e : is_u64 w -> 1 <= e <= 64 ->
  (exists r, find_open_in_word w (byte_counts w) e = Ok (Some (63 - r)) /\ first_zero (down w) e 64 r) \/
  (find_open_in_word w (byte_counts w) e = Ok None /\ no_zero (down w) e 64).
Proof.
  intros Hw He. unfold find_open_in_word. replace ((0 <? e) && (e <=? 64)) with true by lia. unfold assert_. cbv iota.
  rewrite u64_shl8. rewrite u64_sub_r, u64_mul_l.
  set (c := fun i => ex (fun t => down w (8 * Z.of_nat i + t)) 8).
  assert (EB : e - 2 ^ 8 * (2 * reverse_bytes (byte_counts w) - 8 * ones_step_8) = e + 2 ^ 8 * dval 8 (map c (seq 0 8))).
  { rewrite (dval_bytes (reverse_bytes (byte_counts w)) (fun i => Z.of_nat (count true (bits_of 8 (byte w (7 - i)))))).
    - rewrite lin_lanes. rewrite <- (Z.opp_involutive (dval 8 (map c _))), <- dval_neg.
      set (d1 := dval 8 _). set (d2 := dval 8 _). replace d2 with d1; [lia|]. unfold d1, d2. f_equal.
      apply map_seq_ext. intros i Hi. unfold c. rewrite ex_down_byte, (ex_bits _ 8) by lia. lia.
    - apply reverse_bytes_range. apply byte_counts_range. exact Hw.
    - intros i Hi. rewrite reverse_bytes_correct by (auto using byte_counts_range). apply byte_counts_correct; auto. lia. }
  rewrite EB. set (X := u64 _).
  destruct (lanes_ok bwd_min true w (fun i => bw_min (byte w (7 - i)))) as (M & EM & RM & BM).
  { intros i Hi. unfold bwd_min. destruct (bwd_row_eq (byte w (7 - i))) as (E & _ & mi & HM). rewrite E. cbn [bind].
    split; [reflexivity|]. apply min_inv_range in HM. lia. }
  rewrite EM. cbn [bind].
  assert (RX : is_u64 X) by apply is_u64_u64.
  assert (HMI : exists mi : nat -> Z, forall i, (i < 8)%nat -> min_inv (fun t => down w (8 * Z.of_nat i + t)) 8 (bw_min (byte w (7 - i))) (mi i)).
  { assert (A : forall n, exists mi : nat -> Z, forall i, (i < n)%nat -> (i < 8)%nat ->
        min_inv (fun t => down w (8 * Z.of_nat i + t)) 8 (bw_min (byte w (7 - i))) (mi i)).
    { induction n as [|n [mi IH]]; [exists (fun _ => 0); lia|].
      destruct (bwd_row_eq (byte w (7 - n))) as (_ & _ & m & HM). exists (fun i => if Nat.eqb i n then m else mi i).
      intros i Hi Hi8. destruct (Nat.eqb_spec i n) as [->|]; [|apply IH; lia].
      apply min_inv_ext with (back (byte w (7 - n))); [intros; apply back_byte; auto|exact HM]. }
    destruct (A 8%nat) as [mi Hmi]. exists mi. auto. }
  destruct HMI as [mi HMI].
  destruct (lane_search (down w) e X M (fun i => bw_pos (byte w (7 - i))) (fun i => bw_min (byte w (7 - i))) mi)
    as [(h & Hh & EL & B1 & B2 & Z1 & Z2)|[EL NZ]]; auto.
  - apply cum_byte with c; [reflexivity|reflexivity].
  - intros i Hi. apply pos_inv_ext with (back (byte w (7 - i))); [intros; apply back_byte; auto|apply bwd_row_eq].
  - apply leq_step_8_range; auto.
  - left. rewrite EL. cbn [bind]. rewrite !shr_ok by lia. cbn [bind].
    replace (64 - 8 * Z.of_nat h - 8) with (8 * Z.of_nat (7 - h)) by lia. rewrite !land_byte.
    unfold bwd_pos. destruct (bwd_row_eq (byte w (7 - h))) as (E & [HL _] & _). rewrite E. cbn [bind].
    rewrite W_rd by lia. cbn [bind]. set (b := W (bw_pos (byte w (7 - h))) (byte X h)) in *.
    replace (0 <? b) with true by lia. cbv iota. exists (8 * Z.of_nat h + b - 1). split.
    + rewrite sub64_ok by lia. do 2 f_equal. lia.
    + split; [lia|]. split; [rewrite <- Z1; do 2 f_equal; lia|]. intros k Hk. apply Z2. lia.
  - right. rewrite EL. cbn [bind]. split; [reflexivity|exact NZ].
Qed.

(** ** Minimum in a word *)
(** [i] is the leftmost minimum of [g] on [lo..hi] *)
Definition argmin (g : Z -> Z) (lo hi i : Z) : Prop :=
  lo <= i <= hi /\ (forall j, lo <= j <= hi -> g i <= g j) /\ (forall j, lo <= j < i -> g i < g j).

Lemma int32_ok x : - 2 ^ 31 <= x < 2 ^ 31 -> int32 x = Ok x.
Proof. intros H. unfold int32. replace ((- 2 ^ 31 <=? x) && (x <? 2 ^ 31)) with true by lia. reflexivity. Qed.

Lemma rmq_bytes_loop_ok w e0 min0 : is_u64 w -> (forall k, 0 <= k <= 64 -> - 2 ^ 31 <= e0 + ex (Z.testbit w) k < 2 ^ 31) ->
  forall n i mbe mbi, (n + i = 8)%nat ->
  (mbe = min0 /\ ((0 < i)%nat -> forall k, 0 <= k <= 8 * Z.of_nat i -> min0 <= e0 + ex (Z.testbit w) k) \/
   mbe < min0 /\ exists h, (h < i)%nat /\ mbi = Z.of_nat h /\ mbe = e0 + ex (Z.testbit w) (8 * Z.of_nat h + fw_idx (byte w h)) /\
     argmin (fun k => e0 + ex (Z.testbit w) k) 0 (8 * Z.of_nat i) (8 * Z.of_nat h + fw_idx (byte w h))) ->
  exists mbe' mbi', rmq_bytes_loop true w n (Z.of_nat i) (e0 + ex (Z.testbit w) (8 * Z.of_nat i)) mbe mbi =
    Ok (e0 + ex (Z.testbit w) 64, mbe', mbi') /\
  (mbe' = min0 /\ (forall k, 0 <= k <= 64 -> min0 <= e0 + ex (Z.testbit w) k) \/
   mbe' < min0 /\ exists h, (h < 8)%nat /\ mbi' = Z.of_nat h /\ mbe' = e0 + ex (Z.testbit w) (8 * Z.of_nat h + fw_idx (byte w h)) /\
     argmin (fun k => e0 + ex (Z.testbit w) k) 0 64 (8 * Z.of_nat h + fw_idx (byte w h))).
Proof.
  intros Hw HB. set (F := Z.testbit w) in *. induction n as [|n IH]; intros i mbe mbi Hn HI.
  - replace i with 8%nat in * by lia. change (8 * Z.of_nat 8) with 64 in *. exists mbe, mbi. split; [reflexivity|].
    destruct HI as [[HI0 HI]|HI]; [left; split; [exact HI0|apply HI; lia]|right; exact HI].
  - cbn [rmq_bytes_loop]. rewrite shr_ok by lia. cbn [bind].
    replace (Z.of_nat i * 8) with (8 * Z.of_nat i) by lia. rewrite land_byte.
    unfold fwd_min, fwd_exc. destruct (fwd_row_eq (byte w i)) as (E & _ & HM). rewrite E. cbn [bind].
    apply (min_inv_ext _ (fun t => F (8 * Z.of_nat i + t))) in HM; [|intros; apply byte_testbit; auto].
    destruct HM as (M0 & M1 & M2 & M3). set (f := fun t => F (8 * Z.of_nat i + t)) in *.
    assert (ES : forall j, 0 <= j -> ex F (8 * Z.of_nat i + j) = ex F (8 * Z.of_nat i) + ex f j) by (intros j Hj; apply ex_shift; lia).
    set (m := fw_idx (byte w i)) in *.
    assert (EC : e0 + ex F (8 * Z.of_nat i) - fw_min (byte w i) = e0 + ex F (8 * Z.of_nat i + m)) by (rewrite ES by lia; lia).
    rewrite EC. rewrite int32_ok by (apply HB; lia). cbn [bind].
    assert (EE : ex (Z.testbit (byte w i)) 8 = ex f 8) by (symmetry; apply ex_byte). rewrite EE.
    pose proof (ex_bound f 8 ltac:(lia)) as B8. unfold to_char. rewrite i8_small by lia.
    replace (e0 + ex F (8 * Z.of_nat i) + ex f 8) with (e0 + ex F (8 * Z.of_nat (S i))).
    2:{ replace (8 * Z.of_nat (S i)) with (8 * Z.of_nat i + 8) by lia. rewrite ES by lia. lia. }
    rewrite int32_ok by (apply HB; lia). cbn [bind]. replace (Z.of_nat i + 1) with (Z.of_nat (S i)) by lia.
    apply IH; [lia|]. set (cur := e0 + ex F (8 * Z.of_nat i + m)) in *.
    assert (HJ : forall k, 8 * Z.of_nat i <= k <= 8 * Z.of_nat (S i) -> cur <= e0 + ex F k).
    { intros k Hk. replace k with (8 * Z.of_nat i + (k - 8 * Z.of_nat i)) by lia. unfold cur. rewrite !ES by lia.
      specialize (M2 (k - 8 * Z.of_nat i) ltac:(lia)). lia. }
    destruct (Z.ltb_spec cur mbe) as [Hlt|Hge].
    + right. assert (HP : forall k, 0 <= k < 8 * Z.of_nat i -> mbe <= e0 + ex F k).
      { destruct HI as [[-> HI]|(_ & h & _ & _ & -> & _ & HI & _)]; intros k Hk; [apply HI; lia|]. apply (HI k ltac:(lia)). }
      split; [destruct HI as [[-> _]|[HI _]]; lia|]. exists i. split; [lia|]. split; [reflexivity|]. fold m. split; [reflexivity|].
      split; [lia|]. fold cur. split.
      * intros k Hk. destruct (Z_lt_le_dec k (8 * Z.of_nat i)); [specialize (HP k ltac:(lia)); lia|apply HJ; lia].
      * intros k Hk. destruct (Z_lt_le_dec k (8 * Z.of_nat i)); [specialize (HP k ltac:(lia)); lia|].
        replace k with (8 * Z.of_nat i + (k - 8 * Z.of_nat i)) by lia. unfold cur. rewrite !ES by lia.
        specialize (M3 (k - 8 * Z.of_nat i) ltac:(lia)). lia.
    + destruct HI as [[-> HI]|(HI0 & h & Hh & -> & Em & H1 & H2 & H3)].
      * left. split; [reflexivity|]. intros _ k Hk.
        destruct (Z_lt_le_dec k (8 * Z.of_nat i)); [apply HI; lia|specialize (HJ k ltac:(lia)); lia].
      * right. split; [exact HI0|]. exists h. split; [lia|]. split; [reflexivity|]. split; [exact Em|]. split; [lia|]. split; [|exact H3].
        intros k Hk. destruct (Z_le_gt_dec k (8 * Z.of_nat i)); [apply H2; lia|specialize (HJ k ltac:(lia)); lia].
Qed.

(** scanning [lo..hi) from the minimum [mv] at [mi] gives [mv'] at [mi'] *)
Definition scan (g : Z -> Z) (lo hi mv mi mv' mi' : Z) : Prop :=
  mv' = mv /\ mi' = mi /\ (forall p, lo <= p < hi -> mv <= g p) \/
  mv' = g mi' /\ mv' < mv /\ argmin g lo (hi - 1) mi'.

Lemma scan_app g lo mid lo2 hi m0 i0 m1 i1 m2 i2 : lo <= lo2 <= mid -> mid <= hi ->
  scan g lo mid m0 i0 m1 i1 -> scan g lo2 hi m1 i1 m2 i2 -> scan g lo hi m0 i0 m2 i2.
Proof.
  intros H1 H2 S1 S2. destruct S2 as [(-> & -> & B)|(-> & B1 & B2 & B3 & B4)].
  - destruct S1 as [(-> & -> & A)|(-> & A1 & A2 & A3 & A4)].
    + left. repeat split. intros p Hp. destruct (Z_lt_le_dec p mid); [apply A; lia|apply B; lia].
    + right. split; [reflexivity|]. split; [exact A1|]. split; [lia|]. split; [|exact A4].
      intros p Hp. destruct (Z_lt_le_dec p mid); [apply A3; lia|apply B; lia].
  - assert (A : m1 <= m0 /\ forall p, lo <= p < mid -> m1 <= g p).
    { destruct S1 as [(-> & -> & A)|(-> & A1 & A2 & A3 & A4)]; [split; [lia|exact A]|]. split; [lia|]. intros p Hp. apply A3. lia. }
    destruct A as [A0 A]. right. split; [reflexivity|]. split; [lia|]. split; [lia|]. split; intros p Hp.
    + destruct (Z_lt_le_dec p mid) as [Hl|Hl]; [specialize (A p ltac:(lia)); lia|apply B3; lia].
    + destruct (Z_lt_le_dec p mid) as [Hl|Hl]; [specialize (A p ltac:(lia)); lia|apply B4; lia].
Qed.
Lemma scan_nil g lo m i : scan g lo lo m i m i.
Proof. left. repeat split. lia. Qed.
Lemma scan_argmin g a s hi mi mv' mi' : a <= s -> s < hi -> argmin g a s mi -> scan g s hi (g mi) mi mv' mi' ->
  mv' = g mi' /\ argmin g a (hi - 1) mi'.
Proof.
  intros H1 H2 (A1 & A2 & A3) [(-> & -> & B)|(-> & B1 & B2 & B3 & B4)]; split; try reflexivity.
  - split; [lia|]. split; [|exact A3]. intros p Hp. destruct (Z_lt_le_dec p s); [apply A2; lia|apply B; lia].
  - split; [lia|]. split; intros p Hp; (destruct (Z_lt_le_dec p s); [specialize (A2 p ltac:(lia)); lia|]); [apply B3|apply B4]; lia.
Qed.

Lemma excess_rmq_in_word_scan w g s mv mi : is_u64 w ->
  (forall k, 0 <= k <= 64 -> g (s + k) = g s + ex (Z.testbit w) k) ->
  (forall k, 0 <= k <= 64 -> - 2 ^ 31 <= g (s + k) < 2 ^ 31) ->
  exists mv' mi', excess_rmq_in_word true w (g s) s mv mi = Ok (g (s + 64), mv', mi') /\ scan g s (s + 65) mv mi mv' mi'.
Proof.
  intros Hw HG HB. unfold excess_rmq_in_word.
  destruct (rmq_bytes_loop_ok w (g s) mv Hw) with (n := 8%nat) (i := 0%nat) (mbe := mv) (mbi := 0) as (mbe & mbi & E & H).
  { intros k Hk. rewrite <- HG by exact Hk. apply HB. exact Hk. }
  { reflexivity. }
  { left. split; [reflexivity|]. lia. }
  change (8 * Z.of_nat 0) with 0 in E. change (Z.of_nat 0) with 0 in E. rewrite ex_0, Z.add_0_r in E. rewrite E. cbn [bind].
  rewrite <- (HG 64) by lia. destruct H as [[-> H]|(Hlt & h & Hh & -> & -> & H1 & H2 & H3)].
  - rewrite Z.ltb_irrefl. exists mv, mi. split; [reflexivity|]. left. repeat split. 
    intros j Hj. specialize (H (j - s) ltac:(lia)). rewrite <- HG in H by lia.
    replace (s + (j - s)) with j in H by lia. exact H.
  - apply Z.ltb_lt in Hlt as Hb. rewrite Hb. rewrite shr_ok by lia. cbn [bind].
    replace (Z.of_nat h * 8) with (8 * Z.of_nat h) by lia. rewrite land_byte.
    unfold fwd_min_idx. destruct (fwd_row_eq (byte w h)) as (Er & _ & HM). rewrite Er. cbn [bind].
    destruct HM as (M0 & _). set (k := fw_idx (byte w h)) in *. rewrite <- HG in * by lia.
    replace (s + (8 * Z.of_nat h + k)) with (s + 8 * Z.of_nat h + k) in * by lia.
    exists (g (s + 8 * Z.of_nat h + k)), (s + 8 * Z.of_nat h + k).
    split; [reflexivity|]. right. split; [reflexivity|]. split; [exact Hlt|]. split; [lia|].
    split; intros j Hj.
    + specialize (H2 (j - s) ltac:(lia)). rewrite <- !HG in H2 by lia.
      replace (s + (j - s)) with j in H2 by lia. replace (s + (8 * Z.of_nat h + k)) with (s + 8 * Z.of_nat h + k) in H2 by lia. exact H2.
    + specialize (H3 (j - s) ltac:(lia)). rewrite <- !HG in H3 by lia.
      replace (s + (j - s)) with j in H3 by lia. replace (s + (8 * Z.of_nat h + k)) with (s + 8 * Z.of_nat h + k) in H3 by lia. exact H3.
Qed.
