(** Proofs for C111 *)
From Coq Require Import Sorting.Sorted.
From Verif Require Import Base Spec Lib S_Bp S_EliasFano S_BitVector M_Mapper M_BitVector M_RsBitVector M_EliasFano M_Util M_Bp M_Cartesian S_Cartesian P_BpBuild P_BpSpec S_FileSize P_FileSize S_Optimal.

(** *** pigeons *)
Fixpoint all_bits (n : nat) : list (list bool) :=
  match n with O => [[]] | S n => map (cons true) (all_bits n) ++ map (cons false) (all_bits n) end.
Lemma all_bits_in n l : In l (all_bits n) <-> length l = n.
Proof.
  revert l. induction n as [|n IH]; intros l; cbn [all_bits].
  - split; [intros [<-|[]]; reflexivity|]. destruct l; [left; reflexivity|discriminate].
  - rewrite in_app_iff, !in_map_iff. split.
    + intros [(x & <- & H)|(x & <- & H)]; cbn; f_equal; apply IH; exact H.
    + destruct l as [|b l]; [discriminate|]. intros H. injection H as H. apply IH in H. destruct b; [left|right]; exists l; auto.
Qed.
Lemma all_bits_len n : length (all_bits n) = (2 ^ n)%nat.
Proof. induction n as [|n IH]; [reflexivity|]. cbn [all_bits Nat.pow]. rewrite app_length, !map_length, IH. lia. Qed.
Lemma nodup_map {A B} (f : A -> B) l : (forall x y, In x l -> In y l -> f x = f y -> x = y) -> NoDup l -> NoDup (map f l).
Proof.
  intros H N. induction N as [|x l Nx N IH]; [constructor|]. cbn [map]. constructor.
  - rewrite in_map_iff. intros (y & E & Hy). apply Nx. rewrite (H x y); [exact Hy|left; reflexivity|right; exact Hy|symmetry; exact E].
  - apply IH. intros a b Ha Hb. apply H; right; assumption.
Qed.
Lemma nodup_app {A} (a b : list A) : NoDup a -> NoDup b -> (forall x, In x a -> In x b -> False) -> NoDup (a ++ b).
Proof.
  intros Na Nb D. induction Na as [|x a Nx Na IH]; [exact Nb|]. cbn. constructor.
  - rewrite in_app_iff. intros [H|H]; [auto|]. apply (D x); [left; reflexivity|exact H].
  - apply IH. intros y H1 H2. apply (D y); [right; exact H1|exact H2].
Qed.
Lemma all_bits_nodup n : NoDup (all_bits n).
Proof.
  induction n as [|n IH]; cbn [all_bits]; [constructor; [intros []|constructor]|].
  apply nodup_app; [apply nodup_map; auto; intros ? ? _ _ H; injection H; auto|apply nodup_map; auto; intros ? ? _ _ H; injection H; auto|].
  intros x H1 H2. apply in_map_iff in H1, H2. destruct H1 as (y & <- & _), H2 as (z & H & _). discriminate.
Qed.
Fixpoint short (n : nat) : list (list bool) := match n with O => [] | S n => short n ++ all_bits n end.
Lemma short_in n l : (length l < n)%nat -> In l (short n).
Proof.
  induction n as [|n IH]; intros H; [lia|]. cbn [short]. apply in_app_iff. destruct (Nat.eq_dec (length l) n); [right; apply all_bits_in; auto|left; apply IH; lia].
Qed.
Lemma short_len n : (length (short n) < 2 ^ n)%nat.
Proof.
  induction n as [|n IH]; cbn [short Nat.pow]; [cbn; lia|]. rewrite app_length, all_bits_len. lia.
Qed.
Lemma pigeon {A} (X : list A) (enc : A -> list bool) (n : nat) : NoDup X -> (forall x y, In x X -> In y X -> enc x = enc y -> x = y) -> (2 ^ n <= length X)%nat ->
  exists x, In x X /\ (n <= length (enc x))%nat.
Proof.
  intros N I L. destruct (Exists_dec (fun x => (n <= length (enc x))%nat) X) as [E|E]; [intros x; apply le_dec|apply Exists_exists in E; exact E|].
  exfalso. assert (Q : (length (map enc X) <= length (short n))%nat).
  { apply NoDup_incl_length; [apply nodup_map; auto|]. intros y Hy. apply in_map_iff in Hy. destruct Hy as (x & <- & Hx). apply short_in.
    destruct (le_lt_dec n (length (enc x))); [|assumption]. exfalso. apply E. apply Exists_exists. eauto. }
  rewrite map_length in Q. pose proof (short_len n). lia.
Qed.

(** *** bits and nibbles *)
Lemma bits_code n enc : 0 <= n -> is_code (fun l : list bool => zlen l = n) enc -> exists l, zlen l = n /\ n <= zlen (enc l).
Proof.
  intros Hn C. destruct (pigeon (all_bits (Z.to_nat n)) enc (Z.to_nat n)) as (l & H1 & H2).
  - apply all_bits_nodup.
  - intros x y Hx Hy. apply all_bits_in in Hx, Hy. apply C; unfold zlen; lia.
  - rewrite all_bits_len. lia.
  - apply all_bits_in in H1. exists l. unfold zlen. lia.
Qed.
Lemma bv_optimal n enc flags : 0 <= n < 2 ^ 64 -> 0 <= flags < 2 ^ 64 -> is_code (fun l : list bool => zlen l = n) enc ->
  exists l, zlen l = n /\ 8 * file_bytes bv_map (bv_range l) flags <= zlen (enc l) + 255 /\
  forall h h0, exists rs, rs_build (bv_range l) h h0 = Ok rs /\ 8 * file_bytes rs_map rs flags <= zlen (enc l) + zlen (enc l) / 4 + zlen (enc l) / 16 + 1000.
Proof.
  intros Hn Hf C. destruct (bits_code n enc ltac:(lia) C) as (l & L & B). exists l. split; [exact L|]. split.
  - rewrite bv_file by lia. unfold words_for. rewrite L. set (k := zlen (enc l)) in *. clearbody k. clear - B Hn. dlia.
  - intros h h0. destruct (rs_file l h h0 flags ltac:(lia) Hf) as (rs & E & F). exists rs. split; [exact E|]. rewrite L in F.
    set (k := zlen (enc l)) in *. set (x := file_bytes _ _ _) in *. clearbody k x. clear - B F. dlia.
Qed.

(** numbers from blocks of [w] bits *)
Fixpoint chunks (w k : nat) (l : list bool) : list Z := match k with O => [] | S k => value (firstn w l) :: chunks w k (skipn w l) end.
Lemma value_range l : 0 <= value l < 2 ^ zlen l.
Proof.
  induction l as [|b l IH]; [change (0 <= 0 < 1); lia|]. rewrite zlen_cons. cbn [value]. pose proof (zlen_nonneg l). rewrite Z.pow_add_r by lia. change (2 ^ 1) with 2. destruct b; cbn [Z.b2z]; lia.
Qed.
Lemma value_inj a : forall b, length a = length b -> value a = value b -> a = b.
Proof.
  induction a as [|x a IH]; intros [|y b] L E; try discriminate; [reflexivity|]. cbn [value] in E. injection L as L.
  assert (x = y) by (destruct x, y; cbn [Z.b2z] in E; auto; lia). subst y. f_equal. apply IH; [exact L|]. lia.
Qed.
Lemma chunks_len w k : forall l, length (chunks w k l) = k.
Proof. induction k as [|k IH]; intros; cbn; auto. Qed.
Lemma chunks_inj w k : forall a b, length a = (k * w)%nat -> length b = (k * w)%nat -> chunks w k a = chunks w k b -> a = b.
Proof.
  induction k as [|k IH]; intros a b La Lb E.
  - destruct a, b; try discriminate. reflexivity.
  - cbn [chunks] in E. injection E as E1 E2. rewrite <- (firstn_skipn w a), <- (firstn_skipn w b). cbn [Nat.mul] in La, Lb. f_equal.
    + apply value_inj; [rewrite !firstn_length; lia|exact E1].
    + apply IH; [rewrite skipn_length; lia|rewrite skipn_length; lia|exact E2].
Qed.
Lemma chunks_range w k : forall l, Forall (fun x => 0 <= x < 2 ^ Z.of_nat w) (chunks w k l).
Proof.
  induction k as [|k IH]; intros l; cbn [chunks]; constructor; [|apply IH]. pose proof (value_range (firstn w l)) as R. split; [lia|].
  eapply Z.lt_le_trans; [apply R|]. apply Z.pow_le_mono_r; [lia|]. unfold zlen. rewrite firstn_length. lia.
Qed.
Lemma nv_optimal n enc flags : 0 <= n < 2 ^ 62 -> 0 <= flags < 2 ^ 64 -> is_code (fun l : list Z => zlen l = n /\ Forall (fun x => 0 <= x < 16) l) enc ->
  exists l v, zlen l = n /\ Forall (fun x => 0 <= x < 16) l /\ nv_build l = Ok v /\ 8 * file_bytes nv_map v flags <= zlen (enc l) + 199.
Proof.
  intros Hn Hf C. set (k := Z.to_nat n). destruct (pigeon (map (chunks 4 k) (all_bits (k * 4))) enc (k * 4)) as (l & H1 & H2).
  - apply nodup_map; [|apply all_bits_nodup]. intros x y Hx Hy E. apply all_bits_in in Hx, Hy. apply (chunks_inj 4 k); auto.
  - intros x y Hx Hy. apply in_map_iff in Hx, Hy. destruct Hx as (a & <- & Ha), Hy as (b & <- & Hb).
    apply C; (split; [unfold zlen; rewrite chunks_len; unfold k; lia|apply (chunks_range 4)]).
  - rewrite map_length, all_bits_len. lia.
  - apply in_map_iff in H1. destruct H1 as (a & E & Ha). assert (L : zlen l = n) by (subst l; unfold zlen; rewrite chunks_len; unfold k; lia).
    assert (F : Forall (fun x => 0 <= x < 16) l) by (subst l; apply (chunks_range 4)).
    destruct (nv_file l flags F ltac:(lia) Hf) as (v & Ev & Fv). exists l, v. split; [exact L|]. split; [exact F|]. split; [exact Ev|]. rewrite Fv, L.
    assert (4 * n <= zlen (enc l)) by (unfold zlen, k in *; lia). clear - H Hn. dlia.
Qed.

(** *** sorted lists *)
Fixpoint climb (q : Z) (i : Z) (ds : list Z) : list Z := match ds with [] => [] | d :: ds => i * q + d :: climb q (i + 1) ds end.
Lemma climb_len q : forall ds i, length (climb q i ds) = length ds.
Proof. induction ds as [|d ds IH]; intros; cbn; auto. Qed.
Lemma climb_inj q : forall a b i, climb q i a = climb q i b -> a = b.
Proof.
  induction a as [|x a IH]; intros [|y b] i E; try discriminate; [reflexivity|]. cbn [climb] in E. injection E as E1 E2. f_equal; [lia|]. apply (IH b (i + 1)). exact E2.
Qed.
Lemma climb_range q : forall ds i, 0 <= i -> Forall (fun d => 0 <= d < q) ds -> Forall (fun v => i * q <= v <= (i + zlen ds) * q) (climb q i ds).
Proof.
  induction ds as [|d ds IH]; intros i Hi F; cbn [climb]; constructor.
  - rewrite zlen_cons. pose proof (zlen_nonneg ds). pose proof (Forall_inv F). cbv beta in *. nia.
  - pose proof (Forall_inv F) as Fd. eapply Forall_impl; [|apply IH; [lia|exact (Forall_inv_tail F)]]. cbv beta. intros v Hv. rewrite zlen_cons. cbv beta in Fd. split; nia.
Qed.
Lemma climb_sorted q : forall ds i, 0 <= i -> Forall (fun d => 0 <= d < q) ds -> StronglySorted Z.le (climb q i ds).
Proof.
  induction ds as [|d ds IH]; intros i Hi F; cbn [climb]; constructor.
  - apply IH; [lia|exact (Forall_inv_tail F)].
  - pose proof (Forall_inv F) as Fd. eapply Forall_impl; [|apply climb_range; [|exact (Forall_inv_tail F)]; lia]. cbv beta in *. intros v Hv. nia.
Qed.
Lemma ef_optimal gr n m idx flags enc : 0 <= n < 2 ^ 64 -> 0 < m < 2 ^ 61 -> 0 <= flags < 2 ^ 64 -> is_code (fun vs => ef_input n m vs /\ zlen vs = m) enc ->
  exists vs ef, ef_input n m vs /\ zlen vs = m /\ ef_make gr n m vs idx = Ok ef /\ 8 * file_bytes ef_map ef flags <= zlen (enc vs) + m * (if idx then 11 else 7) + 1300.
Proof.
  intros Hn Hm Hf C. set (k := Z.to_nat m).
  destruct (Z.ltb_spec n m) as [Sm|Lg].
  - exists (repeat 0 k). assert (I : ef_input n m (repeat 0 k)).
    { unfold ef_input. split; [lia|]. split; [lia|]. split; [lia|]. split; [unfold zlen; rewrite repeat_length; unfold k; lia|].
      split; [apply Forall_forall; intros x Hx; apply repeat_spec in Hx; lia|]. clear. induction k as [|k IH]; cbn; constructor; auto.
      apply Forall_forall. intros x Hx. apply repeat_spec in Hx. lia. }
    destruct (ef_file gr n m _ idx flags I ltac:(lia) Hf) as (ef & E & B). exists ef. split; [exact I|].
    split; [unfold zlen; rewrite repeat_length; unfold k; lia|]. split; [exact E|]. rewrite Z.div_small in B by lia. cbn [Z.log2] in B.
    pose proof (zlen_nonneg (enc (repeat 0 k))). lia.
  - set (w := Z.to_nat (Z.log2 (n / m))). assert (D : 0 < n / m) by (apply Z.div_str_pos; lia). pose proof (Z.log2_nonneg (n / m)) as W0.
    assert (Q : 2 ^ Z.of_nat w <= n / m) by (unfold w; rewrite Z2Nat.id by lia; apply Z.log2_spec; exact D).
    assert (MQ : m * 2 ^ Z.of_nat w <= n) by (pose proof (Z.mul_div_le n m ltac:(lia)); nia).
    assert (In_ok : forall a, ef_input n m (climb (2 ^ Z.of_nat w) 0 (chunks w k a)) /\ zlen (climb (2 ^ Z.of_nat w) 0 (chunks w k a)) = m).
    { intros a. assert (Lz : zlen (chunks w k a) = m) by (unfold zlen; rewrite chunks_len; unfold k; lia).
      assert (Lc : zlen (climb (2 ^ Z.of_nat w) 0 (chunks w k a)) = m) by (unfold zlen in *; rewrite climb_len; exact Lz).
      split; [|exact Lc]. unfold ef_input. split; [lia|]. split; [lia|]. split; [lia|]. split; [lia|]. split.
      - eapply Forall_impl; [|apply climb_range; [lia|apply chunks_range]]. cbv beta. intros v Hv. rewrite Lz in Hv. lia.
      - apply climb_sorted; [lia|apply chunks_range]. }
    destruct (pigeon (map (fun a => climb (2 ^ Z.of_nat w) 0 (chunks w k a)) (all_bits (k * w))) enc (k * w)) as (vs & H1 & H2).
    + apply nodup_map; [|apply all_bits_nodup]. intros x y Hx Hy E. apply all_bits_in in Hx, Hy. apply climb_inj in E. apply (chunks_inj w k); auto.
    + intros x y Hx Hy. apply in_map_iff in Hx, Hy. destruct Hx as (a & <- & _), Hy as (b & <- & _). apply C; apply In_ok.
    + rewrite map_length, all_bits_len. lia.
    + apply in_map_iff in H1. destruct H1 as (a & E & _). destruct (In_ok a) as [I L]. rewrite E in I, L.
      destruct (ef_file gr n m _ idx flags I ltac:(lia) Hf) as (ef & Ee & B). exists vs, ef. split; [exact I|]. split; [exact L|]. split; [exact Ee|].
      assert (m * Z.log2 (n / m) <= zlen (enc vs)) by (unfold zlen; apply Nat2Z.inj_le in H2; rewrite Nat2Z.inj_mul in H2; unfold k, w in H2; rewrite !Z2Nat.id in H2 by lia; exact H2).
      rewrite Z.mul_add_distr_l in B. lia.
Qed.

(** *** balanced sequences *)
Lemma E_negb l : forall k, 0 <= k <= zlen l -> E (map negb l) k = - E l k.
Proof.
  induction l as [|b l IH]; intros k Hk.
  - change (zlen (@nil bool)) with 0 in Hk. replace k with 0 by lia. reflexivity.
  - rewrite zlen_cons in Hk. destruct (Z.eq_dec k 0) as [->|]; [reflexivity|]. cbn [map]. rewrite !E_cons by lia. rewrite IH by lia. destruct b; cbn [negb]; lia.
Qed.
Lemma E_split l k : 0 <= k <= zlen l -> E l (zlen l) = E l k + E (skipn (Z.to_nat k) l) (zlen l - k).
Proof.
  intros Hk. assert (L : zlen (firstn (Z.to_nat k) l) = k) by (unfold zlen in *; rewrite firstn_length; lia).
  rewrite <- (firstn_skipn (Z.to_nat k) l) at 1. rewrite E_app by lia. rewrite L.
  destruct (Z.leb_spec (zlen l) k).
  - replace (zlen l) with k by lia. rewrite E_firstn by lia. replace (k - k) with 0 by lia. rewrite E_0. lia.
  - rewrite E_firstn by lia. reflexivity.
Qed.
Lemma E_skipn l k q : 0 <= k -> 0 <= q -> k + q <= zlen l -> E (skipn (Z.to_nat k) l) q = E l (k + q) - E l k.
Proof.
  intros Hk Hq Hl. assert (L : zlen (firstn (Z.to_nat k) l) = k) by (unfold zlen in *; rewrite firstn_length; lia).
  rewrite <- (firstn_skipn (Z.to_nat k) l) at 2. rewrite E_app by lia. rewrite L.
  destruct (Z.leb_spec (k + q) k).
  - replace q with 0 by lia. replace (k + 0) with k by lia. rewrite E_firstn by lia. rewrite E_0. lia.
  - rewrite E_firstn by lia. replace (k + q - k) with q by lia. lia.
Qed.
Definition flip (j : nat) (l : list bool) := map negb (firstn j l) ++ skipn j l.
Definition rotate (r : nat) (l : list bool) := skipn r l ++ firstn r l.
Lemma flip_len j l : length (flip j l) = length l.
Proof. unfold flip. rewrite app_length, map_length, <- app_length, firstn_skipn. reflexivity. Qed.
Lemma rotate_len r l : length (rotate r l) = length l.
Proof. unfold rotate. rewrite app_length, Nat.add_comm, <- app_length, firstn_skipn. reflexivity. Qed.
Lemma firstn_exact {A} n (a b : list A) : length a = n -> firstn n (a ++ b) = a.
Proof. intros <-. rewrite firstn_app, Nat.sub_diag, firstn_all. apply app_nil_r. Qed.
Lemma skipn_exact {A} n (a b : list A) : length a = n -> skipn n (a ++ b) = b.
Proof. intros <-. rewrite skipn_app, Nat.sub_diag, skipn_all. reflexivity. Qed.
Lemma flip_flip j l : (j <= length l)%nat -> flip j (flip j l) = l.
Proof.
  intros H. unfold flip at 1. unfold flip. rewrite firstn_exact, skipn_exact by (rewrite map_length, firstn_length; lia).
  rewrite map_map, (map_ext _ (fun b => b)) by apply negb_involutive. rewrite map_id. apply firstn_skipn.
Qed.
Lemma rotate_rotate r l : (r <= length l)%nat -> rotate (length l - r) (rotate r l) = l.
Proof.
  intros H. unfold rotate at 1. unfold rotate. rewrite firstn_exact, skipn_exact by (rewrite skipn_length; lia). apply firstn_skipn.
Qed.
(** a walk by steps of one meets every height on its way *)
Lemma walk_meets l h : forall n : nat, 0 <= h <= E l (Z.of_nat n) \/ E l (Z.of_nat n) <= h <= 0 -> exists j : nat, (j <= n)%nat /\ E l (Z.of_nat j) = h.
Proof.
  induction n as [|n IH]; intros H.
  - exists O. split; [lia|]. change (Z.of_nat 0) with 0 in *. rewrite E_0 in *. lia.
  - destruct (Z.eq_dec (E l (Z.of_nat (S n))) h) as [e|ne]; [exists (S n); split; [lia|exact e]|].
    pose proof (E_lip l (Z.of_nat n) (Z.of_nat (S n)) ltac:(lia)) as Lp. destruct IH as (j & Hj & Ej); [lia|]. exists j. split; [lia|exact Ej].
Qed.
Lemma lowest l : forall n : nat, exists r : nat, (r <= n)%nat /\ forall k, 0 <= k <= Z.of_nat n -> E l (Z.of_nat r) <= E l k.
Proof.
  induction n as [|n (r & Hr & M)].
  - exists O. split; [lia|]. intros k Hk. replace k with 0 by lia. reflexivity.
  - destruct (Z_le_dec (E l (Z.of_nat r)) (E l (Z.of_nat (S n)))) as [Q|Q].
    + exists r. split; [lia|]. intros k Hk. destruct (Z.eq_dec k (Z.of_nat (S n))) as [->|]; [exact Q|apply M; lia].
    + exists (S n). split; [lia|]. intros k Hk. destruct (Z.eq_dec k (Z.of_nat (S n))) as [->|]; [lia|]. specialize (M k ltac:(lia)). lia.
Qed.
Lemma flip_total j l : (j <= length l)%nat -> E (flip j l) (zlen l) = E l (zlen l) - 2 * E l (Z.of_nat j).
Proof.
  intros H. assert (L : zlen (map negb (firstn j l)) = Z.of_nat j) by (unfold zlen; rewrite map_length, firstn_length; lia).
  assert (Lf : zlen (firstn j l) = Z.of_nat j) by (unfold zlen; rewrite firstn_length; lia).
  assert (N : E (map negb (firstn j l)) (Z.of_nat j) = - E l (Z.of_nat j)).
  { rewrite E_negb by lia. rewrite <- (Nat2Z.id j) at 1. rewrite E_firstn by lia. reflexivity. }
  pose proof (E_split l (Z.of_nat j) ltac:(unfold zlen; lia)) as S. rewrite Nat2Z.id in S.
  unfold flip. rewrite E_app by (unfold zlen; lia). rewrite L. destruct (Z.leb_spec (zlen l) (Z.of_nat j)) as [Q|Q].
  - assert (e : zlen l = Z.of_nat j) by (unfold zlen in *; lia). rewrite e in *. rewrite N. lia.
  - rewrite N. lia.
Qed.
Lemma rotate_bal r l : (r <= length l)%nat -> E l (zlen l) = 0 -> (forall k, 0 <= k <= zlen l -> E l (Z.of_nat r) <= E l k) -> bal (rotate r l).
Proof.
  intros H T M. assert (Hl : zlen l = Z.of_nat (length l)) by reflexivity.
  assert (Ls : zlen (skipn r l) = zlen l - Z.of_nat r) by (unfold zlen; rewrite skipn_length; lia).
  assert (Lr : zlen (rotate r l) = zlen l) by (unfold zlen; rewrite rotate_len; reflexivity).
  assert (X : forall k, 0 <= k <= zlen l -> E (rotate r l) k =
    if k <=? zlen l - Z.of_nat r then E l (Z.of_nat r + k) - E l (Z.of_nat r) else E l (k - (zlen l - Z.of_nat r)) - E l (Z.of_nat r)).
  { assert (Es : forall q, 0 <= q -> Z.of_nat r + q <= zlen l -> E (skipn r l) q = E l (Z.of_nat r + q) - E l (Z.of_nat r))
      by (intros q H1 H2; rewrite <- (E_skipn l (Z.of_nat r) q) by lia; rewrite Nat2Z.id; reflexivity).
    assert (Ef : forall q, q <= Z.of_nat r -> E (firstn r l) q = E l q) by (intros q H1; rewrite <- (E_firstn l (Z.of_nat r) q) by lia; rewrite Nat2Z.id; reflexivity).
    intros k Hk. unfold rotate. rewrite E_app by lia. rewrite Ls. destruct (Z.leb_spec k (zlen l - Z.of_nat r)).
    - apply Es; lia.
    - rewrite Es, Ef by lia. replace (Z.of_nat r + (zlen l - Z.of_nat r)) with (zlen l) by lia. lia. }
  apply (excess_bal (length (rotate r l))); [unfold zlen; lia| |]; rewrite Lr.
  - rewrite X by lia. destruct (Z.leb_spec (zlen l) (zlen l - Z.of_nat r)) as [Q|Q].
    + replace (Z.of_nat r) with 0 by lia. replace (0 + zlen l) with (zlen l) by lia. rewrite E_0. lia.
    + replace (zlen l - (zlen l - Z.of_nat r)) with (Z.of_nat r) by lia. lia.
  - intros k Hk. rewrite X by lia. destruct (Z.leb_spec k (zlen l - Z.of_nat r)) as [Q|Q].
    + specialize (M (Z.of_nat r + k) ltac:(lia)). lia.
    + specialize (M (k - (zlen l - Z.of_nat r)) ltac:(lia)). lia.
Qed.
(** every sequence of even length is a balanced one, turned round and with a prefix flipped *)
Lemma from_bal w n : zlen w = 2 * n -> exists j r d, (j <= length w)%nat /\ (r <= length w)%nat /\ length d = length w /\ bal d /\ w = flip j (rotate r d).
Proof.
  intros L. assert (Hl : zlen w = Z.of_nat (length w)) by reflexivity.
  pose proof (E_rank w (zlen w) ltac:(lia)) as R. set (T := Z.of_nat (rank true w (Z.to_nat (zlen w))) - n) in *.
  destruct (walk_meets w T (length w)) as (j & Hj & Ej); [rewrite <- Hl; lia|].
  set (u := flip j w). assert (Lu : length u = length w) by apply flip_len. assert (Zu : zlen u = zlen w) by (unfold zlen; lia).
  assert (Tu : E u (zlen u) = 0) by (rewrite Zu; unfold u; rewrite flip_total by lia; lia).
  destruct (lowest u (length u)) as (r & Hr & M). exists j, (length w - r)%nat, (rotate r u). split; [lia|]. split; [lia|].
  split; [rewrite rotate_len; lia|]. split; [apply rotate_bal; auto|]. rewrite <- Lu, rotate_rotate by lia. unfold u. rewrite flip_flip by lia. reflexivity.
Qed.
Lemma balb_complete : forall l d, 0 <= d -> d + E l (zlen l) = 0 -> (forall k, 0 <= k <= zlen l -> 0 <= d + E l k) -> balb d l = true.
Proof.
  induction l as [|b l IH]; intros d Hd T M; cbn [balb].
  - change (zlen (@nil bool)) with 0 in T. rewrite E_0 in T. lia.
  - rewrite zlen_cons in *. pose proof (zlen_nonneg l). assert (S : forall k, 0 <= k <= zlen l -> E (b :: l) (k + 1) = (if b then 1 else -1) + E l k)
      by (intros k Hk; rewrite E_cons by lia; do 2 f_equal; lia).
    pose proof (M (0 + 1) ltac:(lia)) as M0. rewrite S, E_0 in M0 by lia. rewrite S in T by lia. apply andb_true_intro. split; [lia|].
    apply IH; [lia|lia|]. intros k Hk. specialize (M (k + 1) ltac:(lia)). rewrite S in M by lia. lia.
Qed.
Lemma balb_bal l : balb 0 l = true <-> bal l.
Proof.
  split; [apply balb_sound|]. intros B. destruct (bal_excess l B) as [T M]. apply balb_complete; [lia|lia|]. intros k Hk. specialize (M k Hk). lia.
Qed.
Definition trees (m : nat) : list (list bool) := filter (balb 0) (all_bits m).
Lemma trees_many n : (2 ^ (2 * n) <= (2 * n + 1) * ((2 * n + 1) * length (trees (2 * n))))%nat.
Proof.
  set (m := (2 * n)%nat). rewrite <- (all_bits_len m).
  set (Y := map (fun p => flip (fst p) (rotate (fst (snd p)) (snd (snd p)))) (list_prod (seq 0 (m + 1)) (list_prod (seq 0 (m + 1)) (trees m)))).
  replace ((m + 1) * ((m + 1) * length (trees m)))%nat with (length Y) by (unfold Y; rewrite map_length, !prod_length, seq_length; reflexivity).
  apply NoDup_incl_length; [apply all_bits_nodup|]. intros w Hw. apply all_bits_in in Hw.
  destruct (from_bal w (Z.of_nat n)) as (j & r & d & Hj & Hr & Hd & B & ->); [unfold zlen; rewrite Hw; unfold m; lia|].
  apply in_map_iff. exists (j, (r, d)). split; [reflexivity|]. apply in_prod; [apply in_seq; lia|]. apply in_prod; [apply in_seq; lia|].
  apply filter_In. split; [apply all_bits_in; lia|apply balb_bal; exact B].
Qed.
Lemma trees_pow n : 0 <= n -> (2 ^ (2 * Z.to_nat n - 2 * Z.to_nat (Z.log2_up (2 * n + 1))) <= length (trees (2 * Z.to_nat n)))%nat.
Proof.
  intros Hn. set (a := Z.to_nat n). set (k := Z.to_nat (Z.log2_up (2 * n + 1))). pose proof (Z.log2_up_nonneg (2 * n + 1)) as K0.
  pose proof (trees_many a) as T. set (X := trees (2 * a)) in *. set (m := (2 * a)%nat) in *.
  assert (B : (m + 1 <= 2 ^ k)%nat).
  { apply Nat2Z.inj_le. rewrite Nat2Z.inj_pow. unfold k. rewrite Z2Nat.id by lia. replace (Z.of_nat (m + 1)) with (2 * n + 1) by (unfold m, a; lia).
    destruct (Z.eq_dec n 0) as [->|]; [cbn; lia|]. apply Z.log2_up_spec. lia. }
  destruct (le_lt_dec (2 * k) m) as [Q|Q].
  - assert (P : (2 ^ m = 2 ^ (m - 2 * k) * (2 ^ k * 2 ^ k))%nat) by (rewrite <- !Nat.pow_add_r; f_equal; lia).
    rewrite P in T. clear - T B. set (p := (2 ^ k)%nat) in *. set (q := (2 ^ (m - 2 * k))%nat) in *. clearbody p q. 
    destruct (le_lt_dec q (length X)); [assumption|]. exfalso. set (x := length X) in *. clearbody x.
    assert (S : ((m + 1) * (m + 1) <= p * p)%nat) by (apply Nat.mul_le_mono; exact B). assert (x * (p * p) < q * (p * p))%nat by (apply Nat.mul_lt_mono_pos_r; nia).
    pose proof (Nat.mul_le_mono_r _ _ x S). nia.
  - replace (m - 2 * k)%nat with O by lia. cbn [Nat.pow]. pose proof (Nat.pow_nonzero 2 m). destruct (length X); [lia|lia].
Qed.
Lemma bal_code n enc : 0 <= n -> is_code (fun l => bal l /\ zlen l = 2 * n) enc -> exists l, bal l /\ zlen l = 2 * n /\ 2 * n <= zlen (enc l) + 2 * Z.log2_up (2 * n + 1).
Proof.
  intros Hn C. pose proof (trees_pow n Hn) as P. set (a := Z.to_nat n) in *. set (k := Z.to_nat (Z.log2_up (2 * n + 1))) in *. pose proof (Z.log2_up_nonneg (2 * n + 1)) as K0.
  destruct (pigeon (trees (2 * a)) enc (2 * a - 2 * k)) as (l & H1 & H2).
  - apply NoDup_filter, all_bits_nodup.
  - intros x y Hx Hy. apply filter_In in Hx, Hy. rewrite all_bits_in, balb_bal in Hx, Hy. apply C; (split; [tauto|unfold zlen; unfold a in *; lia]).
  - exact P.
  - apply filter_In in H1. rewrite all_bits_in, balb_bal in H1. exists l. split; [tauto|]. split; [unfold zlen; unfold a in *; lia|].
    unfold zlen. unfold a, k in *. lia.
Qed.
Lemma bp_optimal uninit n enc h h0 flags : 0 < n < 2 ^ 30 -> 0 <= uninit < 2 ^ 64 -> 0 <= flags < 2 ^ 64 -> is_code (fun l => bal l /\ zlen l = 2 * n) enc ->
  exists l bp, bal l /\ zlen l = 2 * n /\ bp_build uninit (bv_range l) h h0 = Ok bp /\
  8 * file_bytes bp_map bp flags <= zlen (enc l) + zlen (enc l) / 4 + zlen (enc l) / 8 + zlen (enc l) / 64 + 1600.
Proof.
  intros Hn Hu Hf C. destruct (bal_code n enc ltac:(lia) C) as (l & B & L & K). destruct (bp_file uninit l h h0 flags) as (bp & E & F); [lia|apply bal_prefix_ok; exact B|lia|exact Hu|exact Hf|].
  exists l, bp. split; [exact B|]. split; [exact L|]. split; [exact E|].
  assert (G : Z.log2_up (2 * n + 1) <= 31) by (change 31 with (Z.log2_up (2 ^ 31)); apply Z.log2_up_le_mono; lia).
  rewrite L in F. set (k := zlen (enc l)) in *. set (x := file_bytes _ _ _) in *. clearbody k x. clear - K F G. dlia.
Qed.

(** *** range minima *)
Inductive bt := Leaf | Node (l r : bt).
Fixpoint paren (t : bt) : list bool := match t with Leaf => [] | Node l r => true :: paren l ++ false :: paren r end.
Fixpoint nodes (t : bt) : nat := match t with Leaf => 0 | Node l r => S (nodes l + nodes r) end.
(** the depths of the nodes from left to right *)
Fixpoint depths (t : bt) (d : Z) : list Z := match t with Leaf => [] | Node l r => depths l (d + 1) ++ d :: depths r (d + 1) end.
Lemma paren_len t : length (paren t) = (2 * nodes t)%nat.
Proof. induction t as [|l IHl r IHr]; cbn [paren nodes length]; [reflexivity|]. rewrite app_length. cbn [length]. lia. Qed.
Lemma depths_len t : forall d, length (depths t d) = nodes t.
Proof. induction t as [|l IHl r IHr]; intros d; cbn [depths nodes length]; [reflexivity|]. rewrite app_length. cbn [length]. rewrite IHl, IHr. lia. Qed.
Lemma depths_ge t : forall d x, In x (depths t d) -> d <= x.
Proof.
  induction t as [|l IHl r IHr]; intros d x; cbn [depths]; [intros []|]. rewrite in_app_iff. cbn [In]. intros [H|[H|H]]; [apply IHl in H; lia|lia|apply IHr in H; lia].
Qed.
Lemma bal_paren l : bal l -> exists t, paren t = l.
Proof. induction 1 as [|u v _ (a & <-) _ (b & <-)]; [exists Leaf; reflexivity|exists (Node a b); reflexivity]. Qed.
Lemma segment {A} (p s q : list A) i y : nth_error (p ++ s ++ q) i = Some y -> (length p <= i < length p + length s)%nat -> In y s.
Proof. intros E H. rewrite nth_error_app2, nth_error_app1 in E by lia. apply nth_error_In in E. exact E. Qed.
Lemma root_min p l r d q : leftmost_min Z.ltb (p ++ depths (Node l r) d ++ q) (length p) (length p + nodes l + nodes r) (length p + nodes l).
Proof.
  set (v := p ++ depths (Node l r) d ++ q). assert (R : nth_error v (length p + nodes l) = Some d).
  { unfold v. rewrite nth_error_app2 by lia. cbn [depths]. rewrite <- app_assoc, nth_error_app2 by (rewrite depths_len; lia). rewrite depths_len.
    replace (length p + nodes l - length p - nodes l)%nat with O by lia. reflexivity. }
  split; [lia|]. split.
  - exists d. split; [exact R|]. intros i y Hi Hy. unfold v in Hy. apply segment in Hy; [|rewrite depths_len; cbn [nodes]; lia]. apply depths_ge in Hy. apply Z.ltb_ge. exact Hy.
  - intros j Hj (x & Hx & Mx). specialize (Mx (length p + nodes l)%nat d ltac:(lia) R). apply Z.ltb_ge in Mx.
    unfold v in Hx. cbn [depths] in Hx. rewrite <- app_assoc in Hx. apply segment in Hx; [|rewrite depths_len; lia]. apply depths_ge in Hx. lia.
Qed.
Lemma leftmost_unique {T} (comp : T -> T -> bool) v a b m m' : leftmost_min comp v a b m -> leftmost_min comp v a b m' -> m = m'.
Proof.
  intros (H1 & H2 & H3) (G1 & G2 & G3). destruct (lt_eq_lt_dec m m') as [[L|e]|L]; [|exact e|]; exfalso.
  - apply (G3 m); [lia|exact H2].
  - apply (H3 m'); [lia|exact G2].
Qed.
Lemma minima_tree t : forall t' d p q p' q', length p = length p' -> nodes t = nodes t' ->
  (forall a b m, (length p <= a)%nat -> (a <= b)%nat -> (b < length p + nodes t)%nat ->
     leftmost_min Z.ltb (p ++ depths t d ++ q) a b m -> leftmost_min Z.ltb (p' ++ depths t' d ++ q') a b m) -> t = t'.
Proof.
  induction t as [|l IHl r IHr]; intros t' d p q p' q' Lp N M; destruct t' as [|l' r']; cbn [nodes] in N; try discriminate; [reflexivity|].
  pose proof (root_min p l r d q) as R. apply M in R; [|lia|lia|cbn [nodes]; lia].
  pose proof (root_min p' l' r' d q') as R'. replace (length p' + nodes l' + nodes r')%nat with (length p + nodes l + nodes r)%nat in R' by lia.
  rewrite Lp in R. rewrite Lp in R'. pose proof (leftmost_unique _ _ _ _ _ _ R R') as U. assert (Nl : nodes l = nodes l') by lia. assert (Nr : nodes r = nodes r') by lia.
  f_equal.
  - apply (IHl l' (d + 1) p (d :: depths r (d + 1) ++ q) p' (d :: depths r' (d + 1) ++ q')); [exact Lp|exact Nl|].
    intros a b m Ha Hab Hb H. specialize (M a b m Ha Hab ltac:(cbn [nodes]; lia)). cbn [depths] in M. rewrite <- !app_assoc in M. apply M. exact H.
  - apply (IHr r' (d + 1) (p ++ depths l (d + 1) ++ [d]) q (p' ++ depths l' (d + 1) ++ [d]) q'); [rewrite !app_length, !depths_len; lia|exact Nr|].
    intros a b m Ha Hab Hb H. rewrite !app_length, depths_len in Ha, Hb. cbn [length] in Ha, Hb.
    specialize (M a b m ltac:(lia) Hab ltac:(cbn [nodes]; lia)). cbn [depths] in M. rewrite <- !app_assoc in M, H |- *. apply M. exact H.
Qed.
Lemma choose_trees (X : list (list bool)) : Forall bal X -> exists T, map paren T = X.
Proof.
  induction 1 as [|x X Hx _ (T & <-)]; [exists []; reflexivity|]. destruct (bal_paren x Hx) as (t & <-). exists (t :: T). reflexivity.
Qed.
Lemma rmq_code n enc : 0 <= n -> (forall v w, zlen v = n -> zlen w = n -> enc v = enc w -> same_minima v w) ->
  exists v : list Z, zlen v = n /\ 2 * n <= zlen (enc v : list bool) + 2 * Z.log2_up (2 * n + 1).
Proof.
  intros Hn C. set (a := Z.to_nat n). destruct (choose_trees (trees (2 * a))) as (T & ET).
  { apply Forall_forall. intros x Hx. apply filter_In in Hx. apply balb_bal. tauto. }
  assert (NT : forall t, In t T -> nodes t = a).
  { intros t Ht. apply (in_map paren) in Ht. rewrite ET in Ht. apply filter_In in Ht. rewrite all_bits_in, paren_len in Ht. lia. }
  assert (DT : NoDup T) by (apply (NoDup_map_inv paren); rewrite ET; apply NoDup_filter, all_bits_nodup).
  set (k := Z.to_nat (Z.log2_up (2 * n + 1))). pose proof (Z.log2_up_nonneg (2 * n + 1)) as K0.
  destruct (pigeon T (fun t => enc (depths t 0)) (2 * a - 2 * k)) as (t & H1 & H2).
  - exact DT.
  - intros x y Hx Hy E. apply NT in Hx, Hy. apply (minima_tree x y 0 [] [] [] []); [reflexivity|lia|].
    intros i j m _ Hij Hj H. cbn [app length] in *. rewrite app_nil_r in *.
    apply (C (depths x 0) (depths y 0)); [unfold zlen; rewrite depths_len; unfold a in *; lia|unfold zlen; rewrite depths_len; unfold a in *; lia|exact E|exact Hij|rewrite depths_len; lia|exact H].
  - rewrite <- (map_length paren), ET. apply (trees_pow n); lia.
  - apply NT in H1. exists (depths t 0). unfold zlen. rewrite depths_len. unfold a, k in *. lia.
Qed.
Lemma ct_optimal gr uninit e n enc flags : 0 <= n -> 2 * n + 2 < 2 ^ 31 -> 0 <= uninit < 2 ^ 64 -> 0 <= flags < 2 ^ 64 ->
  (forall v w, zlen v = n -> zlen w = n -> enc v = enc w -> same_minima v w) ->
  exists v ct, zlen v = n /\ ct_build gr uninit Z.ltb e v = Ok ct /\ 8 * file_bytes ct_map ct flags <= 7 * zlen (enc v : list bool) / 5 + 1600.
Proof.
  intros Hn Hs Hu Hf C. destruct (rmq_code n enc Hn C) as (v & L & K). destruct (ct_file Z.ltb gr uninit e v flags) as (ct & E & F); [lia|exact Hu|exact Hf|].
  exists v, ct. split; [exact L|]. split; [exact E|].
  assert (G : Z.log2_up (2 * n + 1) <= 31) by (change 31 with (Z.log2_up (2 ^ 31)); apply Z.log2_up_le_mono; lia).
  rewrite L in F. set (k := zlen (enc v)) in *. set (x := file_bytes _ _ _) in *. clearbody k x. clear - K F G. dlia.
Qed.

(** two numbers, for the example *)
Lemma pair_min x y a b m : (a <= b)%nat -> (b < 2)%nat ->
  leftmost_min Z.ltb [x; y] a b m <-> m = if Nat.eqb a b then a else if y <? x then 1%nat else 0%nat.
Proof.
  intros H1 H2. assert (X : leftmost_min Z.ltb [x; y] a b (if Nat.eqb a b then a else if y <? x then 1%nat else 0%nat)).
  { destruct (Nat.eqb_spec a b) as [<-|ne].
    - split; [lia|]. split; [|lia]. destruct (nth_error [x; y] a) as [z|] eqn:E; [|apply nth_error_None in E; cbn [length] in E; lia].
      exists z. split; [exact E|]. intros i u Hi Hu. replace i with a in Hu by lia. rewrite E in Hu. injection Hu as ->. apply Z.ltb_irrefl.
    - assert (a = 0%nat) by lia. assert (b = 1%nat) by lia. subst a b. destruct (Z.ltb_spec y x) as [Q|Q]; (split; [lia|]); split.
      + exists y. split; [reflexivity|]. intros i u Hi Hu. destruct i as [|[|i]]; [| |lia]; injection Hu as <-; apply Z.ltb_ge; lia.
      + intros j Hj (u & Hu & Mu). replace j with 0%nat in Hu by lia. injection Hu as <-. specialize (Mu 1%nat y ltac:(lia) eq_refl). apply Z.ltb_ge in Mu. lia.
      + exists x. split; [reflexivity|]. intros i u Hi Hu. destruct i as [|[|i]]; [| |lia]; injection Hu as <-; apply Z.ltb_ge; lia.
      + lia. }
  split; [|intros ->; exact X]. intros H. exact (leftmost_unique _ _ _ _ _ _ H X).
Qed.
Lemma pair_code v w : zlen v = 2 -> zlen w = 2 -> [nth 1 v 0 <? nth 0 v 0] = [nth 1 w 0 <? nth 0 w 0] -> same_minima v w.
Proof.
  intros Lv Lw E. destruct v as [|x [|y [|z v]]]; unfold zlen in Lv; cbn [length] in Lv; try lia. destruct w as [|x' [|y' [|z' w]]]; unfold zlen in Lw; cbn [length] in Lw; try lia.
  cbn [nth] in E. injection E as E. intros a b m H1 H2. cbn [length] in H2. rewrite !pair_min, E by lia. tauto.
Qed.
