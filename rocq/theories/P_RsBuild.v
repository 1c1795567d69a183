(** The rank index of rs_bit_vector. *)
From Verif Require Import Base Spec Lib M_Broadword M_BitVector M_RsBitVector S_BitVector
  P_BvLib P_Broadword P_BitVector P_BvRank P_BvEnum M_Darray.

Lemma sub64_ok a b : b <= a -> sub64 a b = a - b.
Proof. intros. unfold sub64. replace (b <=? a) with true by lia. reflexivity. Qed.

(** number of blocks; the sequence padded with zeros to whole blocks *)
Definition nb (l : list bool) : Z := (zlen (pack l) + 7) / 8.
Definition bpad (l : list bool) : list bool := l ++ repeat false (Z.to_nat (512 * nb l - zlen l)).
Global Arguments bpad : simpl never.
Global Arguments nb : simpl never.

Lemma nb_words l : zlen (pack l) <= 8 * nb l < zlen (pack l) + 8.
Proof. unfold nb. dlia. Qed.
Lemma nb_nonneg l : 0 <= nb l.
Proof. pose proof (nb_words l). pose proof (zlen_nonneg (pack l)). lia. Qed.
Lemma words_bits l : zlen l <= 64 * zlen (pack l) < zlen l + 64.
Proof. rewrite zlen_pack. dlia. Qed.
Lemma zlen_bpad l : zlen (bpad l) = 512 * nb l.
Proof. unfold bpad. rewrite zlen_app, zlen_repeat. pose proof (nb_words l). pose proof (words_bits l). lia. Qed.
Lemma zbit_bpad l p : zbit (bpad l) p = zbit l p.
Proof.
  unfold bpad. rewrite zbit_app, zbit_repeat, andb_false_r.
  destruct (Z.ltb_spec p (zlen l)); auto. symmetry; apply zbit_out; lia.
Qed.
Lemma rank_bpad b l p : (p <= length l)%nat -> rank b (bpad l) p = rank b l p.
Proof. intros; apply rank_app1; auto. Qed.
Lemma is_select_bpad neg l k q : is_select (negb neg) l k q -> is_select true (flip neg (bpad l)) k q.
Proof. intros. apply is_select_flip. apply is_select_app1; auto. Qed.

Lemma getw_bpad neg l k : 0 <= k < zlen (pack l) ->
  exists w, getw neg (pack l) k = Ok w /\ masked w (flip neg (bpad l)) k 0.
Proof.
  intros Hk. destruct (getw_ok neg (pack l) l k (words_ok_pack l) Hk) as (w & E & U & B).
  exists w. split; auto. split; auto. intros i Hi. rewrite B by auto.
  pose proof (nb_words l).
  rewrite zbit_flip by (rewrite zlen_bpad; lia). rewrite zbit_bpad.
  replace (0 <=? i) with true by lia. reflexivity.
Qed.
Lemma W_bpad l k : 0 <= k -> masked (W (pack l) k) (bpad l) k 0.
Proof.
  intros Hk. destruct (words_ok_pack l) as (U & E & B). split; [apply W_range; auto|].
  intros i Hi. rewrite zbit_bpad, B by lia. replace (0 <=? i) with true by lia. reflexivity.
Qed.

(** ranks at word boundaries *)
Definition G (neg : bool) (l : list bool) (k : Z) : Z :=
  Z.of_nat (rank true (flip neg (bpad l)) (Z.to_nat (64 * k))).
Global Arguments G : simpl never.

Lemma G_0 neg l : G neg l 0 = 0.
Proof. reflexivity. Qed.
Lemma G_nonneg neg l k : 0 <= G neg l k.
Proof. unfold G; lia. Qed.
Lemma G_mono neg l j k : j <= k -> G neg l j <= G neg l k.
Proof. intros. unfold G. apply inj_le. apply rank_mono. lia. Qed.
Lemma G_diff neg l j k : 0 <= j <= k -> G neg l k <= G neg l j + 64 * (k - j).
Proof.
  intros. unfold G.
  replace (Z.to_nat (64 * k)) with (Z.to_nat (64 * j) + Z.to_nat (64 * (k - j)))%nat by lia.
  rewrite rank_window. pose proof (count_le true (window (flip neg (bpad l)) (Z.to_nat (64 * j)) (Z.to_nat (64 * (k - j))))) as C.
  unfold window at 2 in C. rewrite firstn_length in C. lia.
Qed.
Lemma G_step l k : 0 <= k < 8 * nb l -> G false l (k + 1) = G false l k + popcount (W (pack l) k).
Proof.
  intros Hk. unfold G. cbn [flip].
  pose proof (masked_popcount _ _ _ _ (W_bpad l k ltac:(lia)) ltac:(lia) ltac:(lia)) as P.
  rewrite Z.add_0_r in P. rewrite P; auto. rewrite zlen_bpad. lia.
Qed.
Lemma G_compl l k : 0 <= k <= 8 * nb l -> G true l k = 64 * k - G false l k.
Proof.
  intros Hk. unfold G. cbn [flip]. rewrite rank_map_negb. cbn [negb].
  pose proof (rank_compl (bpad l) (Z.to_nat (64 * k))) as C.
  pose proof (zlen_bpad l). unfold zlen in *. lia.
Qed.
Lemma G_words l k : zlen (pack l) <= k -> G false l k = Z.of_nat (count true l).
Proof.
  intros Hk. unfold G. cbn [flip]. f_equal. pose proof (words_bits l). unfold bpad.
  rewrite rank_app2 by (unfold zlen in *; lia).
  unfold rank. rewrite firstn_repeat || idtac.
  assert (E : forall n m, count true (firstn n (repeat false m)) = 0%nat).
  { clear. induction n; intros [|m]; cbn [repeat firstn]; auto. rewrite count_cons, IHn. reflexivity. }
  rewrite E. lia.
Qed.

(** the seven 9-bit counters of a block *)
Definition F (neg : bool) (l : list bool) (b k : Z) : Z := G neg l (8 * b + k) - G neg l (8 * b).
Fixpoint desc (m : nat) : list Z := match m with O => [] | S n => Z.of_nat m :: desc n end.
Definition H9 (neg : bool) (l : list bool) (b : Z) (m : nat) : Z := dval 9 (map (F neg l b) (desc m)).

Lemma F_range neg l b k : 0 <= b -> 0 <= k <= 8 -> 0 <= F neg l b k <= 64 * k.
Proof.
  intros. unfold F. pose proof (G_mono neg l (8 * b) (8 * b + k) ltac:(lia)).
  pose proof (G_diff neg l (8 * b) (8 * b + k) ltac:(lia)). lia.
Qed.
Lemma desc_in m k : In k (desc m) -> 1 <= k <= Z.of_nat m.
Proof. induction m; cbn [desc In]; [tauto|]. intros [<-|H]; [lia|]. apply IHm in H. lia. Qed.
Lemma desc_length m : length (desc m) = m.
Proof. induction m; cbn [desc length]; auto. Qed.
Lemma H9_digits neg l b m : 0 <= b -> (m <= 7)%nat -> Forall (digit 9) (map (F neg l b) (desc m)).
Proof.
  intros Hb Hm. apply Forall_forall. intros x Hx. apply in_map_iff in Hx. destruct Hx as (k & <- & Hk).
  apply desc_in in Hk. pose proof (F_range neg l b k Hb ltac:(lia)). unfold digit. lia.
Qed.
Lemma H9_range neg l b m : 0 <= b -> (m <= 7)%nat -> 0 <= H9 neg l b m < 2 ^ (9 * Z.of_nat m).
Proof.
  intros Hb Hm. pose proof (dval_range 9 ltac:(lia) _ (H9_digits neg l b m Hb Hm)) as R.
  unfold zlen in R. rewrite map_length, desc_length in R. exact R.
Qed.
Lemma H9_S neg l b m : H9 neg l b (S m) = F neg l b (Z.of_nat (S m)) + 512 * H9 neg l b m.
Proof. reflexivity. Qed.

Lemma push_field h c : 0 <= h < 2 ^ 54 -> 0 <= c < 512 ->
  exists s, shl h 9 = Ok s /\ Z.lor s c = c + 512 * h.
Proof.
  intros Hh Hc. rewrite shl_ok by lia. eexists; split; [reflexivity|].
  rewrite u64_small by (rewrite Z.shiftl_mul_pow2 by lia; lia).
  rewrite Z.lor_comm. change 512 with (2 ^ 9) in *. apply lor_disjoint; lia.
Qed.

Lemma H9_push neg l b m : 0 <= b -> (m < 7)%nat ->
  exists s, shl (H9 neg l b m) 9 = Ok s /\ Z.lor s (F neg l b (Z.of_nat (S m))) = H9 neg l b (S m).
Proof.
  intros Hb Hm. pose proof (H9_range neg l b m Hb ltac:(lia)) as R.
  pose proof (F_range neg l b (Z.of_nat (S m)) Hb ltac:(lia)) as RF.
  apply push_field; [|lia].
  assert (2 ^ (9 * Z.of_nat m) <= 2 ^ 54) by (apply Z.pow_le_mono_r; lia). lia.
Qed.

(** pairs stored for the first [n] blocks *)
Definition pairs_ok (l : list bool) (pairs : list Z) (n : Z) : Prop :=
  (forall b, 0 <= b <= n -> W pairs (2 * b) = G false l (8 * b)) /\
  (forall b, 0 <= b < n -> W pairs (2 * b + 1) = H9 false l b 7).

Lemma pairs_loop_ok l : forall ws done pairs,
  pack l = done ++ ws -> zlen pairs = 2 * (zlen done / 8) + 1 -> pairs_ok l pairs (zlen done / 8) ->
  let n := zlen (pack l) in
  exists pairs', pairs_loop ws (zlen done) pairs (G false l (zlen done))
      (F false l (zlen done / 8) (zlen done mod 8)) (H9 false l (zlen done / 8) (Z.to_nat (zlen done mod 8 - 1)))
    = Ok (pairs', G false l n, F false l (n / 8) (n mod 8), H9 false l (n / 8) (Z.to_nat (n mod 8 - 1))) /\
    zlen pairs' = 2 * (n / 8) + 1 /\ pairs_ok l pairs' (n / 8).
Proof.
  induction ws as [|w ws IH]; intros done pairs E L P n.
  - rewrite app_nil_r in E. unfold n. rewrite E. exists pairs. split; [reflexivity|]. auto.
  - cbn [pairs_loop]. unfold block_size.
    assert (Ew : w = W (pack l) (zlen done)).
    { rewrite E, W_app. replace (zlen done <? zlen done) with false by lia.
      rewrite W_cons. replace (zlen done - zlen done =? 0) with true by lia. reflexivity. }
    assert (Hd : 0 <= zlen done < 8 * nb l).
    { pose proof (zlen_nonneg done). split; auto. pose proof (nb_words l) as N. rewrite E in N at 1.
      rewrite zlen_app, zlen_cons in N. pose proof (zlen_nonneg ws). lia. }
    pose proof (G_step l _ Hd) as GS. rewrite <- Ew in GS.
    specialize (IH (done ++ [w])). rewrite zlen_app in IH. change (zlen [w]) with 1 in IH.
    pose proof (Z.div_mod (zlen done) 8 ltac:(lia)) as D.
    pose proof (Z.mod_pos_bound (zlen done) 8 ltac:(lia)) as M.
    assert (Hb : 0 <= zlen done / 8) by (apply Z.div_pos; lia).
    set (i := zlen done) in *. clearbody i.
    assert (Q1 : i mod 8 = 7 -> (i + 1) / 8 = i / 8 + 1 /\ (i + 1) mod 8 = 0) by (clear; intros; dlia).
    assert (Q2 : i mod 8 <> 7 -> (i + 1) / 8 = i / 8 /\ (i + 1) mod 8 = i mod 8 + 1) by (clear; intros; dlia).
    set (b := i / 8) in *. set (s := i mod 8) in *. clearbody b s.
    assert (Sub : exists h, (if s =? 0 then Ok (H9 false l b (Z.to_nat (s - 1)))
        else do x <- shl (H9 false l b (Z.to_nat (s - 1))) 9; Ok (Z.lor x (F false l b s))) = Ok h /\
        h = H9 false l b (Z.to_nat s)).
    { destruct (Z.eqb_spec s 0) as [->|N]; [eexists; split; reflexivity|].
      destruct (H9_push false l b (Z.to_nat (s - 1)) Hb ltac:(lia)) as (x & -> & Ex).
      replace (Z.of_nat (S (Z.to_nat (s - 1)))) with s in Ex by lia.
      replace (S (Z.to_nat (s - 1))) with (Z.to_nat s) in Ex by lia.
      cbn [bind]. rewrite Ex. eauto. }
    destruct Sub as (h & -> & ->). cbn [bind]. rewrite <- GS.
    assert (FS : F false l b s + popcount w = F false l b (s + 1)).
    { unfold F. rewrite <- D. replace (8 * b + (s + 1)) with (i + 1) by lia. lia. }
    assert (E' : pack l = (done ++ [w]) ++ ws) by (rewrite <- app_assoc; exact E).
    rewrite FS. destruct (Z.eqb_spec s (8 - 1)) as [C|C].
    + destruct (Q1 ltac:(lia)) as [R1 R2]. rewrite R1, R2 in IH.
      assert (P' : pairs_ok l (pairs ++ [H9 false l b (Z.to_nat s); G false l (i + 1)]) (b + 1)).
      { destruct P as [P1 P2]. split; intros c Hc; rewrite W_app, L.
        - destruct (Z.ltb_spec (2 * c) (2 * b + 1)); [apply P1; lia|].
          replace (2 * c - (2 * b + 1)) with 1 by lia.
          rewrite W_cons. cbn [Z.eqb]. rewrite W_cons. change (1 - 1 =? 0) with true. cbn iota.
          f_equal. lia.
        - destruct (Z.ltb_spec (2 * c + 1) (2 * b + 1)); [apply P2; lia|].
          replace (2 * c + 1 - (2 * b + 1)) with 0 by lia. replace c with b by lia.
          rewrite W_cons. cbn [Z.eqb]. replace (Z.to_nat s) with 7%nat by lia. reflexivity. }
      replace (F false l (b + 1) 0) with 0 in IH by (unfold F; rewrite Z.add_0_r; lia).
      change (H9 false l (b + 1) (Z.to_nat (0 - 1))) with 0 in IH.
      apply IH; auto. rewrite zlen_app, L. change (zlen [?x; ?y]) with 2. cbn [zlen length Z.of_nat]. lia.
    + destruct (Q2 ltac:(lia)) as [R1 R2]. rewrite R1, R2 in IH.
      replace (s + 1 - 1) with s in IH by lia. apply IH; auto.
Qed.

Lemma fill_loop_ok neg l b c n : forall m, 0 <= b -> (m + n = 7)%nat ->
  (forall k, Z.of_nat m < k <= 7 -> F neg l b k = c) ->
  fill_loop n (H9 neg l b m) c = Ok (H9 neg l b 7).
Proof.
  induction n as [|n IH]; intros m Hb Hm Hc; cbn [fill_loop].
  - replace m with 7%nat by lia. reflexivity.
  - destruct (H9_push neg l b m Hb ltac:(lia)) as (x & -> & Ex). cbn [bind].
    rewrite Hc in Ex by lia. rewrite Ex. apply IH; auto; try lia.
Qed.

Lemma build_pairs_ok l : exists pairs, build_pairs (pack l) = Ok pairs /\
  zlen pairs = 2 * nb l + 2 /\ pairs_ok l pairs (nb l + 1 - 1) /\ W pairs (2 * nb l + 1) = 0.
Proof.
  unfold build_pairs.
  destruct (pairs_loop_ok l (pack l) [] [0] eq_refl eq_refl) as (pairs & E & L & P1 & P2).
  { split; intros b Hb; change (zlen (@nil Z) / 8) with 0 in Hb; [|lia].
    replace b with 0 by lia. reflexivity. }
  change (zlen (@nil Z)) with 0 in E. change (0 / 8) with 0 in E. change (0 mod 8) with 0 in E.
  change (F false l 0 0) with 0 in E. change (H9 false l 0 (Z.to_nat (0 - 1))) with 0 in E.
  rewrite G_0 in E. rewrite E. clear E. cbn [bind]. unfold block_size.
  assert (D := Z.div_mod (zlen (pack l)) 8 ltac:(lia)).
  assert (M := Z.mod_pos_bound (zlen (pack l)) 8 ltac:(lia)).
  assert (N := nb_words l). assert (N0 := zlen_nonneg (pack l)). assert (Gw := G_words l).
  set (n := zlen (pack l)) in *. set (b := n / 8) in *. set (s := n mod 8) in *. clearbody b s.
  destruct (Z.eqb_spec s 0) as [->|C].
  - assert (Eb : nb l = b) by lia. rewrite Eb in *.
    change (Z.to_nat (0 - 1)) with 0%nat.
    replace (F false l b 0) with 0 by (unfold F; rewrite Z.add_0_r; lia).
    change (fill_loop (Z.to_nat (8 - 0)) (H9 false l b 0) 0) with (Ok 0). cbn [bind].
    eexists; split; [reflexivity|]. rewrite zlen_app, L. change (zlen [0]) with 1. split; [lia|].
    split; [split; intros c Hc|]; rewrite W_app, L.
    + replace (2 * c <? 2 * b + 1) with true by lia. apply P1; lia.
    + replace (2 * c + 1 <? 2 * b + 1) with true by lia. apply P2; lia.
    + replace (2 * b + 1 <? 2 * b + 1) with false by lia.
      rewrite W_single. destruct (_ =? 0); reflexivity.
  - assert (Eb : nb l = b + 1) by lia. rewrite Eb in *.
    rewrite (fill_loop_ok false l b _ _ (Z.to_nat (s - 1))); try lia.
    2:{ intros k Hk. unfold F. rewrite !(Gw (8 * b + _)) by lia. reflexivity. }
    cbn [bind]. eexists; split; [reflexivity|]. rewrite !zlen_app, L.
    change (zlen [H9 false l b 7]) with 1. change (zlen [G false l n; 0]) with 2. split; [lia|].
    split; [split; intros c Hc|]; rewrite W_app, zlen_app, L; change (zlen [H9 false l b 7]) with 1.
    + destruct (Z.ltb_spec (2 * c) (2 * b + 1 + 1)).
      * rewrite W_app, L. replace (2 * c <? 2 * b + 1) with true by lia. apply P1; lia.
      * replace (2 * c - (2 * b + 1 + 1)) with 0 by lia. rewrite W_cons. cbn [Z.eqb].
        rewrite !Gw by lia. reflexivity.
    + replace (2 * c + 1 <? 2 * b + 1 + 1) with true by lia. rewrite W_app, L.
      destruct (Z.ltb_spec (2 * c + 1) (2 * b + 1)); [apply P2; lia|].
      replace (2 * c + 1 - (2 * b + 1)) with 0 by lia. replace c with b by lia. reflexivity.
    + replace (2 * (b + 1) + 1 <? 2 * b + 1 + 1) with false by lia.
      replace (2 * (b + 1) + 1 - (2 * b + 1 + 1)) with 1 by lia. reflexivity.
Qed.
