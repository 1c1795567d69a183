(** Proofs for property C99: map() with mapped vectors as pointers *)
From Verif Require Import Base Spec Lib M_BitVector M_Mapper M_Lazy S_Mapper S_Format P_Mapper P_Format.

Section Lazy.
Context (strict : bool) (addr : Z) (mem : list Z).

Lemma lazy_read w :
  (forall l cur ld c, lmap_visit w strict addr mem l cur = Ok (ld, c) ->
     map_visit strict addr mem l cur = (do d <- lread strict addr mem l ld; Ok (d, c))) /\
  (forall ms cur lds c, lmap_members w strict addr mem ms cur = Ok (lds, c) ->
     map_members strict addr mem ms cur = (do ds <- lread_members strict addr mem ms lds; Ok (ds, c))).
Proof.
  apply layout_members_ind.
  - intros size sg cur ld c H. cbn [lmap_visit map_visit] in *. destruct (map_pod _ _ _ _ _ _) as [[x c']|]; [|discriminate].
    cbn [bind] in *. injection H as <- <-. reflexivity.
  - intros size sg cur ld c H. cbn [lmap_visit map_visit] in *. unfold lmap_vec in H. unfold map_vec. cbv zeta in *.
    destruct (map_pod _ _ _ _ _ _) as [[n c']|]; [|discriminate]. cbn [bind] in *.
    destruct (if w then _ else _) as [xs|]; [|discriminate]. cbn [bind] in H. injection H as <- <-. cbn [lread].
    destruct (read_elems _ _ _ _ _ _ _); reflexivity.
  - intros ms IH cur ld c H. cbn [lmap_visit map_visit] in *. destruct (lmap_members _ _ _ _ _ _) as [[lds c']|] eqn:E; [|discriminate].
    cbn [bind] in *. injection H as <- <-. rewrite (IH _ _ _ E). cbn [lread]. destruct (lread_members _ _ _ _ _); reflexivity.
  - intros cur lds c H. cbn [lmap_members map_members] in *. injection H as <- <-. reflexivity.
  - intros nm l IHl ms IHms cur lds c H. cbn [lmap_members map_members] in *.
    destruct (lmap_visit _ _ _ _ _ _) as [[ld c1]|] eqn:E1; [|discriminate]. cbn [bind] in H.
    destruct (lmap_members _ _ _ _ _ _) as [[lds' c2]|] eqn:E2; [|discriminate]. cbn [bind] in H. injection H as <- <-.
    rewrite (IHl _ _ _ E1). cbn [lread_members]. destruct (lread _ _ _ _ _) as [d|]; [cbn [bind]|reflexivity].
    rewrite (IHms _ _ _ E2). destruct (lread_members _ _ _ _ _); reflexivity.
Qed.

Lemma warm_cold :
  (forall l cur ld c, lmap_visit true strict addr mem l cur = Ok (ld, c) ->
     lmap_visit false strict addr mem l cur = Ok (ld, c) /\ exists d, lread strict addr mem l ld = Ok d) /\
  (forall ms cur lds c, lmap_members true strict addr mem ms cur = Ok (lds, c) ->
     lmap_members false strict addr mem ms cur = Ok (lds, c) /\ exists ds, lread_members strict addr mem ms lds = Ok ds).
Proof.
  apply layout_members_ind.
  - intros size sg cur ld c H. split; [exact H|]. cbn [lmap_visit] in H. destruct (map_pod _ _ _ _ _ _) as [[x c']|]; [|discriminate].
    cbn [bind] in H. injection H as <- <-. eexists. reflexivity.
  - intros size sg cur ld c H. cbn [lmap_visit] in *. unfold lmap_vec in *. cbv zeta in *.
    destruct (map_pod _ _ _ _ _ _) as [[n c']|]; [|discriminate]. cbn [bind] in *.
    destruct (read_elems _ _ _ _ _ _ _) as [xs|] eqn:E; [|discriminate]. cbn [bind] in *. injection H as <- <-. split; [reflexivity|].
    cbn [lread]. rewrite E. eexists. reflexivity.
  - intros ms IH cur ld c H. cbn [lmap_visit] in *. destruct (lmap_members true _ _ _ _ _) as [[lds c']|] eqn:E; [|discriminate].
    cbn [bind] in H. injection H as <- <-. destruct (IH _ _ _ E) as (-> & ds & Hd). split; [reflexivity|]. cbn [lread]. rewrite Hd. eexists. reflexivity.
  - intros cur lds c H. split; [exact H|]. cbn [lmap_members] in H. injection H as <- <-. eexists. reflexivity.
  - intros nm l IHl ms IHms cur lds c H. cbn [lmap_members] in *.
    destruct (lmap_visit true _ _ _ _ _) as [[ld c1]|] eqn:E1; [|discriminate]. cbn [bind] in H.
    destruct (lmap_members true _ _ _ _ _) as [[lds' c2]|] eqn:E2; [|discriminate]. cbn [bind] in H. injection H as <- <-.
    destruct (IHl _ _ _ E1) as (-> & d & Hd). cbn [bind]. destruct (IHms _ _ _ E2) as (-> & ds & Hds). split; [reflexivity|].
    cbn [lread_members]. rewrite Hd. cbn [bind]. rewrite Hds. eexists. reflexivity.
Qed.

Ltac ubx H := cbn [bind] in *; injection H as ->; reflexivity.
Lemma warm_ub :
  (forall l cur r, lmap_visit true strict addr mem l cur = Ub r -> map_visit strict addr mem l cur = Ub r) /\
  (forall ms cur r, lmap_members true strict addr mem ms cur = Ub r -> map_members strict addr mem ms cur = Ub r).
Proof.
  apply layout_members_ind.
  - intros size sg cur r H. cbn [lmap_visit map_visit] in *. destruct (map_pod _ _ _ _ _ _) as [[x c']|]; [discriminate|ubx H].
  - intros size sg cur r H. cbn [lmap_visit map_visit] in *. unfold lmap_vec in H. unfold map_vec. cbv zeta in *.
    destruct (map_pod _ _ _ _ _ _) as [[n c']|]; [|ubx H]. cbn [bind] in *.
    destruct (read_elems _ _ _ _ _ _ _) as [xs|]; [discriminate|ubx H].
  - intros ms IH cur r H. cbn [lmap_visit map_visit] in *. destruct (lmap_members _ _ _ _ _ _) as [[lds c']|] eqn:E; [discriminate|].
    cbn [bind] in H. rewrite (IH _ _ E). ubx H.
  - intros cur r H. discriminate.
  - intros nm l IHl ms IHms cur r H. cbn [lmap_members map_members] in *.
    destruct (lmap_visit _ _ _ _ _ _) as [[ld c1]|] eqn:E1.
    2:{ cbn [bind] in H. rewrite (IHl _ _ E1). ubx H. }
    cbn [bind] in H. destruct (proj1 warm_cold _ _ _ _ E1) as (_ & d & Hd). rewrite (proj1 (lazy_read true) _ _ _ _ E1), Hd. cbn [bind].
    destruct (lmap_members _ _ _ _ _ _) as [[lds c2]|] eqn:E2; [discriminate|]. cbn [bind] in H. rewrite (IHms _ _ E2). ubx H.
Qed.

Lemma lazy_at w l base ld n : lmap_at w strict addr mem l base = Ok (ld, n) ->
  map_at strict addr mem l base = (do d <- lread strict addr mem l ld; Ok (d, n)).
Proof.
  unfold lmap_at, map_at. destruct (map_pod _ _ _ _ _ _) as [[f c]|]; [|discriminate]. cbn [bind].
  destruct (lmap_visit _ _ _ _ _ _) as [[ld' c']|] eqn:E; [|discriminate]. cbn [bind]. intros H. injection H as <- <-.
  rewrite (proj1 (lazy_read w) _ _ _ _ E). destruct (lread _ _ _ _ _); reflexivity.
Qed.
Lemma warm_at l base : map_at strict addr mem l base = (do (ld, n) <- lmap_at true strict addr mem l base; do d <- lread strict addr mem l ld; Ok (d, n)).
Proof.
  destruct (lmap_at true strict addr mem l base) as [[ld n]|r] eqn:E; cbn [bind]; [apply (lazy_at true); exact E|].
  unfold lmap_at, map_at in *. destruct (map_pod _ _ _ _ _ _) as [[f c]|]; [|ubx E]. cbn [bind] in *.
  destruct (lmap_visit _ _ _ _ _ _) as [[ld' c']|] eqn:E1; [discriminate|]. cbn [bind] in E. rewrite (proj1 warm_ub _ _ _ E1). ubx E.
Qed.
Lemma good_at l base d n : map_at strict addr mem l base = Ok (d, n) -> exists ld,
  (forall w, lmap_at w strict addr mem l base = Ok (ld, n)) /\ lread strict addr mem l ld = Ok d.
Proof.
  intros H. rewrite warm_at in H. destruct (lmap_at true strict addr mem l base) as [[ld n']|r] eqn:E; [|discriminate]. cbn [bind] in H.
  destruct (lread _ _ _ _ _) as [d'|] eqn:Ed; [|discriminate]. cbn [bind] in H. injection H as -> ->. exists ld. split; [|exact Ed].
  intros []; [exact E|]. unfold lmap_at in *. destruct (map_pod _ _ _ _ _ _) as [[f c]|]; [|discriminate]. cbn [bind] in *.
  destruct (lmap_visit true _ _ _ _ _) as [[ld' c']|] eqn:E1; [|discriminate]. rewrite (proj1 (proj1 warm_cold _ _ _ _ E1)). exact E.
Qed.

Lemma elems_oob size sg : 0 < size -> (strict = true -> (addr mod size = 0)) -> forall n pos, 0 <= pos -> pos mod size = 0 ->
  zlen mem < pos + size * Z.of_nat n -> pos <= zlen mem -> read_elems strict addr mem size sg n pos = Ub OutOfBounds.
Proof.
  intros Hs Ha. induction n as [|n IH]; intros pos Hp Hm Hl Hb; [lia|]. cbn [read_elems]. unfold read_as at 1.
  replace (strict && negb ((addr + pos) mod size =? 0)) with false.
  2:{ destruct strict; [|reflexivity]. rewrite Zplus_mod, (Ha eq_refl), Hm. rewrite Z.mod_0_l by lia. reflexivity. }
  destruct ((0 <=? pos) && (pos + size <=? zlen mem)) eqn:E; [|reflexivity]. cbn [bind]. rewrite IH; [reflexivity|lia| |lia|lia].
  rewrite <- (Z.mul_1_l size) at 1. rewrite Z_mod_plus_full. exact Hm.
Qed.
End Lazy.

Lemma headers strict addr flags size n rest : (strict = true -> addr mod 8 = 0) -> 0 <= flags < 2 ^ 64 -> 0 <= size < 2 ^ 64 -> 0 <= n < 2 ^ 64 ->
  let mem := le 8 flags ++ le 8 size ++ le 8 n ++ rest in
  lmap_at false strict addr mem (layout_of bv_map) 0 = Ok (LDObj (LDCons (LDPod size) (LDCons (LDVec 24 n) LDNil)), 24 + (8 * n) mod 2 ^ 64) /\
  (zlen rest < 8 * n -> lmap_at true strict addr mem (layout_of bv_map) 0 = Ub OutOfBounds) /\
  (forall i, 0 <= i < n -> zlen rest < 8 * i + 8 -> lget strict addr mem 8 false 24 n i = Ub OutOfBounds).
Proof.
  intros Ha Hf Hs Hn mem.
  assert (R : forall pre x post, mem = pre ++ le 8 x ++ post -> 0 <= x < 2 ^ 64 -> zlen pre mod 8 = 0 -> read_as strict addr mem 8 false (zlen pre) = Ok x).
  { intros pre x post -> Hx Hp. rewrite <- le_to_bytes. change (to_bytes 8 x) with (to_bytes (Z.to_nat 8) x). rewrite (read_ok strict addr pre post 8 false x) by (try (apply in_u64); lia).
    replace (negb strict || ((addr + zlen pre) mod 8 =? 0)) with true; [reflexivity|]. destruct strict; [|reflexivity].
    rewrite Zplus_mod, (Ha eq_refl), Hp. reflexivity. }
  assert (R0 : read_as strict addr mem 8 false 0 = Ok flags) by (apply (R [] flags _ eq_refl Hf); reflexivity).
  assert (R1 : read_as strict addr mem 8 false 8 = Ok size) by (apply (R (le 8 flags) size _ eq_refl Hs); reflexivity).
  assert (R2 : read_as strict addr mem 8 false 16 = Ok n).
  { apply (R (le 8 flags ++ le 8 size) n rest); [unfold mem; rewrite <- app_assoc; reflexivity|exact Hn|reflexivity]. }
  assert (Z24 : zlen mem = 24 + zlen rest) by (unfold mem; rewrite !zlen_app; change (zlen (le 8 flags)) with 8; change (zlen (le 8 size)) with 8; change (zlen (le 8 n)) with 8; lia).
  assert (G : forall w, lmap_at w strict addr mem (layout_of bv_map) 0 =
    (do _ <- (if w then read_elems strict addr mem 8 false (Z.to_nat n) 24 else Ok []); Ok (LDObj (LDCons (LDPod size) (LDCons (LDVec 24 n) LDNil)), 24 + (8 * n) mod 2 ^ 64))).
  { intros w. unfold lmap_at, map_pod. rewrite R0. cbn [bind]. cbn [layout_of bv_map bv_members lmap_visit lmap_members].
    unfold map_pod, lmap_vec, map_pod. change (0 + 8) with 8. rewrite R1. cbn [bind]. change (8 + 8) with 16. rewrite R2. cbn [bind]. change (16 + 8) with 24. cbv zeta.
    destruct (if w then _ else _); [|reflexivity]. cbn [bind]. rewrite Z.sub_0_r. unfold u64. rewrite (Z.mul_comm n). reflexivity. }
  split; [rewrite G; reflexivity|]. pose proof (zlen_nonneg rest). split.
  - intros Hr. rewrite G. rewrite (elems_oob strict addr mem 8 false); [reflexivity|lia|exact Ha|lia|reflexivity|lia|lia].
  - intros i Hi Hr. unfold lget. replace (i <? n) with true by lia. cbn [assert_]. unfold read_as.
    replace (strict && negb ((addr + (24 + i * 8)) mod 8 =? 0)) with false.
    2:{ destruct strict; [|reflexivity]. rewrite Zplus_mod, (Ha eq_refl). replace ((24 + i * 8) mod 8) with 0 by (rewrite Z_mod_plus_full; reflexivity). reflexivity. }
    rewrite Z24. replace ((0 <=? 24 + i * 8) && (24 + i * 8 + 8 <=? 24 + zlen rest)) with false by lia. reflexivity.
Qed.

Lemma read_elems_nth strict addr mem size signed : forall n pos xs i, read_elems strict addr mem size signed n pos = Ok xs -> (i < n)%nat ->
  read_as strict addr mem size signed (pos + Z.of_nat i * size) = Ok (nth i xs 0).
Proof.
  induction n as [|n IH]; intros pos xs i H Hi; [lia|]. cbn [read_elems] in H. apply bind_inv in H. destruct H as (x & E & H).
  apply bind_inv in H. destruct H as (ys & E2 & H). injection H as <-. destruct i as [|i].
  - cbn. rewrite Z.add_0_r. exact E.
  - cbn [nth]. rewrite <- (IH _ _ i E2) by lia. f_equal. lia.
Qed.
Lemma elements strict addr mem size signed pos n xs i : read_elems strict addr mem size signed (Z.to_nat n) pos = Ok xs -> 0 <= i ->
  lget strict addr mem size signed pos n i = if i <? n then Ok (nth (Z.to_nat i) xs 0) else Ub AssertFailed.
Proof.
  intros H Hi. unfold lget. destruct (Z.ltb_spec i n); [|reflexivity]. cbn [assert_].
  rewrite <- (read_elems_nth _ _ _ _ _ _ _ _ (Z.to_nat i) H) by lia. rewrite Z2Nat.id by lia. reflexivity.
Qed.
