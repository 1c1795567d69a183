(** Proofs for C103: structures holding the same contents give the same answers. *)
From Verif Require Import Base Spec Lib M_BitVector S_BitVector M_RsBitVector M_Darray M_EliasFano M_Gamma M_Util S_EliasFano
  P_BvLib P_BitVector P_BvProps P_RsBuild P_RsQuery P_Darray P_EliasFano2 P_Gamma P_Util.

Lemma rank_stay l p q : (p <= q)%nat -> (q <= length l)%nat ->
  (forall k, (p <= k < q)%nat -> nth_error l k = Some false) -> rank true l q = rank true l p.
Proof.
  intros H. induction H as [|q H IH]; intros L F; [auto|]. rewrite (rank_S true l q false), IH; [cbn; lia|lia| |].
  - intros k Hk. apply F; lia.
  - apply F; lia.
Qed.

Lemma select_count b l k p : is_select b l k p -> (k < count b l)%nat.
Proof.
  intros [N <-]. pose proof (rank_S b l p b N) as S. pose proof (rank_le_count b l (Datatypes.S p)).
  rewrite Bool.eqb_reflx in S. lia.
Qed.

Lemma agree_bits gr b l h h0 : bv_of_builder b = Ok (canonical l) -> zlen l < 2 ^ 61 -> exists rs d1 d0 ef,
  rs_build (bv_range l) h h0 = Ok rs /\ darray_build false (canonical l) = Ok d1 /\
  darray_build true (canonical l) = Ok d0 /\ ef_of_bits gr b true = Ok ef /\
  (forall p x, nth_error l p = Some x -> bv_get (canonical l) (Z.of_nat p) = Ok x /\ ef_get ef (Z.of_nat p) = Ok x) /\
  (forall p, (p <= length l)%nat -> exists r, rs_rank rs (Z.of_nat p) = Ok r /\ ef_rank ef (Z.of_nat p) = Ok r) /\
  (forall i q, is_select true l i q -> rs_select rs (Z.of_nat i) = Ok (Z.of_nat q) /\
     darray1_select d1 (canonical l) (Z.of_nat i) = Ok (Z.of_nat q) /\ ef_select ef (Z.of_nat i) = Ok (Z.of_nat q)) /\
  (forall i q, is_select false l i q -> rs_select0 rs (Z.of_nat i) = Ok (Z.of_nat q) /\
     darray0_select d0 (canonical l) (Z.of_nat i) = Ok (Z.of_nat q)) /\
  (forall p q, (q <= p < length l)%nat -> nth_error l q = Some true ->
     (forall k, (q < k <= p)%nat -> nth_error l k = Some false) ->
     predecessor1 (canonical l) (Z.of_nat p) = Ok (Z.of_nat q) /\ ef_predecessor1 ef (Z.of_nat p) = Ok (Z.of_nat q) /\
     (do r <- rs_rank rs (Z.of_nat p + 1); rs_select rs (r - 1)) = Ok (Z.of_nat q) /\
     (do r <- rs_rank rs (Z.of_nat p + 1); darray1_select d1 (canonical l) (r - 1)) = Ok (Z.of_nat q)) /\
  (forall p q, (p <= q)%nat -> nth_error l q = Some true ->
     (forall k, (p <= k < q)%nat -> nth_error l k = Some false) ->
     successor1 (canonical l) (Z.of_nat p) = Ok (Z.of_nat q) /\ ef_successor1 ef (Z.of_nat p) = Ok (Z.of_nat q) /\
     (do r <- rs_rank rs (Z.of_nat p); rs_select rs r) = Ok (Z.of_nat q) /\
     (do r <- rs_rank rs (Z.of_nat p); darray1_select d1 (canonical l) r) = Ok (Z.of_nat q)).
Proof.
  intros Hb HL.
  destruct (rs_rank_all l h h0) as (rs & E & _ & _ & R). destruct (rs_select_exists l h h0) as (rs' & E' & S1 & S0).
  rewrite E in E'. injection E' as <-.
  destruct (darray_classes l) as (d1 & d0 & Ed1 & Ed0 & D1 & D0); [lia|].
  destruct (ef_bits gr b l true Hb HL) as (ef & Ee & _ & _ & F & G). destruct (G eq_refl) as [G1 G2].
  exists rs, d1, d0, ef. split; [auto|]. split; [auto|]. split; [auto|]. split; [auto|].
  assert (RR : forall p, (p <= length l)%nat -> rs_rank rs (Z.of_nat p) = Ok (Z.of_nat (rank true l p))).
  { intros p Hp. destruct (R (Z.of_nat p)) as [-> _]; [unfold zlen; lia|]. rewrite Nat2Z.id. auto. }
  assert (SS : forall i q, is_select true l i q -> rs_select rs (Z.of_nat i) = Ok (Z.of_nat q) /\
     darray1_select d1 (canonical l) (Z.of_nat i) = Ok (Z.of_nat q) /\ ef_select ef (Z.of_nat i) = Ok (Z.of_nat q)).
  { intros i q Hq. pose proof (select_count _ _ _ _ Hq).
    destruct (S1 (Z.of_nat i)) as (q1 & -> & H1); [lia|]. destruct (D1 (Z.of_nat i)) as (q2 & -> & H2); [lia|].
    rewrite Nat2Z.id in H1, H2. rewrite (F _ _ Hq), (is_select_unique _ _ _ _ _ H1 Hq), (is_select_unique _ _ _ _ _ H2 Hq). auto. }
  split; [|split; [|split; [exact SS|split; [|split]]]].
  - intros p x Hx. split; [|auto]. assert ((p < length l)%nat) by (apply nth_error_Some; congruence).
    rewrite bv_get_ok by (unfold zlen; lia). f_equal. rewrite zbit_nth. apply nth_error_nth; auto.
  - intros p Hp. eexists. split; [apply RR; auto|apply G1; auto].
  - intros i q Hq. pose proof (select_count _ _ _ _ Hq).
    destruct (S0 (Z.of_nat i)) as (q1 & -> & H1); [lia|]. destruct (D0 (Z.of_nat i)) as (q2 & -> & H2); [lia|].
    rewrite Nat2Z.id in H1, H2. rewrite (is_select_unique _ _ _ _ _ H1 Hq), (is_select_unique _ _ _ _ _ H2 Hq). auto.
  - intros p q Hq N B.
    assert (K : rank true l (S p) = S (rank true l q)).
    { rewrite (rank_stay l (S q) (S p)); [|lia|lia|intros k Hk; apply B; lia].
      rewrite (rank_S true l q true N). cbn. lia. }
    destruct (SS (rank true l q) q) as (A1 & A2 & A3); [split; auto|]. split; [|split; [|split]].
    + apply (predecessor_both false); [lia|unfold zlen; lia|rewrite Nat2Z.id; auto|].
      intros k Hk. apply B. lia.
    + unfold ef_predecessor1. rewrite u64_small by (unfold zlen in HL; lia).
      replace (Z.of_nat p + 1) with (Z.of_nat (S p)) by lia. rewrite G1 by lia. cbn [bind]. rewrite K.
      assert (rank true l q <= q)%nat by apply rank_le. rewrite sub64_ok by (unfold zlen in HL; lia).
      replace (Z.of_nat (S (rank true l q)) - 1) with (Z.of_nat (rank true l q)) by lia. auto.
    + replace (Z.of_nat p + 1) with (Z.of_nat (S p)) by lia. rewrite RR by lia. cbn [bind]. rewrite K.
      replace (Z.of_nat (S (rank true l q)) - 1) with (Z.of_nat (rank true l q)) by lia. auto.
    + replace (Z.of_nat p + 1) with (Z.of_nat (S p)) by lia. rewrite RR by lia. cbn [bind]. rewrite K.
      replace (Z.of_nat (S (rank true l q)) - 1) with (Z.of_nat (rank true l q)) by lia. auto.
  - intros p q Hq N B. assert ((q < length l)%nat) by (apply nth_error_Some; congruence).
    assert (K : rank true l p = rank true l q) by (symmetry; apply rank_stay; auto; lia).
    destruct (SS (rank true l q) q) as (A1 & A2 & A3); [split; auto|]. split; [|split; [|split]].
    + apply (successor_both false); [lia|rewrite Nat2Z.id; auto|]. intros k Hk. apply B. lia.
    + unfold ef_successor1. rewrite G1 by lia. cbn [bind]. rewrite K. auto.
    + rewrite RR by lia. cbn [bind]. rewrite K. auto.
    + rewrite RR by lia. cbn [bind]. rewrite K. auto.
Qed.

Lemma agree_ints gr ints : Forall (fun x => 0 <= x < 2 ^ 64 - 2) ints -> sum ints < 2 ^ 64 - 1 -> zlen ints < 2 ^ 57 ->
  exists l c v b, efl_build gr ints = Ok l /\ efc_build gr ints = Ok c /\ gv_build gr ints = Ok v /\
  gb_build gr ints = Ok b /\
  efl_size l = zlen ints /\ efc_size c = zlen ints /\ gamma_size v = zlen ints /\ gamma_size b = zlen ints /\
  (forall i x, nth_error ints i = Some x -> efl_get l (Z.of_nat i) = Ok x /\ efc_get c (Z.of_nat i) = Ok x /\
     gv_get v (Z.of_nat i) = Ok x /\ gb_get b (Z.of_nat i) = Ok x) /\
  (Forall (fun x => x < 16) ints -> exists n, nv_build ints = Ok n /\ nv_size n = zlen ints /\
     forall i x, nth_error ints i = Some x -> nv_get n (Z.of_nat i) = Ok x).
Proof.
  intros F HS L.
  destruct (efl_all gr ints) as (l & E1 & A1 & _ & G1); [eapply Forall_impl; [|exact F]; cbv beta; intros; lia|auto|lia|].
  destruct (efc_all gr ints) as (c & E2 & A2 & G2); [eapply Forall_impl; [|exact F]; cbv beta; intros; lia|auto|].
  destruct (gv_all gr ints) as (v & E3 & A3 & G3 & _); [eapply Forall_impl; [|exact F]; cbv beta; intros; lia|auto|].
  destruct (gb_all gr ints) as (b & E4 & A4 & G4 & _); [auto|auto|].
  exists l, c, v, b. repeat (split; [reflexivity || eassumption|]). split.
  - intros i x Hx. auto.
  - intros N. destruct (nv_ok ints) as (n & En & An & _ & Gn).
    { apply Forall_forall. intros x Hx. pose proof (proj1 (Forall_forall _ _) F x Hx). pose proof (proj1 (Forall_forall _ _) N x Hx).
      cbv beta in *. lia. }
    exists n. auto.
Qed.
