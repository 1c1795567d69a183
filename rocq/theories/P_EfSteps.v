(** Proofs for C93 *)
From Coq Require Import Sorting.Sorted.
From Verif Require Import Base Spec Lib S_BitVector P_BvLib P_RsBuild P_BitVector M_BitVector M_Darray P_Darray M_EliasFano S_EliasFano P_EliasFano P_EliasFano2 M_EfSteps S_EfSteps.

(** ** counting *)
Lemma W_tail v vs i : 0 <= i -> W (v :: vs) (i + 1) = W vs i.
Proof. intros H. rewrite W_cons. replace (i + 1 =? 0) with false by lia. f_equal. lia. Qed.
Lemma filter_span (p : Z -> bool) : forall vs a b, 0 <= a <= b -> b <= zlen vs ->
  (forall i, 0 <= i < zlen vs -> p (W vs i) = (a <=? i) && (i <? b)) -> zlen (filter p vs) = b - a.
Proof.
  induction vs as [|v vs IH]; intros a b H Hb P.
  - change (zlen (@nil Z)) with 0 in *. cbn. change (zlen (@nil Z)) with 0. lia.
  - rewrite zlen_cons in *. pose proof (zlen_nonneg vs). cbn [filter]. pose proof (P 0 ltac:(lia)) as P0. rewrite W_cons in P0. cbn [Z.eqb] in P0. rewrite P0.
    assert (T : forall i, 0 <= i < zlen vs -> p (W vs i) = (a <=? i + 1) && (i + 1 <? b)).
    { intros i Hi. rewrite <- (W_tail v) by lia. apply P. lia. }
    destruct ((a <=? 0) && (0 <? b)) eqn:E.
    + rewrite zlen_cons. rewrite (IH a (b - 1)); [lia|lia|lia|]. intros i Hi. rewrite T by lia. lia.
    + rewrite (IH (Z.max 0 (a - 1)) (Z.max 0 (b - 1))); [lia|lia|lia|]. intros i Hi. rewrite T by lia. lia.
Qed.
Lemma filter_filter (p q : Z -> bool) l : filter p (filter q l) = filter (fun x => q x && p x) l.
Proof. induction l as [|x l IH]; cbn; [auto|]. destruct (q x); cbn; rewrite IH; reflexivity. Qed.
Lemma existsb_filter (p q : Z -> bool) l : existsb p (filter q l) = existsb (fun x => q x && p x) l.
Proof. induction l as [|x l IH]; cbn; [auto|]. destruct (q x); cbn; rewrite IH; reflexivity. Qed.

Lemma bucket_low n m : 0 <= n -> 0 <= m -> bucket n m = 2 ^ low_len n m.
Proof.
  intros Hn Hm. unfold bucket, low_len. destruct (Z.eqb_spec m 0) as [->|N]; [reflexivity|]. cbn [orb].
  destruct (Z.ltb_spec n m) as [C|C].
  - rewrite Z.div_small by lia. reflexivity.
  - assert (1 <= n / m) by (apply Z.div_le_lower_bound; lia). replace (n / m =? 0) with false by lia. reflexivity.
Qed.

Section Q.
Variables (ef : elias_fano) (vs : list Z) (n m l : Z) (H : list bool).
Hypothesis OK : ef_ok ef vs n m l H true.

Let Hl : 0 <= l < 64. Proof. apply OK. Qed.
Let Hn : 0 <= n < 2 ^ 64. Proof. apply OK. Qed.
Let Hv i : 0 <= i < zlen vs -> 0 <= W vs i <= n. Proof. apply OK. Qed.
Let Hm : mono vs. Proof. apply OK. Qed.

Lemma rank_loop_in pos r' : 0 <= pos -> is_rank vs pos r' ->
  forall k r, let h := Z.shiftr pos l in
  r' <= r <= zlen vs -> r + h < zlen H -> (forall i, 0 <= i < r -> Z.shiftr (W vs i) l <= h) ->
  ef_rank_loop k ef (pos mod 2 ^ l) r (r + h) = if r - r' <=? Z.of_nat k then Ok r' else Ub OutOfFuel.
Proof.
  intros Hpos (R1 & R2 & R3). induction k as [|k IH]; intros r h Hr Hb A.
  all: assert (Hh : 0 <= h) by (apply Z.shiftr_nonneg; lia).
  all: cbn [ef_rank_loop]; destruct (Z.leb_spec (r + h) 0) as [C|C]; [replace r with r' by lia; replace (r' - r' <=? _) with true by lia; reflexivity|].
  all: pose proof OK as (_ & _ & El & Eh & _ & _ & _); rewrite Eh, bv_get_ok by lia; cbn [bind].
  all: assert (B' : forall i, r <= i < zlen vs -> h <= Z.shiftr (W vs i) l)
    by (intros i Hi; apply shiftr_mono; [lia|apply R3; lia]).
  all: pose proof (prev_bit _ _ _ _ _ _ _ OK eq_refl r h ltac:(lia) Hh A B') as PB.
  all: destruct (Z.eq_dec r r') as [->|NE].
  (* at the result: the loop ends here *)
  1,3: replace (r' - r' <=? _) with true by lia; destruct (zbit H (r' + h - 1)) eqn:Zb; [|reflexivity];
    destruct (proj1 PB eq_refl) as [R0 Eq]; rewrite El, sub64_ok by lia; rewrite (low_ok _ _ _ _ _ _ _ OK) by lia; cbn [bind];
    pose proof (val_cmp _ _ _ _ _ _ _ OK (W vs (r' - 1)) pos (proj1 (Hv (r' - 1) ltac:(lia))) ltac:(lia)) as VC; fold h in VC;
    specialize (R2 (r' - 1) ltac:(lia)); replace (pos mod 2 ^ l <=? W vs (r' - 1) mod 2 ^ l) with false; [reflexivity|];
    symmetry; apply Z.leb_gt; destruct (Z.lt_ge_cases (W vs (r' - 1) mod 2 ^ l) (pos mod 2 ^ l)); [lia|exfalso; lia].
  (* above it: one more round *)
  all: pose proof (R3 (r - 1) ltac:(lia)) as G;
    assert (Eq : Z.shiftr (W vs (r - 1)) l = h) by (pose proof (A (r - 1) ltac:(lia)); pose proof (shiftr_mono pos (W vs (r - 1)) l ltac:(lia) G) as SM; fold h in SM; lia);
    assert (R0 : 0 < r) by lia; rewrite (proj2 PB (conj R0 Eq)); rewrite El, sub64_ok by lia; rewrite (low_ok _ _ _ _ _ _ _ OK) by lia; cbn [bind];
    pose proof (val_cmp _ _ _ _ _ _ _ OK (W vs (r - 1)) pos (proj1 (Hv (r - 1) ltac:(lia))) ltac:(lia)) as VC; fold h in VC;
    replace (pos mod 2 ^ l <=? W vs (r - 1) mod 2 ^ l) with true by (symmetry; apply Z.leb_le; lia).
  - replace (r - r' <=? Z.of_nat 0) with false by lia. reflexivity.
  - replace (r + h - 1) with (r - 1 + h) by lia. rewrite IH; [|lia|lia|intros i Hi; apply A; lia].
    replace (r - 1 - r' <=? Z.of_nat k) with (r - r' <=? Z.of_nat (S k)) by lia. reflexivity.
Qed.

(** [r''] is the number of values up to [pos] *)
Lemma get_loop_in pos r'' : 0 <= pos -> is_rank vs (pos + 1) r'' ->
  forall k r, let h := Z.shiftr pos l in
  r'' <= r <= zlen vs -> r + h < zlen H -> (forall i, 0 <= i < r -> Z.shiftr (W vs i) l <= h) ->
  ef_get_loop k ef (pos mod 2 ^ l) r (r + h) =
  if r - r'' + (if (0 <? r'') && (Z.shiftr (W vs (r'' - 1)) l =? h) then 1 else 0) <=? Z.of_nat k then Ok ((0 <? r'') && (W vs (r'' - 1) =? pos)) else Ub OutOfFuel.
Proof.
  intros Hpos (R1 & R2 & R3). induction k as [|k IH]; intros r h Hr Hb A.
  all: assert (Hh : 0 <= h) by (apply Z.shiftr_nonneg; lia).
  all: cbn [ef_get_loop]; destruct (Z.leb_spec (r + h) 0) as [C|C];
    [replace r with r'' by lia; replace (0 <? r'') with false by lia; cbn [andb]; replace (r'' - r'' + 0 <=? _) with true by lia; reflexivity|].
  all: pose proof OK as (_ & _ & El & Eh & _ & _ & _); rewrite Eh, bv_get_ok by lia; cbn [bind].
  all: assert (B' : forall i, r <= i < zlen vs -> h <= Z.shiftr (W vs i) l)
    by (intros i Hi; apply shiftr_mono; [lia|specialize (R3 i ltac:(lia)); lia]).
  all: pose proof (prev_bit _ _ _ _ _ _ _ OK eq_refl r h ltac:(lia) Hh A B') as PB.
  all: destruct (Z.eq_dec r r'') as [->|NE].
  1,3: destruct (zbit H (r'' + h - 1)) eqn:Zb;
    [destruct (proj1 PB eq_refl) as [R0 Eq]; rewrite Eq, Z.eqb_refl; replace (0 <? r'') with true by lia; cbn [andb]
    |assert (X : (0 <? r'') && (Z.shiftr (W vs (r'' - 1)) l =? h) = false);
      [destruct (Z.ltb_spec 0 r'') as [D|D]; [cbn [andb]; apply Z.eqb_neq; intros Eq; assert (false = true) by (apply PB; split; [lia|auto]); discriminate|reflexivity]
      |rewrite X; replace (r'' - r'' + 0 <=? _) with true by lia; f_equal; symmetry;
       destruct (Z.ltb_spec 0 r'') as [D|D]; [|reflexivity]; cbn [andb] in *; apply Z.eqb_neq; intros Ep; rewrite Ep in X; fold h in X; rewrite Z.eqb_refl in X; discriminate]].
  - replace (r'' - r'' + 1 <=? Z.of_nat 0) with false by lia. reflexivity.
  - replace (r'' - r'' + 1 <=? Z.of_nat (S k)) with true by lia. rewrite El, sub64_ok by lia. rewrite (low_ok _ _ _ _ _ _ _ OK) by lia. cbn [bind].
    pose proof (Hv (r'' - 1) ltac:(lia)). specialize (R2 (r'' - 1) ltac:(lia)).
    pose proof (val_cmp _ _ _ _ _ _ _ OK (W vs (r'' - 1)) pos ltac:(lia) Hpos) as VC; fold h in VC.
    pose proof (val_cmp _ _ _ _ _ _ _ OK pos (W vs (r'' - 1)) ltac:(lia) ltac:(lia)) as VC'; fold h in VC'.
    destruct (Z.eqb_spec (W vs (r'' - 1) mod 2 ^ l) (pos mod 2 ^ l)) as [D|D].
    + replace (W vs (r'' - 1) =? pos) with true by lia. reflexivity.
    + replace (W vs (r'' - 1) mod 2 ^ l <? pos mod 2 ^ l) with true by lia. replace (W vs (r'' - 1) =? pos) with false; [reflexivity|].
      symmetry. apply Z.eqb_neq. intros Ep. rewrite Ep in D. lia.
  - pose proof (R3 (r - 1) ltac:(lia)) as G.
    assert (Eq : Z.shiftr (W vs (r - 1)) l = h) by (pose proof (A (r - 1) ltac:(lia)); pose proof (shiftr_mono pos (W vs (r - 1)) l ltac:(lia) ltac:(lia)) as SM; fold h in SM; lia).
    assert (R0 : 0 < r) by lia. rewrite (proj2 PB (conj R0 Eq)). destruct ((0 <? r'') && _); [replace (r - r'' + 1 <=? Z.of_nat 0) with false by lia|replace (r - r'' + 0 <=? Z.of_nat 0) with false by lia]; reflexivity.
  - pose proof (R3 (r - 1) ltac:(lia)) as G.
    assert (Eq : Z.shiftr (W vs (r - 1)) l = h) by (pose proof (A (r - 1) ltac:(lia)); pose proof (shiftr_mono pos (W vs (r - 1)) l ltac:(lia) ltac:(lia)) as SM; fold h in SM; lia).
    assert (R0 : 0 < r) by lia. rewrite (proj2 PB (conj R0 Eq)). rewrite El, sub64_ok by lia. rewrite (low_ok _ _ _ _ _ _ _ OK) by lia. cbn [bind].
    pose proof (Hv (r - 1) ltac:(lia)).
    pose proof (val_cmp _ _ _ _ _ _ _ OK (W vs (r - 1)) pos ltac:(lia) Hpos) as VC; fold h in VC.
    pose proof (val_cmp _ _ _ _ _ _ _ OK pos (W vs (r - 1)) ltac:(lia) ltac:(lia)) as VC'; fold h in VC'.
    replace (W vs (r - 1) mod 2 ^ l =? pos mod 2 ^ l) with false by lia. replace (W vs (r - 1) mod 2 ^ l <? pos mod 2 ^ l) with false by lia.
    replace (r + h - 1) with (r - 1 + h) by lia. rewrite IH; [|lia|lia|intros i Hi; apply A; lia].
    fold h. set (e := if (0 <? r'') && (Z.shiftr (W vs (r'' - 1)) l =? h) then 1 else 0). replace (r - 1 - r'' + e <=? Z.of_nat k) with (r - r'' + e <=? Z.of_nat (S k)) by lia. reflexivity.
Qed.

(** ** the functions *)
Lemma same_bucket v h : Z.shiftr v l = h <-> v / 2 ^ l = h.
Proof. rewrite Z.shiftr_div_pow2 by lia. reflexivity. Qed.

(** [r] values lie in buckets up to that of [pos] *)
Definition upto (pos r : Z) : Prop :=
  0 <= r <= zlen vs /\ (forall i, 0 <= i < r -> Z.shiftr (W vs i) l <= Z.shiftr pos l) /\ (forall i, r <= i < zlen vs -> Z.shiftr pos l < Z.shiftr (W vs i) l).

Lemma count_ge pos r r' : upto pos r -> is_rank vs pos r' ->
  r' <= r /\ zlen (filter (fun v => pos <=? v) (filter (fun v => v / 2 ^ l =? pos / 2 ^ l) vs)) = r - r'.
Proof.
  intros (U1 & U2 & U3) (R1 & R2 & R3). assert (r' <= r).
  { destruct (Z.lt_ge_cases r r') as [C|]; [|lia]. pose proof (U3 r ltac:(lia)). pose proof (R2 r ltac:(lia)).
    pose proof (shiftr_mono (W vs r) pos l ltac:(lia) ltac:(lia)). lia. }
  split; [auto|]. rewrite filter_filter. apply filter_span; [lia|lia|]. intros i Hi. rewrite <- !Z.shiftr_div_pow2 by lia.
  destruct (Z.lt_ge_cases i r') as [C|C].
  - specialize (R2 i ltac:(lia)). replace (pos <=? W vs i) with false by lia. rewrite andb_false_r. lia.
  - specialize (R3 i ltac:(lia)). replace (pos <=? W vs i) with true by lia. rewrite andb_true_r.
    pose proof (shiftr_mono pos (W vs i) l ltac:(lia) R3).
    destruct (Z.lt_ge_cases i r) as [D|D]; [specialize (U2 i ltac:(lia))|specialize (U3 i ltac:(lia))]; lia.
Qed.
Lemma count_gt pos r r' : upto pos r -> is_rank vs (pos + 1) r' -> 
  r' <= r /\ zlen (filter (fun v => pos <? v) (filter (fun v => v / 2 ^ l =? pos / 2 ^ l) vs)) = r - r' /\
  existsb (fun v => v <=? pos) (filter (fun v => v / 2 ^ l =? pos / 2 ^ l) vs) = (0 <? r') && (Z.shiftr (W vs (r' - 1)) l =? Z.shiftr pos l).
Proof.
  intros (U1 & U2 & U3) (R1 & R2 & R3). assert (r' <= r).
  { destruct (Z.lt_ge_cases r r') as [C|]; [|lia]. pose proof (U3 r ltac:(lia)). pose proof (R2 r ltac:(lia)).
    pose proof (shiftr_mono (W vs r) pos l ltac:(lia) ltac:(lia)). lia. }
  split; [auto|]. split.
  - rewrite filter_filter. apply filter_span; [lia|lia|]. intros i Hi. rewrite <- !Z.shiftr_div_pow2 by lia.
    destruct (Z.lt_ge_cases i r') as [C|C].
    + specialize (R2 i ltac:(lia)). replace (pos <? W vs i) with false by lia. rewrite andb_false_r. lia.
    + specialize (R3 i ltac:(lia)). replace (pos <? W vs i) with true by lia. rewrite andb_true_r.
      pose proof (shiftr_mono pos (W vs i) l ltac:(lia) ltac:(lia)).
      destruct (Z.lt_ge_cases i r) as [D|D]; [specialize (U2 i ltac:(lia))|specialize (U3 i ltac:(lia))]; lia.
  - rewrite existsb_filter. apply eq_true_iff_eq. rewrite existsb_exists, andb_true_iff, Z.ltb_lt, Z.eqb_eq. split.
    + intros (v & I & E). apply andb_true_iff in E. rewrite Z.eqb_eq, Z.leb_le in E. destruct E as (E1 & E2). rewrite <- !Z.shiftr_div_pow2 in E1 by lia.
      apply In_W in I. destruct I as (i & Hi & <-). assert (i < r') by (destruct (Z.lt_ge_cases i r'); [auto|specialize (R3 i ltac:(lia)); lia]).
      split; [lia|]. pose proof (Hm i (r' - 1) ltac:(lia) ltac:(lia)). pose proof (R2 (r' - 1) ltac:(lia)).
      pose proof (shiftr_mono (W vs i) (W vs (r' - 1)) l ltac:(lia) ltac:(lia)). pose proof (shiftr_mono (W vs (r' - 1)) pos l ltac:(lia) ltac:(lia)). lia.
    + intros (P & E). exists (W vs (r' - 1)). split; [apply In_W; exists (r' - 1); split; [lia|auto]|]. rewrite <- !Z.shiftr_div_pow2 by lia.
      specialize (R2 (r' - 1) ltac:(lia)). apply andb_true_iff. split; lia.
Qed.

Lemma exists_rank pos : exists r, is_rank vs pos r.
Proof.
  assert (G : forall k, (k <= length vs)%nat -> exists r, 0 <= r <= Z.of_nat k /\ (forall i, 0 <= i < r -> W vs i < pos) /\ (forall i, r <= i < Z.of_nat k -> pos <= W vs i)).
  { induction k as [|k IH]; intros Hk; [exists 0; split; [lia|]; split; intros; lia|].
    destruct IH as (r & R1 & R2 & R3); [lia|]. destruct (Z.lt_ge_cases (W vs (Z.of_nat k)) pos) as [C|C].
    - exists (Z.of_nat (S k)). split; [lia|]. split; [|intros; lia]. intros i Hi. pose proof (Hm i (Z.of_nat k) ltac:(lia) ltac:(unfold zlen; lia)). lia.
    - exists r. split; [lia|]. split; [auto|]. intros i Hi. destruct (Z.eq_dec i (Z.of_nat k)) as [->|]; [auto|]. apply R3. lia. }
  destruct (G (length vs) ltac:(lia)) as (r & R). exists r. exact R.
Qed.

Lemma rank_in pos k : 0 <= pos < n -> exists r', is_rank vs pos r' /\
  ef_rank_in k ef pos = if zlen (filter (fun v => pos <=? v) (filter (fun v => v / 2 ^ l =? pos / 2 ^ l) vs)) <=? Z.of_nat k then Ok r' else Ub OutOfFuel.
Proof.
  intros Hp. destruct (exists_rank pos) as (r' & R). exists r'. split; [auto|]. unfold ef_rank_in. pose proof OK as (_ & Es & El & _). rewrite Es, El.
  rewrite assert_true by lia. rewrite assert_true by apply (d0_nonzero _ _ _ _ _ _ _ OK eq_refl). replace (pos =? n) with false by lia.
  rewrite !shr_ok, shl_ok by lia. cbn [bind].
  destruct (d0_start _ _ _ _ _ _ _ OK eq_refl (Z.shiftr pos l)) as (r & E & R1 & R2 & R3 & R4); [apply (shiftr_le_n _ _ _ _ _ _ _ OK eq_refl); lia|].
  rewrite E. cbn [bind]. pose proof (shiftr_le_n _ _ _ _ _ _ _ OK eq_refl pos ltac:(lia)).
  rewrite land_mask, sub64_ok by lia. replace (r + Z.shiftr pos l - Z.shiftr pos l) with r by lia.
  destruct (count_ge pos r r' (conj R1 (conj R3 R4)) R) as (L & ->). apply rank_loop_in; auto; lia.
Qed.
Lemma get_in pos k : 0 <= pos < n ->
  let b := filter (fun v => v / 2 ^ l =? pos / 2 ^ l) vs in
  ef_get_in k ef pos = if zlen (filter (fun v => pos <? v) b) + (if existsb (fun v => v <=? pos) b then 1 else 0) <=? Z.of_nat k
                       then Ok (existsb (fun v => v =? pos) vs) else Ub OutOfFuel.
Proof.
  intros Hp b. destruct (exists_rank (pos + 1)) as (r' & R). unfold ef_get_in. pose proof OK as (_ & Es & El & _). rewrite Es, El.
  rewrite assert_true by lia. rewrite assert_true by apply (d0_nonzero _ _ _ _ _ _ _ OK eq_refl).
  rewrite !shr_ok, shl_ok by lia. cbn [bind].
  destruct (d0_start _ _ _ _ _ _ _ OK eq_refl (Z.shiftr pos l)) as (r & E & R1 & R2 & R3 & R4); [apply (shiftr_le_n _ _ _ _ _ _ _ OK eq_refl); lia|].
  rewrite E. cbn [bind]. pose proof (shiftr_le_n _ _ _ _ _ _ _ OK eq_refl pos ltac:(lia)).
  rewrite land_mask, sub64_ok by lia. replace (r + Z.shiftr pos l - Z.shiftr pos l) with r by lia.
  destruct (count_gt pos r r' (conj R1 (conj R3 R4)) R) as (L & C & X). unfold b. rewrite C, X.
  rewrite (get_loop_in pos r') by (auto; lia). replace (existsb (fun v => v =? pos) vs) with ((0 <? r') && (W vs (r' - 1) =? pos)); [reflexivity|].
  destruct R as (Q1 & Q2 & Q3). apply eq_true_iff_eq. rewrite existsb_exists, andb_true_iff, Z.ltb_lt, Z.eqb_eq. split.
  - intros (P & Q). exists pos. split; [|apply Z.eqb_refl]. apply In_W. exists (r' - 1). split; [lia|auto].
  - intros (v & I & Q). apply Z.eqb_eq in Q. subst v. apply In_W in I. destruct I as (i & Hi & Ei).
    assert (i < r') by (destruct (Z.lt_ge_cases i r'); [auto|specialize (Q3 i ltac:(lia)); lia]). split; [lia|].
    pose proof (Hm i (r' - 1) ltac:(lia) ltac:(lia)). specialize (Q2 (r' - 1) ltac:(lia)). lia.
Qed.
End Q.

Lemma ef_rounds gr n m vs : ef_input n m vs -> exists ef, ef_make gr n m vs true = Ok ef /\
  forall pos k, 0 <= pos < n ->
    ef_rank_in k ef pos = (if rank_rounds n m vs pos <=? Z.of_nat k then Ok (zlen (filter (fun v => v <? pos) vs)) else Ub OutOfFuel) /\
    ef_get_in k ef pos = (if get_rounds n m vs pos <=? Z.of_nat k then Ok (existsb (fun v => v =? pos) vs) else Ub OutOfFuel).
Proof.
  intros I. destruct (ef_make_ok gr n m vs true I) as (ef & H & E & OK). exists ef. split; [auto|]. intros pos k Hp.
  destruct I as (_ & M & _ & _ & F & S). unfold rank_rounds, get_rounds, bucket_of. rewrite !(bucket_low n m) by lia. split.
  - destruct (rank_in _ _ _ _ _ _ OK pos k Hp) as (r & R & ->). destruct R as (R1 & R2 & R3). rewrite (filter_rank pos vs r); auto.
  - apply (get_in _ _ _ _ _ _ OK pos k Hp).
Qed.

(** ** bounds *)
Lemma filter_window a b : forall vs c, StronglySorted Z.lt vs -> Forall (fun v => c <= v) vs ->
  zlen (filter (fun v => (a <=? v) && (v <? b)) vs) <= Z.max 0 (b - Z.max a c).
Proof.
  induction vs as [|v vs IH]; intros c S F.
  - cbn. change (zlen (@nil Z)) with 0. lia.
  - inversion S as [|? ? S1 S2]; subst. inversion F as [|? ? F1 F2]; subst. cbn [filter].
    pose proof (IH (v + 1) S1 ltac:(eapply Forall_impl; [|exact S2]; cbn; intros; lia)).
    destruct ((a <=? v) && (v <? b)) eqn:E; [rewrite zlen_cons|]; lia.
Qed.
Lemma filter_le (p q : Z -> bool) l : (forall x, In x l -> p x = true -> q x = true) -> zlen (filter p l) <= zlen (filter q l).
Proof.
  induction l as [|x l IH]; intros H; cbn; [lia|]. specialize (IH ltac:(intros; apply H; [right; auto|auto])).
  pose proof (H x (or_introl eq_refl)) as Hx. destruct (p x); [rewrite Hx by auto; rewrite !zlen_cons; lia|].
  destruct (q x); [rewrite zlen_cons; lia|lia].
Qed.
Lemma distinct_bound n m vs pos : 0 <= n -> 0 <= m -> 0 <= pos -> StronglySorted Z.lt vs ->
  rank_rounds n m vs pos <= bucket n m - pos mod bucket n m /\ get_rounds n m vs pos <= bucket n m - pos mod bucket n m /\
  1 <= bucket n m <= Z.max 1 (n / Z.max 1 m).
Proof.
  intros Hn Hm Hp S. assert (B : 0 < bucket n m).
  { unfold bucket. destruct (_ || _); [lia|]. apply Z.pow_pos_nonneg; [lia|apply Z.log2_nonneg]. }
  assert (U : bucket n m <= Z.max 1 (n / Z.max 1 m)).
  { unfold bucket in *. destruct (Z.eqb_spec m 0) as [|N]; cbn [orb] in *; [lia|]. destruct (Z.ltb_spec n m) as [C|C]; [lia|].
    rewrite Z.max_r with (n := 1) (m := m) by lia. assert (1 <= n / m) by (apply Z.div_le_lower_bound; lia). pose proof (Z.log2_spec (n / m) ltac:(lia)). lia. }
  set (w := bucket n m) in *. set (e := (pos / w + 1) * w). pose proof (Z.div_mod pos w ltac:(lia)) as D. pose proof (Z.mod_pos_bound pos w B).
  assert (Le : e - pos = w - pos mod w) by (unfold e; lia).
  assert (G : forall v, v / w = pos / w -> v < e).
  { intros v Ev. pose proof (Z.div_mod v w ltac:(lia)). pose proof (Z.mod_pos_bound v w B). unfold e. lia. }
  assert (F : forall c, exists c', c' <= c /\ Forall (fun v => c' <= v) vs).
  { intros c. destruct vs as [|v0 vs0]; [exists c; split; [lia|constructor]|]. exists (Z.min c v0). split; [lia|].
    inversion S as [|? ? S1 S2]; subst. constructor; [lia|]. eapply Forall_impl; [|exact S2]. cbn. intros. lia. }
  split; [|split; [|lia]].
  - unfold rank_rounds, bucket_of. fold w. rewrite filter_filter. destruct (F pos) as (c' & C1 & C2).
    pose proof (filter_window pos e vs c' S C2). etransitivity; [apply (filter_le _ (fun v => (pos <=? v) && (v <? e)))|lia].
    intros x _ Hx. apply andb_true_iff in Hx. destruct Hx as (X1 & X2). rewrite X2. apply Z.eqb_eq in X1. specialize (G x X1). cbn [andb]. lia.
  - unfold get_rounds, bucket_of. fold w. rewrite filter_filter. destruct (F (pos + 1)) as (c' & C1 & C2).
    pose proof (filter_window (pos + 1) e vs c' S C2) as FW. set (t := if existsb _ _ then 1 else 0). assert (0 <= t <= 1) by (unfold t; destruct (existsb _ _); lia).
    assert (zlen (filter (fun x => (x / w =? pos / w) && (pos <? x)) vs) <= e - (pos + 1)); [|lia].
    etransitivity; [apply (filter_le _ (fun v => (pos + 1 <=? v) && (v <? e)))|lia].
    intros x _ Hx. apply andb_true_iff in Hx. destruct Hx as (X1 & X2). apply Z.eqb_eq in X1. specialize (G x X1). lia.
Qed.
(** repeated values *)
Lemma repeated_rounds n m v j : rank_rounds n m (repeat v j) v = Z.of_nat j.
Proof.
  unfold rank_rounds, bucket_of. rewrite filter_filter. induction j as [|j IH]; [reflexivity|]. cbn [repeat filter]. rewrite Z.eqb_refl, Z.leb_refl. cbn [andb].
  rewrite zlen_cons, IH. lia.
Qed.
