(** Proofs for C100 *)
From Verif Require Import Base Spec Lib M_BitVector M_RsBitVector M_Darray M_EliasFano M_Gamma M_Util M_Bp M_Cartesian M_Topk M_Mapper.
From Verif Require Import S_BitVector S_Darray S_EliasFano S_Bp S_Cartesian S_Mapper S_Ident.
From Verif Require Import P_BvLib P_BitVector P_RsBuild P_RsQuery P_RsGen P_Builder P_BpBuild P_BpSpec P_Darray P_EliasFano2 P_Gamma P_Util P_Cartesian P_Mapper P_Typed P_Repro.

Lemma file_inj {A} (M : mappable A) x y : injective (data_of M) -> roundtrips M x -> roundtrips M y -> same_file M x y -> x = y.
Proof.
  intros I Rx Ry (flags & F & E). destruct (Rx flags 0 [] [] F) as (bx & nx & Ex & _ & Mx).
  destruct (Ry flags 0 [] [] F) as (by_ & ny & Ey & _ & My). rewrite Ex, Ey in E. cbn [fst] in E. subst by_.
  rewrite Mx in My. apply I. congruence.
Qed.
Lemma same_refl {A} (M : mappable A) x : same_file M x x.
Proof. exists 0. split; [lia|reflexivity]. Qed.
Lemma nth_error_ext_len {A} (l : list A) : forall m, length l = length m -> (forall i, nth_error l i = nth_error m i) -> l = m.
Proof.
  induction l as [|x l IH]; intros [|y m] L H; try discriminate; [reflexivity|]. pose proof (H 0%nat) as H0. cbn in H0, L. f_equal; [congruence|].
  apply IH; [lia|]. intros i. exact (H (S i)).
Qed.
Lemma list_eq (f : Z -> res Z) l m : (forall i x, nth_error l i = Some x -> f (Z.of_nat i) = Ok x) -> (forall i x, nth_error m i = Some x -> f (Z.of_nat i) = Ok x) ->
  zlen l = zlen m -> l = m.
Proof.
  intros A B H. unfold zlen in H. apply nth_error_ext_len; [lia|]. intros i.
  destruct (nth_error l i) as [x|] eqn:E, (nth_error m i) as [y|] eqn:F; try reflexivity.
  - apply A in E. apply B in F. congruence.
  - apply nth_error_None in F. assert (i < length l)%nat by (apply nth_error_Some; congruence). lia.
  - apply nth_error_None in E. assert (i < length m)%nat by (apply nth_error_Some; congruence). lia.
Qed.

(** ** containers *)
Lemma d64_seq_inj l : forall m, Forall (fun s => 0 <= s <= 64) l -> Forall (fun s => 0 <= s <= 64) m -> d64_seq l = d64_seq m -> l = m.
Proof.
  assert (R : forall a b u v, repeat false a ++ true :: u = repeat false b ++ true :: v -> a = b /\ u = v).
  { induction a as [|a IH]; intros [|b] u v E; cbn in E; try discriminate; [split; congruence|]. injection E as E. apply IH in E. destruct E. auto. }
  induction l as [|s l IH]; intros [|t m] Fl Fm E; [reflexivity| | |].
  - cbn in E. destruct (repeat false (Z.to_nat t)); discriminate.
  - cbn in E. destruct (repeat false (Z.to_nat s)); discriminate.
  - inversion Fl as [|? ? Hs Fl']; subst. inversion Fm as [|? ? Ht Fm']; subst. cbn [d64_seq flat_map] in E. rewrite <- !app_assoc in E. cbn [app] in E.
    apply R in E. destruct E as [E1 E2]. f_equal; [lia|]. apply IH; auto.
Qed.
Lemma ident_bits :
  (forall l m, zlen l < 2 ^ 64 -> zlen m < 2 ^ 64 -> same_file bv_map (bv_range l) (bv_range m) -> l = m) /\
  (forall l m h h0 k k0 x y, zlen l < 2 ^ 64 -> zlen m < 2 ^ 64 -> rs_build (bv_range l) h h0 = Ok x -> rs_build (bv_range m) k k0 = Ok y ->
     same_file rs_map x y -> l = m) /\
  (forall l m x y, Forall (fun x => 0 <= x < 16) l -> Forall (fun x => 0 <= x < 16) m -> zlen l < 2 ^ 64 -> zlen m < 2 ^ 64 ->
     nv_build l = Ok x -> nv_build m = Ok y -> same_file nv_map x y -> l = m).
Proof.
  destruct all_inj as (_ & Ibv & Irs & _ & _ & _ & _ & _ & _ & _ & _ & Inv & _). destruct rt_bits as (Rrs & _ & Rnv).
  split; [|split].
  - intros l m Hl Hm S. rewrite !bv_range_ok in S. apply canonical_inj. refine (file_inj bv_map _ _ Ibv _ _ S); apply image_rt.
    + split; [apply bv_typed; exact Hl|]. apply canonical_typed. exact Hl.
    + split; [apply bv_typed; exact Hm|]. apply canonical_typed. exact Hm.
  - intros l m h h0 k k0 x y Hl Hm Ex Ey S. destruct (Rrs l h h0 Hl) as (x' & Ex' & Rx). destruct (Rrs m k k0 Hm) as (y' & Ey' & Ry).
    assert (x' = x) by congruence. assert (y' = y) by congruence. subst x' y'. pose proof (file_inj _ _ _ Irs Rx Ry S). subst y.
    rewrite bv_range_ok in Ex, Ey. destruct (rs_typed l h h0 x Hl Ex) as (A & _). destruct (rs_typed m k k0 x Hm Ey) as (B & _).
    apply canonical_inj. congruence.
  - intros l m x y Fl Fm Hl Hm Ex Ey S. destruct (Rnv l Fl Hl) as (x' & Ex' & Rx). destruct (Rnv m Fm Hm) as (y' & Ey' & Ry).
    assert (x' = x) by congruence. assert (y' = y) by congruence. subst x' y'. pose proof (file_inj _ _ _ Inv Rx Ry S). subst y.
    destruct (nv_ok l Fl) as (z & Ez & Sz & _ & Gz). destruct (nv_ok m Fm) as (w & Ew & Sw & _ & Gw).
    assert (z = x) by congruence. assert (w = x) by congruence. subst z w. apply (list_eq (nv_get x)); [exact Gz|exact Gw|congruence].
Qed.

Lemma positions_lo l : forall i p, In p (positions l i) -> i <= p.
Proof.
  induction l as [|x l IH]; intros i p H; cbn [positions] in H; [contradiction|].
  destruct x; [destruct H as [<-|H]; [lia|]|]; apply IH in H; lia.
Qed.
Lemma positions_inj l : forall m i, length l = length m -> positions l i = positions m i -> l = m.
Proof.
  induction l as [|x l IH]; intros [|y m] i L E; try discriminate; [reflexivity|]. cbn [positions length] in *.
  destruct x, y.
  - f_equal. apply (IH m (i + 1)); [lia|congruence].
  - exfalso. assert (In i (positions m (i + 1))) as H by (rewrite <- E; left; reflexivity). apply positions_lo in H. lia.
  - exfalso. assert (In i (positions l (i + 1))) as H by (rewrite E; left; reflexivity). apply positions_lo in H. lia.
  - f_equal. apply (IH m (i + 1)); [lia|exact E].
Qed.

Lemma ident_ef :
  (forall gr gr' n m vs idx n' m' vs' idx' x y, ef_input n m vs -> ef_input n' m' vs' -> ef_make gr n m vs idx = Ok x -> ef_make gr' n' m' vs' idx' = Ok y ->
     same_file ef_map x y -> n = n' /\ vs = vs') /\
  (forall gr gr' b b' l l' idx idx' x y, bv_of_builder b = Ok (bv_range l) -> bv_of_builder b' = Ok (bv_range l') -> zlen l < 2 ^ 61 -> zlen l' < 2 ^ 61 ->
     ef_of_bits gr b idx = Ok x -> ef_of_bits gr' b' idx' = Ok y -> same_file ef_map x y -> l = l') /\
  (forall gr gr' ints ints' x y, Forall (fun x => 0 <= x) ints -> Forall (fun x => 0 <= x) ints' -> sum ints < 2 ^ 64 - 1 -> sum ints' < 2 ^ 64 - 1 ->
     zlen ints < 2 ^ 61 -> zlen ints' < 2 ^ 61 -> efl_build gr ints = Ok x -> efl_build gr' ints' = Ok y -> same_file efl_map x y -> ints = ints') /\
  (forall gr gr' ints ints' x y, Forall (fun x => 0 <= x < 2 ^ 64 - 1) ints -> Forall (fun x => 0 <= x < 2 ^ 64 - 1) ints' ->
     zlen ints < 2 ^ 57 -> zlen ints' < 2 ^ 57 -> efc_build gr ints = Ok x -> efc_build gr' ints' = Ok y -> same_file efc_map x y -> ints = ints').
Proof.
  destruct all_inj as (_ & _ & _ & _ & _ & _ & _ & Ief & Iefl & Iefc & _). destruct rt_ef as (Ref & Rbits & Refl & Refc).
  assert (EF : forall gr gr' n m vs idx n' m' vs' idx' x, ef_input n m vs -> ef_input n' m' vs' -> ef_make gr n m vs idx = Ok x -> ef_make gr' n' m' vs' idx' = Ok x -> n = n' /\ vs = vs').
  { intros gr gr' n m vs idx n' m' vs' idx' x I I' Ex Ey. destruct (ef_store gr n m vs idx I) as (z & Ez & Sz & Nz & Gz).
    destruct (ef_store gr' n' m' vs' idx' I') as (w & Ew & Sw & Nw & Gw). assert (z = x) by congruence. assert (w = x) by congruence. subst z w.
    split; [congruence|]. apply (list_eq (ef_select x)); [exact Gz|exact Gw|congruence]. }
  split; [|split; [|split]].
  - intros gr gr' n m vs idx n' m' vs' idx' x y I I' Ex Ey S. destruct (Ref gr n m vs idx I) as (x' & Ex' & Rx). destruct (Ref gr' n' m' vs' idx' I') as (y' & Ey' & Ry).
    assert (x' = x) by congruence. assert (y' = y) by congruence. subst x' y'. pose proof (file_inj _ _ _ Ief Rx Ry S). subst y.
    exact (EF _ _ _ _ _ _ _ _ _ _ _ I I' Ex Ey).
  - intros gr gr' b b' l l' idx idx' x y Hb Hb' Hl Hl' Ex Ey S. rewrite bv_range_ok in Hb, Hb'.
    destruct (Rbits gr b l idx Hb Hl) as (x' & Ex' & Rx). destruct (Rbits gr' b' l' idx' Hb' Hl') as (y' & Ey' & Ry).
    assert (x' = x) by congruence. assert (y' = y) by congruence. subst x' y'. pose proof (file_inj _ _ _ Ief Rx Ry S). subst y.
    rewrite (ef_of_bits_eq _ _ _ _ Hb) in Ex. rewrite (ef_of_bits_eq _ _ _ _ Hb') in Ey.
    destruct (EF _ _ _ _ _ _ _ _ _ _ _ (positions_input l Hl) (positions_input l' Hl') Ex Ey) as [A B].
    apply (positions_inj l l' 0); [unfold zlen in A; lia|exact B].
  - intros gr gr' ints ints' x y F F' Hs Hs' Hl Hl' Ex Ey S. destruct (Refl gr ints F Hs Hl) as (x' & Ex' & Rx). destruct (Refl gr' ints' F' Hs' Hl') as (y' & Ey' & Ry).
    assert (x' = x) by congruence. assert (y' = y) by congruence. subst x' y'. pose proof (file_inj _ _ _ Iefl Rx Ry S). subst y.
    destruct (efl_all gr ints F Hs Hl) as (z & Ez & Sz & _ & Gz). destruct (efl_all gr' ints' F' Hs' Hl') as (w & Ew & Sw & _ & Gw).
    assert (z = x) by congruence. assert (w = x) by congruence. subst z w. apply (list_eq (efl_get x)); [exact Gz|exact Gw|congruence].
  - intros gr gr' ints ints' x y F F' Hl Hl' Ex Ey S. destruct (Refc gr ints F Hl) as (x' & Ex' & Rx). destruct (Refc gr' ints' F' Hl') as (y' & Ey' & Ry).
    assert (x' = x) by congruence. assert (y' = y) by congruence. subst x' y'. pose proof (file_inj _ _ _ Iefc Rx Ry S). subst y.
    destruct (efc_all gr ints F Hl) as (z & Ez & Sz & Gz). destruct (efc_all gr' ints' F' Hl') as (w & Ew & Sw & Gw).
    assert (z = x) by congruence. assert (w = x) by congruence. subst z w. apply (list_eq (efc_get x)); [exact Gz|exact Gw|congruence].
Qed.

Lemma ident_gamma :
  (forall gr gr' skips skips' b b' x y, Forall (fun s => 0 <= s <= 64) skips -> Forall (fun s => 0 <= s <= 64) skips' -> zlen skips < 2 ^ 57 -> zlen skips' < 2 ^ 57 ->
     append1_all gr d64_new skips = Ok b -> d64_build b = Ok x -> append1_all gr' d64_new skips' = Ok b' -> d64_build b' = Ok y -> same_file d64_map x y -> skips = skips') /\
  (forall gr gr' ints ints' x y, Forall (fun x => 0 <= x < 2 ^ 64 - 1) ints -> Forall (fun x => 0 <= x < 2 ^ 64 - 1) ints' ->
     zlen ints < 2 ^ 57 -> zlen ints' < 2 ^ 57 -> gv_build gr ints = Ok x -> gv_build gr' ints' = Ok y -> same_file gamma_map x y -> ints = ints') /\
  (forall gr gr' ints ints' x y, Forall (fun x => 0 <= x < 2 ^ 64 - 2) ints -> Forall (fun x => 0 <= x < 2 ^ 64 - 2) ints' ->
     zlen ints < 2 ^ 57 -> zlen ints' < 2 ^ 57 -> gb_build gr ints = Ok x -> gb_build gr' ints' = Ok y -> same_file gamma_map x y -> ints = ints').
Proof.
  destruct all_inj as (_ & _ & _ & _ & _ & _ & Id & _ & _ & _ & Ig & _). destruct rt_gamma as (Rd & Rgv & Rgb). split.
  { intros gr gr' skips skips' b b' x y F F' Hl Hl' Eb Ex Eb' Ey S. destruct (Rd gr skips F Hl) as (c & x' & Ec & Ex' & Rx). destruct (Rd gr' skips' F' Hl') as (c' & y' & Ec' & Ey' & Ry).
    assert (c = b) by congruence. assert (c' = b') by congruence. subst c c'.
    assert (x' = x) by congruence. assert (y' = y) by congruence. subst x' y'. pose proof (file_inj _ _ _ Id Rx Ry S). subst y.
    destruct (d64_all gr skips F) as (c & z & Ec2 & Ez & Bz & _). destruct (d64_all gr' skips' F') as (c' & w & Ec2' & Ew & Bw & _).
    assert (c = b) by congruence. assert (c' = b') by congruence. subst c c'. apply d64_seq_inj; auto. apply canonical_inj. congruence. }
  split; intros gr gr' ints ints' x y F F' Hl Hl' Ex Ey S.
  - destruct (Rgv gr ints F Hl) as (x' & Ex' & Rx). destruct (Rgv gr' ints' F' Hl') as (y' & Ey' & Ry).
    assert (x' = x) by congruence. assert (y' = y) by congruence. subst x' y'. pose proof (file_inj _ _ _ Ig Rx Ry S). subst y.
    destruct (gv_all gr ints F Hl) as (z & Ez & Sz & Gz & _). destruct (gv_all gr' ints' F' Hl') as (w & Ew & Sw & Gw & _).
    assert (z = x) by congruence. assert (w = x) by congruence. subst z w. apply (list_eq (gv_get x)); [exact Gz|exact Gw|congruence].
  - destruct (Rgb gr ints F Hl) as (x' & Ex' & Rx). destruct (Rgb gr' ints' F' Hl') as (y' & Ey' & Ry).
    assert (x' = x) by congruence. assert (y' = y) by congruence. subst x' y'. pose proof (file_inj _ _ _ Ig Rx Ry S). subst y.
    destruct (gb_all gr ints F Hl) as (z & Ez & Sz & Gz & _). destruct (gb_all gr' ints' F' Hl') as (w & Ew & Sw & Gw & _).
    assert (z = x) by congruence. assert (w = x) by congruence. subst z w. apply (list_eq (gb_get x)); [exact Gz|exact Gw|congruence].
Qed.

Lemma ident_trees :
  (forall uninit uninit' l m h h0 k k0 x y, zlen l < 2 ^ 31 -> zlen m < 2 ^ 31 -> prefix_ok l -> prefix_ok m -> 0 <= uninit < 2 ^ 64 -> 0 <= uninit' < 2 ^ 64 ->
     bp_build uninit (bv_range l) h h0 = Ok x -> bp_build uninit' (bv_range m) k k0 = Ok y -> same_file bp_map x y -> l = m) /\
  (forall gr gr' uninit uninit' lt lt' v w x y, 2 * zlen v + 2 < 2 ^ 31 -> 2 * zlen w + 2 < 2 ^ 31 ->
     Forall (fun x => 0 <= x < 2 ^ 64) v -> Forall (fun x => 0 <= x < 2 ^ 64) w -> 0 <= uninit < 2 ^ 64 -> 0 <= uninit' < 2 ^ 64 ->
     tk_build gr uninit lt v = Ok x -> tk_build gr' uninit' lt' w = Ok y -> same_file tk_map x y -> v = w).
Proof.
  destruct all_inj as (_ & _ & _ & Ibp & _ & _ & _ & _ & _ & _ & _ & _ & Itk). destruct rt_trees as (Rbp & _ & Rtk). split.
  - intros uninit uninit' l m h h0 k k0 x y Hl Hm Pl Pm Hu Hu' Ex Ey S. destruct (Rbp uninit l h h0 Hl Pl Hu) as (x' & Ex' & Rx). destruct (Rbp uninit' m k k0 Hm Pm Hu') as (y' & Ey' & Ry).
    assert (x' = x) by congruence. assert (y' = y) by congruence. subst x' y'. pose proof (file_inj _ _ _ Ibp Rx Ry S). subst y.
    destruct (bp_build_ok l uninit h h0 Hl (proj1 (prefix_ok_nonneg l) Pl)) as (z & Ez & (Az & _) & _).
    destruct (bp_build_ok m uninit' k k0 Hm (proj1 (prefix_ok_nonneg m) Pm)) as (w & Ew & (Aw & _) & _).
    apply canonical_inj. congruence.
  - intros gr gr' uninit uninit' lt lt' v w x y Hl Hm Fl Fm Hu Hu' Ex Ey S. destruct (Rtk gr uninit lt v Hl Fl Hu) as (x' & Ex' & Rx). destruct (Rtk gr' uninit' lt' w Hm Fm Hu') as (y' & Ey' & Ry).
    assert (x' = x) by congruence. assert (y' = y) by congruence. subst x' y'. pose proof (file_inj _ _ _ Itk Rx Ry S). subst y.
    unfold tk_build in Ex, Ey. apply bind_inv in Ex. apply bind_inv in Ey. destruct Ex as (? & _ & Ex), Ey as (? & _ & Ey). congruence.
Qed.

(** ** cartesian_tree: the file says exactly where the minima are *)
Section Stack.
Context {T : Type} (comp : T -> T -> bool) (SWO : strict_weak_order comp).

(** the positions of the elements on the stack after [i] pushes *)
Fixpoint sidx (v : list T) (i : nat) : list nat :=
  match i with
  | O => []
  | S i => i :: filter (fun j => match nth_error v i, nth_error v j with Some x, Some y => negb (comp x y) | _, _ => false end) (sidx v i)
  end.
(** what they hold *)
Definition vals (v : list T) (js : list nat) : list T := flat_map (fun j => match nth_error v j with Some y => [y] | None => [] end) js.

Lemma swo_neg x y z : comp x y = false -> comp y z = false -> comp x z = false.
Proof.
  destruct SWO as (I & Tr & N). intros A B. destruct (comp x z) eqn:E; [|reflexivity]. destruct (comp y x) eqn:F.
  - rewrite (Tr y x z F E) in B. discriminate.
  - destruct (comp z y) eqn:G.
    + rewrite (Tr x z y E G) in A. discriminate.
    + destruct (N x y z A F B G). congruence.
Qed.

(** on the stack: nothing pushed later is smaller *)
Lemma sidx_in v i : forall j, In j (sidx v i) -> (j < i)%nat /\ forall k x y, (j <= k < i)%nat -> nth_error v k = Some x -> nth_error v j = Some y -> comp x y = false.
Proof.
  induction i as [|i IH]; intros j H; [contradiction|]. cbn [sidx] in H. destruct H as [<-|H].
  - split; [lia|]. intros k x y Hk Ex Ey. assert (k = i) by lia. subst k. assert (x = y) by congruence. subst y. apply SWO.
  - apply filter_In in H. destruct H as [H F]. destruct (IH j H) as [L A]. split; [lia|]. intros k x y Hk Ex Ey.
    destruct (Nat.eq_dec k i) as [->|]; [|apply (A k); auto; lia]. rewrite Ex, Ey in F. destruct (comp x y); [discriminate|reflexivity].
Qed.
Lemma dropw_filter v i x : nth_error v i = Some x -> forall js, (forall j, In j js -> (j < length v)%nat) ->
  (forall j k js1 js2 js3 y z, js = js1 ++ j :: js2 ++ k :: js3 -> nth_error v j = Some y -> nth_error v k = Some z -> comp y z = false) ->
  dropw comp x (vals v js) = vals v (filter (fun j => match nth_error v i, nth_error v j with Some x, Some y => negb (comp x y) | _, _ => false end) js).
Proof.
  intros Ex js. rewrite Ex. induction js as [|j js IH]; intros L S; [reflexivity|].
  assert (exists y, nth_error v j = Some y) as [y Ey].
  { destruct (nth_error v j) eqn:E; [eauto|]. apply nth_error_None in E. specialize (L j (or_introl eq_refl)). lia. }
  cbn [filter]. rewrite Ey. unfold vals. cbn [flat_map]. rewrite Ey. cbn [app dropw]. destruct (comp x y) eqn:C; cbn [negb].
  - apply IH; [intros; apply L; right; assumption|]. intros a b js1 js2 js3 p q -> Ep Eq. apply (S a b (j :: js1) js2 js3 p q); auto.
  - cbn [flat_map]. rewrite Ey. cbn [app]. f_equal. fold (vals v js). fold (vals v (filter (fun j => match nth_error v j with Some y => negb (comp x y) | None => false end) js)).
    f_equal. clear IH. assert (A : forall k, In k js -> exists z, nth_error v k = Some z /\ comp x z = false).
    { intros k Hk. assert (exists z, nth_error v k = Some z) as [z Ez].
      { destruct (nth_error v k) eqn:E; [eauto|]. apply nth_error_None in E. specialize (L k (or_intror Hk)). lia. }
      exists z. split; [exact Ez|]. apply in_split in Hk. destruct Hk as (u1 & u2 & ->).
      apply (swo_neg x y z C). apply (S j k [] u1 u2 y z); auto. }
    clear L S. induction js as [|k js IH]; [reflexivity|]. cbn [filter]. destruct (A k (or_introl eq_refl)) as (z & -> & ->). cbn [negb]. f_equal.
    apply IH. intros. apply A. right. assumption.
Qed.

Lemma sidx_sorted v i : forall j k js1 js2 js3, sidx v i = js1 ++ j :: js2 ++ k :: js3 -> (k < j)%nat.
Proof.
  induction i as [|i IH]; intros j k js1 js2 js3 E; [destruct js1; discriminate|]. cbn [sidx] in E.
  assert (F : forall P (l : list nat) js1 js2 js3, (forall j k js1 js2 js3, l = js1 ++ j :: js2 ++ k :: js3 -> (k < j)%nat) -> filter P l = js1 ++ j :: js2 ++ k :: js3 -> (k < j)%nat).
  { clear. intros P l. induction l as [|a l IHl]; intros js1 js2 js3 H E; [destruct js1; discriminate|]. cbn [filter] in E. destruct (P a).
    - destruct js1 as [|b js1]; cbn [app] in E.
      + assert (a = j) by congruence. subst a. assert (Hk : In k (filter P l)). { assert (filter P l = js2 ++ k :: js3) as -> by congruence. apply in_app_iff. right. left. reflexivity. }
        apply filter_In in Hk. destruct Hk as [Hk _]. apply in_split in Hk. destruct Hk as (u1 & u2 & ->). apply (H j k [] u1 u2). reflexivity.
      + apply (IHl js1 js2 js3); [|congruence]. intros p q a1 a2 a3 ->. apply (H p q (a :: a1) a2 a3). reflexivity.
    - apply (IHl js1 js2 js3); [|exact E]. intros p q a1 a2 a3 ->. apply (H p q (a :: a1) a2 a3). reflexivity. }
  destruct js1 as [|b js1]; cbn [app] in E.
  - assert (i = j) by congruence. subst j. assert (Hk : In k (filter (fun j => match nth_error v i with Some x => match nth_error v j with Some y => negb (comp x y) | None => false end | None => false end) (sidx v i))).
    { injection E as E. rewrite E. apply in_app_iff. right. left. reflexivity. }
    apply filter_In in Hk. destruct Hk as [Hk _]. apply (sidx_in v i k Hk).
  - injection E as _ E. exact (F _ _ _ _ _ IH E).
Qed.

Lemma stk_sidx v : forall i, (i <= length v)%nat -> stk comp [] (firstn i v) = vals v (sidx v i).
Proof.
  induction i as [|i IH]; intros H; [reflexivity|]. assert (exists x, nth_error v i = Some x) as [x Ex].
  { destruct (nth_error v i) eqn:E; [eauto|]. apply nth_error_None in E. lia. }
  rewrite (firstn_next v i x Ex), stk_snoc, IH by lia. cbn [sidx]. change (vals v (i :: ?js)) with ((match nth_error v i with Some y => [y] | None => [] end) ++ vals v js).
  unfold vals at 2. cbn [flat_map]. rewrite Ex at 1. cbn [app]. f_equal.
  apply (dropw_filter v i x Ex).
  - intros j Hj. apply sidx_in in Hj. lia.
  - intros j k js1 js2 js3 y z E Ey Ez. pose proof (sidx_sorted v i j k js1 js2 js3 E). assert (Hk : In k (sidx v i)) by (rewrite E; apply in_app_iff; right; right; apply in_app_iff; right; left; reflexivity).
    assert (Hj : In j (sidx v i)) by (rewrite E; apply in_app_iff; right; left; reflexivity).
    apply (proj2 (sidx_in v i k Hk) j y z); auto. apply sidx_in in Hj. lia.
Qed.
Lemma vals_len v js : (forall j, In j js -> (j < length v)%nat) -> length (vals v js) = length js.
Proof.
  induction js as [|j js IH]; intros H; [reflexivity|]. unfold vals. cbn [flat_map]. rewrite app_length. fold (vals v js). rewrite IH by (intros; apply H; right; assumption).
  destruct (nth_error v j) eqn:E; [reflexivity|]. apply nth_error_None in E. specialize (H j (or_introl eq_refl)). lia.
Qed.
Lemma dep_sidx v i : (i <= length v)%nat -> dep comp v i = zlen (sidx v i).
Proof. intros H. unfold dep. rewrite (stk_sidx v i H), vals_len; [reflexivity|]. intros j Hj. apply sidx_in in Hj. lia. Qed.

Lemma leftmost_unique v a b m m' : leftmost_min comp v a b m -> leftmost_min comp v a b m' -> m = m'.
Proof.
  intros (R & A & B) (R' & A' & B'). destruct (Nat.lt_trichotomy m m') as [H|[H|H]]; [|exact H|].
  - destruct (B' m); [lia|exact A].
  - destruct (B m'); [lia|exact A'].
Qed.
(** an element on the stack stays there unless the new one is the minimum *)
Lemma stays v i j x y : In j (sidx v i) -> nth_error v i = Some x -> nth_error v j = Some y -> (comp x y = false <-> leftmost_min comp v j i j).
Proof.
  intros H Ex Ey. destruct (sidx_in v i j H) as [L A]. split.
  - intros C. split; [lia|]. split; [|intros; lia]. exists y. split; [exact Ey|]. intros k z Hk Ez.
    destruct (Nat.eq_dec k i) as [->|]; [congruence|]. apply (A k); auto. lia.
  - intros (_ & (z & Ez & B) & _). assert (z = y) by congruence. subst z. apply (B i x); [lia|exact Ex].
Qed.
End Stack.

Lemma sidx_same {T U} (comp : T -> T -> bool) (comp' : U -> U -> bool) v w : strict_weak_order comp -> strict_weak_order comp' -> length v = length w ->
  (forall a b m, (a <= b)%nat -> (b < length v)%nat -> leftmost_min comp v a b m <-> leftmost_min comp' w a b m) ->
  forall i, (i <= length v)%nat -> sidx comp v i = sidx comp' w i.
Proof.
  intros O O' L H. induction i as [|i IH]; intros Hi; [reflexivity|]. cbn [sidx]. f_equal. rewrite <- IH by lia. apply filter_ext_in. intros j Hj.
  assert (Hj' := Hj). rewrite IH in Hj' by lia. pose proof (sidx_in comp O v i j Hj) as [Lj _].
  assert (exists x, nth_error v i = Some x) as [x Ex]. { destruct (nth_error v i) eqn:E; [eauto|]. apply nth_error_None in E. lia. }
  assert (exists x, nth_error v j = Some x) as [y Ey]. { destruct (nth_error v j) eqn:E; [eauto|]. apply nth_error_None in E. lia. }
  assert (exists x, nth_error w i = Some x) as [x' Ex']. { destruct (nth_error w i) eqn:E; [eauto|]. apply nth_error_None in E. lia. }
  assert (exists x, nth_error w j = Some x) as [y' Ey']. { destruct (nth_error w j) eqn:E; [eauto|]. apply nth_error_None in E. lia. }
  rewrite Ex, Ey, Ex', Ey'. f_equal. pose proof (stays comp O v i j x y Hj Ex Ey) as A. pose proof (stays comp' O' w i j x' y' Hj' Ex' Ey') as B.
  pose proof (H j i j ltac:(lia) ltac:(lia)) as C. destruct (comp x y) eqn:D, (comp' x' y') eqn:D'; auto.
  - assert (true = false) by (apply A, C, B; reflexivity). assumption.
  - symmetry. apply B, C, A. reflexivity.
Qed.
Lemma pops_dep {T} (comp : T -> T -> bool) v i x : nth_error v i = Some x -> Z.of_nat (pops comp (stk comp [] (firstn i v)) x) = dep comp v i + 1 - dep comp v (S i).
Proof.
  intros Ex. unfold dep, pops. rewrite (firstn_next v i x Ex), stk_snoc. cbn [length]. pose proof (dropw_len comp x (stk comp [] (firstn i v))). lia.
Qed.
Lemma pv_same {T U} (comp : T -> T -> bool) (comp' : U -> U -> bool) v w : length v = length w -> (forall i, (i <= length v)%nat -> dep comp v i = dep comp' w i) ->
  forall i, (i <= length v)%nat -> pv comp (firstn i v) = pv comp' (firstn i w).
Proof.
  intros L D. induction i as [|i IH]; intros Hi; [reflexivity|].
  assert (exists x, nth_error v i = Some x) as [x Ex]. { destruct (nth_error v i) eqn:E; [eauto|]. apply nth_error_None in E. lia. }
  assert (exists x, nth_error w i = Some x) as [x' Ex']. { destruct (nth_error w i) eqn:E; [eauto|]. apply nth_error_None in E. lia. }
  rewrite (firstn_next v i x Ex), (firstn_next w i x' Ex'), !pv_snoc, IH by lia. f_equal. f_equal.
  pose proof (pops_dep comp v i x Ex). pose proof (pops_dep comp' w i x' Ex'). rewrite (D i), (D (S i)) in * by lia. lia.
Qed.
Lemma seq_same {T U} (comp : T -> T -> bool) (comp' : U -> U -> bool) v w : strict_weak_order comp -> strict_weak_order comp' -> length v = length w ->
  (forall a b m, (a <= b)%nat -> (b < length v)%nat -> leftmost_min comp v a b m <-> leftmost_min comp' w a b m) -> seq_of comp v = seq_of comp' w.
Proof.
  intros O O' L H. assert (D : forall i, (i <= length v)%nat -> dep comp v i = dep comp' w i).
  { intros i Hi. rewrite !dep_sidx by (auto; lia). rewrite (sidx_same comp comp' v w O O' L H i Hi). reflexivity. }
  pose proof (pv_same comp comp' v w L D (length v) (Nat.le_refl _)) as P. rewrite firstn_all in P. rewrite L, firstn_all in P.
  specialize (D (length v) (Nat.le_refl _)). unfold dep in D. rewrite firstn_all in D. rewrite L, firstn_all in D. unfold seq_of. rewrite P.
  replace (length (stk comp [] v)) with (length (stk comp' [] w)) by lia. reflexivity.
Qed.

Lemma ident_cartesian : forall T U (comp : T -> T -> bool) (comp' : U -> U -> bool) gr gr' uninit uninit' e e' v w x y,
  strict_weak_order comp -> strict_weak_order comp' -> 2 * zlen v + 2 < 2 ^ 31 -> 2 * zlen w + 2 < 2 ^ 31 -> 0 <= uninit < 2 ^ 64 -> 0 <= uninit' < 2 ^ 64 ->
  ct_build gr uninit comp e v = Ok x -> ct_build gr' uninit' comp' e' w = Ok y ->
  (same_file ct_map x y <-> length v = length w /\
    forall a b m, (a <= b)%nat -> (b < length v)%nat -> leftmost_min comp v a b m <-> leftmost_min comp' w a b m).
Proof.
  intros T U comp comp' gr gr' uninit uninit' e e' v w x y O O' Hv Hw Hu Hu' Ex Ey. split.
  - intros S. destruct all_inj as (_ & _ & _ & _ & Ict & _). destruct rt_trees as (_ & Rct & _).
    destruct (Rct T comp gr uninit e v Hv Hu) as (x' & Ex' & Rx). destruct (Rct U comp' gr' uninit' e' w Hw Hu') as (y' & Ey' & Ry).
    assert (x' = x) by congruence. assert (y' = y) by congruence. subst x' y'. pose proof (file_inj _ _ _ Ict Rx Ry S). subst y.
    destruct (cartesian_rmq comp gr uninit e v O Hv) as (z & Ez & Sz & Gz). destruct (cartesian_rmq comp' gr' uninit' e' w O' Hw) as (t & Et & St & Gt).
    assert (z = x) by congruence. assert (t = x) by congruence. subst z t. assert (L : length v = length w) by (unfold zlen in *; lia). split; [exact L|].
    intros a b m Hab Hb. destruct (Gz a b Hab Hb) as (p & Ep & Hp). destruct (Gt a b Hab ltac:(lia)) as (q & Eq & Hq). assert (p = q) by (rewrite Ep in Eq; injection Eq; lia). subst q.
    split; intros H.
    + rewrite (leftmost_unique comp v a b m p H Hp). exact Hq.
    + rewrite (leftmost_unique comp' w a b m p H Hq). exact Hp.
  - intros [L H].
    assert (x = y); [|subst y; apply same_refl].
    destruct (repro_trees comp gr gr' uninit uninit' v) as [R _]. rewrite (R e e') in Ex.
    destruct (ct_build_bits comp gr' uninit' e' v) as (r & Er & Br). destruct (ct_build_bits comp' gr' uninit' e' w) as (r' & Er' & Br').
    rewrite (seq_same comp comp' v w O O' L H) in Br. congruence.
Qed.

Lemma ident_darray : exists x, darray_build false (bv_range [true; true; false]) = Ok x /\ darray_build false (bv_range [true; false; true]) = Ok x.
Proof. eexists. split; vm_compute; reflexivity. Qed.
Lemma ident_ct_witness : exists x, ct_build (fun c _ => 2 * c) 0 Z.ltb 0 [4; 9; 2; 9] = Ok x /\ ct_build (fun c _ => 2 * c) 0 Z.ltb 0 [1; 2; 0; 5] = Ok x.
Proof. eexists. split; vm_compute; reflexivity. Qed.
