(** Proofs about the limits of the inputs. *)
From Verif Require Import Base Spec Lib M_Broadword M_BitVector M_Darray M_EliasFano M_Gamma M_RsBitVector M_Util M_Bp M_Mapper.
From Verif Require Import S_BitVector S_Bp S_Mapper S_Limits P_BvLib P_BitVector P_RsBuild P_Builder P_Broadword2 P_Darray P_EliasFano2 P_Gamma P_Typed P_Mapper.

(** ** ceil_div *)
Lemma ceil_div64_ok a b : 0 <= a -> 0 < b -> a + b <= 2 ^ 64 -> least_multiple a b (ceil_div64 a b).
Proof.
  intros Ha Hb H. unfold ceil_div64. assert (E : sub64 (u64 (a + b)) 1 = a + b - 1).
  { destruct (Z.eq_dec (a + b) (2 ^ 64)) as [E|N]; [rewrite E; reflexivity|]. rewrite u64_small, sub64_ok by lia. reflexivity. }
  rewrite E. split.
  - pose proof (Z.div_mod (a + b - 1) b ltac:(lia)). pose proof (Z.mod_pos_bound (a + b - 1) b Hb). nia.
  - intros r Hr. assert ((a + b - 1) / b < r + 1); [|lia]. apply Z.div_lt_upper_bound; nia.
Qed.
Lemma ceil_div64_wrap a b : 0 <= a < 2 ^ 64 -> 0 < b < 2 ^ 64 -> 2 ^ 64 < a + b -> ceil_div64 a b = 0.
Proof.
  intros Ha Hb H. unfold ceil_div64, u64. replace ((a + b) mod 2 ^ 64) with (a + b - 2 ^ 64).
  2:{ apply Z.mod_unique with 1; lia. }
  rewrite sub64_ok by lia. apply Z.div_small. lia.
Qed.

(** ** the largest integers *)
Lemma gv_loop_app gr a : forall b high low, gv_loop gr (a ++ b) high low = do (high, low) <- gv_loop gr a high low; gv_loop gr b high low.
Proof.
  induction a as [|x a IH]; intros b high low; [reflexivity|]. cbn [app gv_loop].
  destruct (msb _); cbn [bind]; [|reflexivity]. destruct (shl _ _); cbn [bind]; [|reflexivity].
  destruct (append_bits _ _ _ _); cbn [bind]; [|reflexivity]. destruct (append1 _ _ _); cbn [bind]; [|reflexivity]. apply IH.
Qed.
Lemma gb_loop_app gr a : forall b high low, gb_loop gr (a ++ b) high low = do (high, low) <- gb_loop gr a high low; gb_loop gr b high low.
Proof.
  induction a as [|x a IH]; intros b high low; [reflexivity|]. cbn [app gb_loop].
  destruct (msb _); cbn [bind]; [|reflexivity]. unfold assert_. destruct (0 <? _); cbn [bind]; [|reflexivity].
  destruct (append1 _ _ _); cbn [bind]; [|reflexivity]. destruct (shl _ _); cbn [bind]; [|reflexivity].
  destruct (append_bits _ _ _ _); cbn [bind]; [|reflexivity]. apply IH.
Qed.

Lemma gv_limit gr pre post : Forall (fun x => 0 <= x < 2 ^ 64 - 1) pre -> gv_build gr (pre ++ (2 ^ 64 - 1) :: post) = Ub AssertFailed.
Proof.
  intros F. unfold gv_build. destruct (new_builder_ok 0 false ltac:(lia)) as (low & -> & B). cbn [bind].
  destruct (append1_ok gr d64_new _ 0 d64_new_ok ltac:(lia)) as (h0 & -> & I0). cbn [bind]. rewrite gv_loop_app.
  destruct (gv_loop_ok gr pre h0 low _ F B _ I0) as (h1 & low1 & -> & _). reflexivity.
Qed.
Lemma gb_limit gr pre x post : Forall (fun x => 0 <= x < 2 ^ 64 - 2) pre -> 2 ^ 64 - 2 <= x < 2 ^ 64 -> gb_build gr (pre ++ x :: post) = Ub AssertFailed.
Proof.
  intros F Hx. unfold gb_build. destruct (new_builder_ok 0 false ltac:(lia)) as (low & -> & B). cbn [bind].
  destruct (append1_ok gr d64_new _ 0 d64_new_ok ltac:(lia)) as (h0 & -> & I0). cbn [bind]. rewrite gb_loop_app.
  destruct (gb_loop_ok gr pre h0 low _ F B _ I0) as (h1 & low1 & -> & _). cbn [bind gb_loop].
  assert (C : x = 2 ^ 64 - 2 \/ x = 2 ^ 64 - 1) by lia. destruct C as [-> | ->]; reflexivity.
Qed.
Lemma efc_limit gr pre post : Forall (fun x => 0 <= x < 2 ^ 64 - 1) pre -> efc_build gr (pre ++ (2 ^ 64 - 1) :: post) = Ub AssertFailed.
Proof.
  intros F. unfold efc_build. assert (C : forall s, code_sum (pre ++ (2 ^ 64 - 1) :: post) s = Ub AssertFailed); [|rewrite C; reflexivity].
  induction F as [|x pre Hx F IH]; intros s; [reflexivity|]. cbn [app code_sum]. rewrite u64_small by lia.
  rewrite msb_correct by (unfold is_u64; lia). cbn [bind]. apply IH.
Qed.

(** ** truncated files *)
Lemma firstn_In {A} (x : A) n l : In x (firstn n l) -> In x l.
Proof. intros H. rewrite <- (firstn_skipn n l). apply in_or_app. auto. Qed.
Section Short.
Context (addr : Z).

Lemma read_prefix mem post size signed cur x : read_as false addr mem size signed cur = Ok x ->
  read_as false addr (mem ++ post) size signed cur = Ok x /\ 0 <= cur /\ cur + size <= zlen mem.
Proof.
  unfold read_as. cbn [andb]. destruct (_ && _) eqn:E; [|discriminate]. intros H. pose proof (zlen_nonneg post). rewrite zlen_app.
  assert (E' : (0 <=? cur) && (cur + size <=? zlen mem + zlen post) = true) by lia. rewrite E'. split; [|lia]. rewrite <- H. do 2 f_equal.
  rewrite skipn_app, firstn_app. replace (Z.to_nat size - length (skipn (Z.to_nat cur) mem))%nat with 0%nat.
  2:{ rewrite skipn_length. unfold zlen in E. lia. }
  cbn [firstn]. apply app_nil_r.
Qed.
Lemma elems_prefix mem post size signed : forall n cur xs, read_elems false addr mem size signed n cur = Ok xs ->
  read_elems false addr (mem ++ post) size signed n cur = Ok xs /\ length xs = n /\ (cur <= zlen mem -> cur + size * Z.of_nat n <= zlen mem).
Proof.
  induction n as [|n IH]; intros cur xs; cbn [read_elems].
  - intros H. injection H as <-. repeat split. lia.
  - intros H. destruct (read_as _ _ _ _ _ _) as [x|] eqn:E; [|discriminate]. cbn [bind] in H.
    destruct (read_elems _ _ _ _ _ n _) as [ys|] eqn:Ey; [|discriminate]. cbn [bind] in H. injection H as <-.
    destruct (read_prefix _ post _ _ _ _ E) as (E1 & H1 & H2). rewrite E1. cbn [bind].
    destruct (IH _ _ Ey) as (-> & H3 & H4). cbn [bind length]. repeat split; lia.
Qed.

Lemma of_bytes_nonneg bs : Forall (fun b => 0 <= b) bs -> 0 <= of_bytes bs.
Proof. induction 1; cbn [of_bytes]; lia. Qed.
Lemma read_nonneg mem size cur x : Forall (fun b => 0 <= b) mem -> read_as false addr mem size false cur = Ok x -> 0 <= x.
Proof.
  intros F. unfold read_as. cbn [andb]. destruct (_ && _); [|discriminate]. unfold of_bytes_as. cbn [andb]. intros H. injection H as <-. apply of_bytes_nonneg.
  apply Forall_forall. intros b Hb. apply firstn_In in Hb. rewrite Forall_forall in F. apply F. rewrite <- (firstn_skipn (Z.to_nat cur) mem). apply in_or_app. auto.
Qed.

Lemma map_prefix mem post :
  (forall l cur d c, map_visit false addr mem l cur = Ok (d, c) -> map_visit false addr (mem ++ post) l cur = Ok (d, c)) /\
  (forall ms cur ds c, map_members false addr mem ms cur = Ok (ds, c) -> map_members false addr (mem ++ post) ms cur = Ok (ds, c)).
Proof.
  apply layout_members_ind.
  - intros size sg cur d c; cbn [map_visit]. unfold map_pod. destruct (read_as _ _ _ _ _ _) as [x|] eqn:E; [|discriminate]. cbn [bind].
    intros H. injection H as <- <-. destruct (read_prefix _ post _ _ _ _ E) as (-> & _). reflexivity.
  - intros size sg cur d c; cbn [map_visit]. unfold map_vec, map_pod. destruct (read_as _ _ _ _ _ _) as [n|] eqn:E; [|discriminate]. cbn [bind].
    destruct (read_elems _ _ _ _ _ _ _) as [xs|] eqn:Ex; [|discriminate]. cbn [bind]. intros H. injection H as <- <-.
    destruct (read_prefix _ post _ _ _ _ E) as (-> & _). cbn [bind]. destruct (elems_prefix _ post _ _ _ _ _ Ex) as (-> & _). reflexivity.
  - intros ms IH cur d c; cbn [map_visit]. destruct (map_members _ _ _ _ _) as [[ds c']|] eqn:E; [|discriminate]. cbn [bind]. intros H. injection H as <- <-.
    rewrite (IH _ _ _ E). reflexivity.
  - intros cur ds c; cbn [map_members]. auto.
  - intros nm l IHl ms IHms cur ds c; cbn [map_members]. destruct (map_visit _ _ _ _ _) as [[d c1]|] eqn:E1; [|discriminate]. cbn [bind].
    destruct (map_members _ _ _ _ _) as [[ds' c2]|] eqn:E2; [|discriminate]. cbn [bind]. intros H. injection H as <- <-.
    rewrite (IHl _ _ _ E1). cbn [bind]. rewrite (IHms _ _ _ E2). reflexivity.
Qed.

Lemma map_inside mem : Forall (fun b => 0 <= b) mem ->
  (forall l cur d c, map_visit false addr mem l cur = Ok (d, c) -> typed l d -> frozen_size l d < 2 ^ 64 -> cur <= zlen mem -> c <= zlen mem) /\
  (forall ms cur ds c, map_members false addr mem ms cur = Ok (ds, c) -> typed_members ms ds -> frozen_sizes ms ds < 2 ^ 64 -> cur <= zlen mem -> c <= zlen mem).
Proof.
  intros F. apply layout_members_ind.
  - intros size sg cur d c; cbn [map_visit]. unfold map_pod. destruct (read_as _ _ _ _ _ _) as [x|] eqn:E; [|discriminate]. cbn [bind].
    intros H _ _ _. injection H as <- <-. destruct (read_prefix _ [] _ _ _ _ E) as (_ & H). lia.
  - intros size sg cur d c; cbn [map_visit]. unfold map_vec, map_pod. destruct (read_as _ _ _ _ _ _) as [n|] eqn:E; [|discriminate]. cbn [bind].
    destruct (read_elems _ _ _ _ _ _ _) as [xs|] eqn:Ex; [|discriminate]. cbn [bind]. intros H T Hb _. injection H as <- <-. cbn [typed frozen_size] in *.
    pose proof (read_nonneg _ _ _ _ F E) as Hn. destruct (read_prefix _ [] _ _ _ _ E) as (_ & H0 & H1).
    destruct (elems_prefix _ [] _ _ _ _ _ Ex) as (_ & H2 & H3). specialize (H3 H1). rewrite Z2Nat.id in H3 by lia.
    assert (zlen xs = n) by (unfold zlen; lia). pose proof (zlen_nonneg xs). rewrite u64_small by nia. lia.
  - intros ms IH cur d c; cbn [map_visit]. destruct (map_members _ _ _ _ _) as [[ds c']|] eqn:E; [|discriminate]. cbn [bind]. intros H T Hb Hc. injection H as <- <-.
    eapply IH; eauto.
  - intros cur ds c; cbn [map_members]. intros H. injection H as <- <-. auto.
  - intros nm l IHl ms IHms cur ds c; cbn [map_members]. destruct (map_visit _ _ _ _ _) as [[d c1]|] eqn:E1; [|discriminate]. cbn [bind].
    destruct (map_members _ _ _ _ _) as [[ds' c2]|] eqn:E2; [|discriminate]. cbn [bind]. intros H T Hb Hc. injection H as <- <-. cbn [typed_members frozen_sizes] in *.
    destruct T as (T1 & T2). pose proof (proj1 frozen_nonneg _ _ T1). pose proof (proj2 frozen_nonneg _ _ T2).
    eapply IHms; eauto; [lia|]. eapply IHl; eauto. lia.
Qed.

Lemma read_out mem size signed cur r : read_as false addr mem size signed cur = Ub r -> r = OutOfBounds.
Proof. unfold read_as. cbn [andb]. destruct (_ && _); [discriminate|]. intros H. injection H as <-. reflexivity. Qed.
Lemma elems_out mem size signed n : forall cur r, read_elems false addr mem size signed n cur = Ub r -> r = OutOfBounds.
Proof.
  induction n as [|n IH]; intros cur r; cbn [read_elems]; [discriminate|]. destruct (read_as _ _ _ _ _ _) eqn:E; cbn [bind].
  - destruct (read_elems _ _ _ _ _ _ _) eqn:E2; cbn [bind]; [discriminate|]. intros H. injection H as <-. eauto.
  - intros H. injection H as <-. eapply read_out; eauto.
Qed.
Lemma map_out mem : (forall l cur r, map_visit false addr mem l cur = Ub r -> r = OutOfBounds) /\
  (forall ms cur r, map_members false addr mem ms cur = Ub r -> r = OutOfBounds).
Proof.
  apply layout_members_ind.
  - intros size sg cur r; cbn [map_visit]. unfold map_pod. destruct (read_as _ _ _ _ _ _) eqn:E; cbn [bind]; [discriminate|]. intros H. injection H as <-. eapply read_out; eauto.
  - intros size sg cur r; cbn [map_visit]. unfold map_vec, map_pod. destruct (read_as _ _ _ _ _ _) eqn:E; cbn [bind].
    + destruct (read_elems _ _ _ _ _ _ _) eqn:E2; cbn [bind]; [discriminate|]. intros H. injection H as <-. eapply elems_out; eauto.
    + intros H. injection H as <-. eapply read_out; eauto.
  - intros ms IH cur r; cbn [map_visit]. destruct (map_members _ _ _ _ _) as [[]|] eqn:E; cbn [bind]; [discriminate|]. intros H. injection H as <-. eauto.
  - intros cur r; cbn [map_members]. discriminate.
  - intros nm l IHl ms IHms cur r; cbn [map_members]. destruct (map_visit _ _ _ _ _) as [[]|] eqn:E; cbn [bind]; [|intros H; injection H as <-; eauto].
    destruct (map_members _ _ _ _ _) as [[]|] eqn:E2; cbn [bind]; [discriminate|]. intros H. injection H as <-. eauto.
Qed.
End Short.

Lemma to_bytes_nonneg n : forall x, Forall (fun b => 0 <= b) (to_bytes n x).
Proof. induction n as [|n IH]; intros x; cbn [to_bytes]; constructor; auto. apply Z.mod_pos_bound. lia. Qed.
Lemma image_nonneg : (forall l d, Forall (fun b => 0 <= b) (image l d)) /\ (forall ms ds, Forall (fun b => 0 <= b) (images ms ds)).
Proof.
  apply layout_members_ind.
  - intros size sg [x|xs|ds]; cbn [image]; try apply Forall_nil. apply to_bytes_nonneg.
  - intros size sg [x|xs|ds]; cbn [image]; try apply Forall_nil. apply Forall_app. split; [apply to_bytes_nonneg|]. induction xs; cbn [flat_map]; [constructor|]. apply Forall_app. auto using to_bytes_nonneg.
  - intros ms IH [x|xs|ds]; cbn [image]; try apply Forall_nil. auto.
  - intros [|d ds]; cbn [images]; constructor.
  - intros nm l IHl ms IHms [|d ds]; cbn [images]; try apply Forall_nil. apply Forall_app. auto.
Qed.

Lemma truncated {A} (M : mappable A) x flags addr k :
  typed (layout_of M) (data_of M x) -> 8 + frozen_size (layout_of M) (data_of M x) < 2 ^ 64 -> 0 <= flags < 2 ^ 64 ->
  let bytes := fst (freeze (layout_of M) (data_of M x) flags) in
  (k < length bytes)%nat -> map_at false addr (firstn k bytes) (layout_of M) 0 = Ub OutOfBounds.
Proof.
  intros T Hb Hf bytes Hk. destruct (freeze_map_gen false addr _ _ flags [] [] T Hb Hf) as (H1 & H2 & H3). cbv zeta in *. cbn [negb orb app] in H3.
  rewrite app_nil_r in H3. change (zlen (@nil Z)) with 0 in H3. fold bytes in H1, H3. set (l := layout_of M) in *. set (d := data_of M x) in *.
  pose proof (proj1 frozen_nonneg _ _ T) as N.
  assert (EB : bytes = to_bytes 8 flags ++ image l d).
  { unfold bytes, freeze, freeze_pod. change (u64 (snd ([], 0) + 8)) with 8. rewrite (proj1 freeze_ok) by (auto; cbn [snd]; lia). reflexivity. }
  assert (NB : Forall (fun b => 0 <= b) (firstn k bytes)).
  { apply Forall_forall. intros b Hin. apply firstn_In in Hin. revert b Hin. apply Forall_forall. rewrite EB. apply Forall_app. split; [apply to_bytes_nonneg|apply image_nonneg]. }
  assert (LK : zlen (firstn k bytes) = Z.of_nat k) by (unfold zlen; rewrite firstn_length; lia).
  assert (LB : zlen bytes = 8 + frozen_size l d) by lia. unfold map_at, map_pod in *.
  destruct (read_as false addr (firstn k bytes) 8 false 0) as [f|r] eqn:E.
  2:{ cbn [bind]. rewrite (read_out _ _ _ _ _ _ E). reflexivity. }
  destruct (read_prefix _ _ (skipn k bytes) _ _ _ _ E) as (E' & _ & I8). rewrite firstn_skipn in E'. rewrite E' in H3. cbn [bind] in *.
  destruct (map_visit false addr (firstn k bytes) l (0 + 8)) as [[d' c]|r] eqn:Ev.
  2:{ cbn [bind]. rewrite (proj1 (map_out _ _) _ _ _ Ev). reflexivity. }
  exfalso. pose proof (proj1 (map_prefix addr _ (skipn k bytes)) _ _ _ _ Ev) as Ev'. rewrite firstn_skipn in Ev'. rewrite Ev' in H3. cbn [bind] in H3. injection H3 as <- Hc.
  pose proof (proj1 (map_inside addr _ NB) _ _ _ _ Ev T ltac:(lia) ltac:(lia)). unfold zlen in *. lia.
Qed.

(** ** members left uninitialised *)
Lemma bp_uninit u v l h h0 : l <> [] -> bp_build u (bv_range l) h h0 = bp_build v (bv_range l) h h0.
Proof.
  intros N. unfold bp_build. rewrite bv_range_ok. unfold rs_build. destruct (build_pairs _) as [p|]; cbn [bind]; [|reflexivity].
  destruct (if h then _ else _) as [hs|]; cbn [bind]; [|reflexivity]. destruct (if h0 then _ else _) as [hs0|]; cbn [bind]; [|reflexivity].
  unfold build_min_tree. cbn [rs_bv canonical bv_size]. assert (0 < zlen l) by (destruct l; [congruence|rewrite zlen_cons; pose proof (zlen_nonneg l); lia]).
  replace (zlen l =? 0) with false by lia. reflexivity.
Qed.
Lemma same_bytes {A} (M : mappable A) x y flags : roundtrips M x -> roundtrips M y -> 0 <= flags < 2 ^ 64 ->
  fst (freeze (layout_of M) (data_of M x) flags) = fst (freeze (layout_of M) (data_of M y) flags) -> data_of M x = data_of M y.
Proof.
  intros Hx Hy Hf H. destruct (Hx flags 0 [] [] Hf) as (bx & wx & Ex & _ & Rx). destruct (Hy flags 0 [] [] Hf) as (b & w & Ey & _ & Ry).
  rewrite Ex, Ey in H. cbn [fst] in H. subst b. rewrite Ry in Rx. congruence.
Qed.
Lemma bp_empty_image u v h h0 flags : 0 <= u < 2 ^ 64 -> 0 <= v < 2 ^ 64 -> u <> v -> 0 <= flags < 2 ^ 64 -> exists x y,
  bp_build u (bv_range []) h h0 = Ok x /\ bp_build v (bv_range []) h h0 = Ok y /\
  fst (freeze (layout_of bp_map) (data_of bp_map x) flags) <> fst (freeze (layout_of bp_map) (data_of bp_map y) flags).
Proof.
  intros Hu Hv N Hf. assert (P : prefix_ok []) by (intros p Hp; change (zlen (@nil bool)) with 0 in Hp; replace p with 0 by lia; vm_compute; discriminate).
  destruct (proj1 rt_trees u [] h h0 eq_refl P Hu) as (x & Ex & Rx). destruct (proj1 rt_trees v [] h h0 eq_refl P Hv) as (y & Ey & Ry).
  exists x, y. split; [exact Ex|]. split; [exact Ey|]. intros H. apply same_bytes in H; auto. apply all_inj in H. subst y.
  clear Rx Ry. unfold bp_build in *. destruct (rs_build (bv_range []) h h0) as [rs|] eqn:E; [|discriminate]. cbn [bind] in *.
  assert (S : bv_size (rs_bv rs) = 0).
  { unfold rs_build in E. destruct (build_pairs _); [|discriminate]. cbn [bind] in E. destruct (if h then _ else _); [|discriminate]. cbn [bind] in E.
    destruct (if h0 then _ else _); [|discriminate]. injection E as <-. reflexivity. }
  unfold build_min_tree in *. rewrite S in *. cbn [Z.eqb] in *. congruence.
Qed.
Lemma efl_limit : efl_build (fun c _ => 2 * c) [2 ^ 64 - 1] = Ub AssertFailed.
Proof. reflexivity. Qed.
