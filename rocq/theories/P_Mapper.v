(** Proofs about mapper. *)
From Verif Require Import Base Spec Lib S_BitVector P_BvLib P_RsBuild.
From Verif Require Import M_BitVector M_RsBitVector M_Darray M_EliasFano M_Gamma M_Util M_Bp M_Cartesian M_Topk M_Mapper S_Mapper.

Scheme layout_mut := Induction for layout Sort Prop
with members_mut := Induction for members Sort Prop.
Combined Scheme layout_members_ind from layout_mut, members_mut.

(** ** bytes *)
Lemma to_bytes_len n x : length (to_bytes n x) = n.
Proof. revert x. induction n as [|n IH]; intros x; cbn; [auto|]. f_equal. apply IH. Qed.
Lemma zlen_to_bytes n x : zlen (to_bytes n x) = Z.of_nat n.
Proof. unfold zlen. rewrite to_bytes_len. reflexivity. Qed.
Lemma of_to_bytes n : forall x, of_bytes (to_bytes n x) = x mod 2 ^ (8 * Z.of_nat n).
Proof.
  induction n as [|n IH]; intros x.
  - cbn. rewrite Z.mod_1_r. reflexivity.
  - cbn [to_bytes of_bytes]. rewrite IH. replace (8 * Z.of_nat (S n)) with (8 + 8 * Z.of_nat n) by lia.
    rewrite Z.pow_add_r by lia. change (2 ^ 8) with 256. rewrite Z.rem_mul_r by lia. reflexivity.
Qed.
Lemma of_bytes_as_ok size signed x : 0 < size -> in_type size signed x ->
  of_bytes_as signed size (to_bytes (Z.to_nat size) x) = x.
Proof.
  intros Hs Hx. unfold of_bytes_as, in_type in *. rewrite of_to_bytes, Z2Nat.id by lia.
  assert (P : 2 ^ (8 * size) = 2 * 2 ^ (8 * size - 1)) by (rewrite <- Z.pow_succ_r by lia; f_equal; lia).
  rewrite P in *. set (h := 2 ^ (8 * size - 1)) in *. assert (0 < h) by (apply Z.pow_pos_nonneg; lia). clearbody h. clear P.
  destruct signed; cbn [andb].
  - destruct (Z_lt_ge_dec x 0).
    + replace (x mod (2 * h)) with (x + 2 * h). 2:{ apply (Z.mod_unique_pos x (2 * h) (-1)); lia. }
      replace (h <=? x + 2 * h) with true by lia. lia.
    + rewrite Z.mod_small by lia. replace (h <=? x) with false by lia. reflexivity.
  - apply Z.mod_small. lia.
Qed.

(** ** the image of the members *)
Fixpoint image (l : layout) (d : data) : list Z :=
  match l, d with
  | LPod size _, DPod x => to_bytes (Z.to_nat size) x
  | LVec size _, DVec xs => to_bytes 8 (zlen xs) ++ flat_map (to_bytes (Z.to_nat size)) xs
  | LObj ms, DObj ds => images ms ds
  | _, _ => []
  end
with images (ms : members) (ds : datas) : list Z :=
  match ms, ds with
  | MCons _ l ms, DCons d ds => image l d ++ images ms ds
  | _, _ => []
  end.

Lemma elems_len size xs : 0 < size -> zlen (flat_map (to_bytes (Z.to_nat size)) xs) = size * zlen xs.
Proof.
  intros Hs. induction xs as [|x xs IH]; [cbn [flat_map]; rewrite !zlen_nil; lia|]. cbn [flat_map]. rewrite zlen_app, zlen_cons, IH, zlen_to_bytes.
  rewrite Z2Nat.id; lia.
Qed.
Lemma image_len : (forall l d, typed l d -> zlen (image l d) = frozen_size l d) /\
  (forall ms ds, typed_members ms ds -> zlen (images ms ds) = frozen_sizes ms ds).
Proof.
  apply layout_members_ind.
  - intros size sg [x|xs|ds] H; cbn in *; try contradiction. unfold zlen. rewrite to_bytes_len. lia.
  - intros size sg [x|xs|ds] H; cbn [typed image frozen_size] in *; try contradiction. rewrite zlen_app, elems_len by tauto. reflexivity.
  - intros ms IH [x|xs|ds] H; cbn in *; try contradiction. auto.
  - intros [|d ds] H; cbn in *; try contradiction. reflexivity.
  - intros nm l IHl ms IHms [|d ds] H; cbn [typed_members images frozen_sizes] in *; try contradiction. rewrite zlen_app, IHl, IHms by tauto. reflexivity.
Qed.
Lemma frozen_nonneg : (forall l d, typed l d -> 0 <= frozen_size l d) /\ (forall ms ds, typed_members ms ds -> 0 <= frozen_sizes ms ds).
Proof.
  split.
  - intros l d H. rewrite <- (proj1 image_len) by auto. apply zlen_nonneg.
  - intros l d H. rewrite <- (proj2 image_len) by auto. apply zlen_nonneg.
Qed.

Lemma freeze_ok :
  (forall l d, typed l d -> forall s, 0 <= snd s -> snd s + frozen_size l d < 2 ^ 64 ->
     freeze_visit l d s = (fst s ++ image l d, snd s + frozen_size l d)) /\
  (forall ms ds, typed_members ms ds -> forall s, 0 <= snd s -> snd s + frozen_sizes ms ds < 2 ^ 64 ->
     freeze_members ms ds s = (fst s ++ images ms ds, snd s + frozen_sizes ms ds)).
Proof.
  apply layout_members_ind.
  - intros size sg [x|xs|ds] H s Hs Hb; cbn in *; try contradiction. unfold freeze_pod. rewrite u64_small by lia. reflexivity.
  - intros size sg [x|xs|ds] H s Hs Hb; cbn [typed image frozen_size freeze_visit] in *; try contradiction.
    unfold freeze_vec, freeze_pod. cbn [fst snd]. pose proof (zlen_nonneg xs).
    assert (0 <= size * zlen xs) by (apply Z.mul_nonneg_nonneg; lia). rewrite (Z.mul_comm (zlen xs)). 
    rewrite (u64_small (snd s + 8)), (u64_small (size * zlen xs)), u64_small by lia.
    rewrite firstn_all2. 2:{ pose proof (elems_len size xs ltac:(lia)) as L. unfold zlen in L at 1. lia. }
    rewrite <- app_assoc. f_equal. lia.
  - intros ms IH [x|xs|ds] H s Hs Hb; cbn [typed image frozen_size freeze_visit] in *; try contradiction. auto.
  - intros [|d ds] H s Hs Hb; cbn [typed_members images frozen_sizes freeze_members] in *; try contradiction. destruct s; cbn. rewrite app_nil_r. f_equal. lia.
  - intros nm l IHl ms IHms [|d ds] H s Hs Hb; cbn [typed_members images frozen_sizes freeze_members] in *; try contradiction.
    destruct H as (H1 & H2). pose proof (proj1 frozen_nonneg l d H1). pose proof (proj2 frozen_nonneg ms ds H2).
    rewrite IHl by (auto; lia). rewrite IHms by (auto; cbn; lia). cbn [fst snd]. rewrite <- app_assoc. f_equal. lia.
Qed.

(** ** reading back *)
Section Read.
Context (strict : bool) (addr : Z).

Lemma read_ok pre post size signed x : 0 < size -> in_type size signed x ->
  read_as strict addr (pre ++ to_bytes (Z.to_nat size) x ++ post) size signed (zlen pre) =
  if negb strict || ((addr + zlen pre) mod size =? 0) then Ok x else Ub Misaligned.
Proof.
  intros Hs Hx. unfold read_as. pose proof (zlen_nonneg pre). pose proof (zlen_nonneg post).
  assert (V : (0 <=? zlen pre) && (zlen pre + size <=? zlen (pre ++ to_bytes (Z.to_nat size) x ++ post)) = true).
  { rewrite !zlen_app, zlen_to_bytes. lia. }
  rewrite V. replace (skipn (Z.to_nat (zlen pre)) (pre ++ to_bytes (Z.to_nat size) x ++ post)) with (to_bytes (Z.to_nat size) x ++ post).
  2:{ unfold zlen. rewrite Nat2Z.id, skipn_app, skipn_all, Nat.sub_diag. reflexivity. }
  replace (firstn (Z.to_nat size) (to_bytes (Z.to_nat size) x ++ post)) with (to_bytes (Z.to_nat size) x).
  2:{ rewrite firstn_app, to_bytes_len, Nat.sub_diag, app_nil_r, firstn_all2 by (rewrite to_bytes_len; lia). reflexivity. }
  rewrite of_bytes_as_ok by auto. destruct strict; cbn [negb andb orb]; [|reflexivity]. destruct ((addr + zlen pre) mod size =? 0); reflexivity.
Qed.

Lemma read_elems_ok size signed : 0 < size -> forall xs pre post, Forall (in_type size signed) xs ->
  read_elems strict addr (pre ++ flat_map (to_bytes (Z.to_nat size)) xs ++ post) size signed (length xs) (zlen pre) =
  if negb strict || ((zlen xs =? 0) || ((addr + zlen pre) mod size =? 0)) then Ok xs else Ub Misaligned.
Proof.
  intros Hs. induction xs as [|x xs IH]; intros pre post H.
  - cbn. rewrite orb_true_r. reflexivity.
  - inversion H as [|? ? Hx Hxs]; subst. cbn [read_elems length flat_map]. rewrite <- app_assoc, read_ok by auto.
    assert (Z1 : zlen (x :: xs) =? 0 = false) by (rewrite zlen_cons; pose proof (zlen_nonneg xs); lia). rewrite Z1. cbn [orb].
    destruct (negb strict || ((addr + zlen pre) mod size =? 0)) eqn:A; [|reflexivity]. cbn [bind].
    rewrite app_assoc. replace (zlen pre + size) with (zlen (pre ++ to_bytes (Z.to_nat size) x)).
    2:{ rewrite zlen_app, zlen_to_bytes. lia. }
    rewrite IH by auto. rewrite zlen_app, zlen_to_bytes, Z2Nat.id by lia.
    replace ((addr + (zlen pre + size)) mod size) with ((addr + zlen pre) mod size).
    2:{ rewrite Z.add_assoc. symmetry. rewrite <- (Z.mul_1_l size) at 1. apply Z_mod_plus_full. }
    destruct strict; cbn [negb orb andb] in *; [rewrite A, orb_true_r|]; reflexivity.
Qed.

Lemma in_u64 n : 0 <= n < 2 ^ 64 -> in_type 8 false n.
Proof. intros H. exact H. Qed.

Lemma map_ok :
  (forall l d, typed l d -> frozen_size l d < 2 ^ 64 -> forall pre post,
     map_visit strict addr (pre ++ image l d ++ post) l (zlen pre) =
     if negb strict || aligned l d (addr + zlen pre) then Ok (d, zlen pre + frozen_size l d) else Ub Misaligned) /\
  (forall ms ds, typed_members ms ds -> frozen_sizes ms ds < 2 ^ 64 -> forall pre post,
     map_members strict addr (pre ++ images ms ds ++ post) ms (zlen pre) =
     if negb strict || aligned_members ms ds (addr + zlen pre) then Ok (ds, zlen pre + frozen_sizes ms ds) else Ub Misaligned).
Proof.
  apply layout_members_ind.
  - intros size sg [x|xs|ds] H Hb pre post; cbn [typed image frozen_size map_visit aligned] in *; try contradiction. unfold map_pod.
    rewrite read_ok by tauto. destruct (negb strict || _); reflexivity.
  - intros size sg [x|xs|ds] H Hb pre post; cbn [typed image frozen_size map_visit aligned] in *; try contradiction. unfold map_vec, map_pod.
    destruct H as (Hs & Hxs). pose proof (zlen_nonneg xs). assert (zlen xs <= size * zlen xs) by nia.
    rewrite <- app_assoc. rewrite (read_ok pre _ 8 false) by (try apply in_u64; lia).
    destruct (negb strict || ((addr + zlen pre) mod 8 =? 0)) eqn:A.
    2:{ destruct strict; cbn [negb orb] in *; [rewrite A; reflexivity|discriminate]. }
    cbn [bind]. rewrite app_assoc. replace (zlen pre + 8) with (zlen (pre ++ to_bytes 8 (zlen xs))) by (rewrite zlen_app; reflexivity).
    change (Z.to_nat 8) with 8%nat. replace (Z.to_nat (zlen xs)) with (length xs) by (unfold zlen; lia). rewrite read_elems_ok by auto.
    rewrite zlen_app. change (zlen (to_bytes 8 (zlen xs))) with 8. rewrite (Z.add_assoc addr).
    rewrite (Z.mul_comm (zlen xs)), u64_small by lia.
    destruct strict; cbn [negb orb andb] in *; [rewrite A; cbn [andb]; destruct (_ || _); cbn [bind]|cbn [bind]]; try reflexivity; do 2 f_equal; lia.
  - intros ms IH [x|xs|ds] H Hb pre post; cbn [typed image frozen_size map_visit aligned] in *; try contradiction.
    rewrite IH by auto. destruct (negb strict || _); reflexivity.
  - intros [|d ds] H Hb pre post; cbn [typed_members images frozen_sizes map_members aligned_members] in *; try contradiction.
    rewrite orb_true_r, Z.add_0_r. reflexivity.
  - intros nm l IHl ms IHms [|d ds] H Hb pre post; cbn [typed_members images frozen_sizes map_members aligned_members] in *; try contradiction.
    destruct H as (H1 & H2). pose proof (proj1 frozen_nonneg l d H1). pose proof (proj2 frozen_nonneg ms ds H2).
    rewrite <- app_assoc, IHl by (auto; lia). destruct (negb strict || aligned l d (addr + zlen pre)) eqn:A.
    2:{ destruct strict; cbn [negb orb] in *; [rewrite A; reflexivity|discriminate]. }
    cbn [bind]. rewrite app_assoc. replace (zlen pre + frozen_size l d) with (zlen (pre ++ image l d)) by (rewrite zlen_app, (proj1 image_len) by auto; reflexivity).
    rewrite IHms by (auto; lia). rewrite zlen_app, (proj1 image_len), (Z.add_assoc addr) by auto.
    destruct strict; cbn [negb orb andb] in *; [rewrite A; cbn [andb]; destruct (aligned_members _ _ _)|]; cbn [bind]; try reflexivity; do 2 f_equal; lia.
Qed.
End Read.

Lemma freeze_map_gen strict addr l d flags pre post : typed l d -> 8 + frozen_size l d < 2 ^ 64 -> 0 <= flags < 2 ^ 64 ->
  let f := freeze l d flags in
  snd f = zlen (fst f) /\ snd f = 8 + frozen_size l d /\
  map_at strict addr (pre ++ fst f ++ post) l (zlen pre) =
  if negb strict || (((addr + zlen pre) mod 8 =? 0) && aligned l d (addr + zlen pre + 8)) then Ok (d, snd f) else Ub Misaligned.
Proof.
  intros H Hb Hf. cbv zeta. pose proof (proj1 frozen_nonneg l d H). unfold freeze, freeze_pod. cbn [fst snd app]. change (u64 (0 + 8)) with 8.
  rewrite (proj1 freeze_ok) by (auto; cbn [snd]; lia). cbn [fst snd]. split; [|split; [reflexivity|]].
  - rewrite zlen_app, (proj1 image_len) by auto. reflexivity.
  - unfold map_at, map_pod. rewrite <- app_assoc, read_ok by (try (apply in_u64); lia).
    destruct (negb strict || ((addr + zlen pre) mod 8 =? 0)) eqn:A.
    2:{ destruct strict; cbn [negb orb] in *; [rewrite A; reflexivity|discriminate]. }
    cbn [bind]. rewrite app_assoc. replace (zlen pre + 8) with (zlen (pre ++ to_bytes (Z.to_nat 8) flags)) by (rewrite zlen_app; reflexivity).
    rewrite (proj1 (map_ok strict addr)) by (auto; lia). rewrite zlen_app. change (zlen (to_bytes (Z.to_nat 8) flags)) with 8. rewrite (Z.add_assoc addr).
    destruct strict; cbn [negb orb andb] in *; [rewrite A; cbn [andb]; destruct (aligned _ _ _)|]; cbn [bind]; try reflexivity; do 2 f_equal; lia.
Qed.

(** ** sizes *)
Lemma sizeof_ok :
  (forall l d, typed l d -> forall nm s, 0 <= s -> s + frozen_size l d < 2 ^ 64 ->
     sizeof_visit l d nm s = (s + frozen_size l d, nodes l d nm)) /\
  (forall ms ds, typed_members ms ds -> forall s, 0 <= s -> s + frozen_sizes ms ds < 2 ^ 64 ->
     sizeof_members ms ds s = (s + frozen_sizes ms ds, member_nodes ms ds)).
Proof.
  apply layout_members_ind.
  - intros size sg [x|xs|ds] H nm s Hs Hb; cbn [typed frozen_size sizeof_visit nodes] in *; try contradiction. rewrite u64_small by lia. auto.
  - intros size sg [x|xs|ds] H nm s Hs Hb; cbn [typed frozen_size sizeof_visit nodes] in *; try contradiction.
    pose proof (zlen_nonneg xs). assert (0 <= size * zlen xs) by (apply Z.mul_nonneg_nonneg; lia). rewrite (Z.mul_comm (zlen xs)).
    rewrite (u64_small (s + 8)), (u64_small (size * zlen xs)), u64_small, sub64_ok by lia. f_equal; [lia|]. do 2 f_equal. lia.
  - intros ms IH [x|xs|ds] H nm s Hs Hb; cbn [typed frozen_size sizeof_visit nodes] in *; try contradiction.
    pose proof (proj2 frozen_nonneg ms ds H). rewrite (IH ds H s Hs Hb).
    rewrite sub64_ok by lia. do 3 f_equal. lia.
  - intros [|d ds] H s Hs Hb; cbn [typed_members frozen_sizes sizeof_members member_nodes] in *; try contradiction. f_equal. lia.
  - intros nm l IHl ms IHms [|d ds] H s Hs Hb; cbn [typed_members frozen_sizes sizeof_members member_nodes] in *; try contradiction.
    destruct H as (H1 & H2). pose proof (proj1 frozen_nonneg l d H1). pose proof (proj2 frozen_nonneg ms ds H2).
    rewrite (IHl d H1 nm s Hs ltac:(lia)), (IHms ds H2 (s + frozen_size l d) ltac:(lia) ltac:(lia)). f_equal. lia.
Qed.

Lemma roundtrip {A} (M : mappable A) x flags addr pre post :
  typed (layout_of M) (data_of M x) -> 8 + frozen_size (layout_of M) (data_of M x) < 2 ^ 64 -> 0 <= flags < 2 ^ 64 ->
  exists bytes written, freeze (layout_of M) (data_of M x) flags = (bytes, written) /\ written = zlen bytes /\
  map_at false addr (pre ++ bytes ++ post) (layout_of M) (zlen pre) = Ok (data_of M x, written).
Proof.
  intros H Hb Hf. destruct (freeze_map_gen false addr _ _ flags pre post H Hb Hf) as (H1 & _ & H3).
  destruct (freeze _ _ flags) as [bytes written]. cbn [fst snd negb orb] in *. eauto.
Qed.

Lemma size_of_ok {A} (M : mappable A) x flags nm :
  typed (layout_of M) (data_of M x) -> 8 + frozen_size (layout_of M) (data_of M x) < 2 ^ 64 -> 0 <= flags < 2 ^ 64 ->
  zlen (fst (freeze (layout_of M) (data_of M x) flags)) = size_of (layout_of M) (data_of M x) + 8 /\
  snd (freeze (layout_of M) (data_of M x) flags) = size_of (layout_of M) (data_of M x) + 8 /\
  size_of (layout_of M) (data_of M x) = frozen_size (layout_of M) (data_of M x) /\
  size_tree_of (layout_of M) (data_of M x) nm =
    match nodes (layout_of M) (data_of M x) nm with node :: _ => Ok node | [] => Ub AssertFailed end.
Proof.
  intros H Hb Hf. destruct (freeze_map_gen false 0 _ _ flags [] [] H Hb Hf) as (H1 & H2 & _). cbv zeta in *.
  pose proof (proj1 frozen_nonneg _ _ H). unfold size_of, size_tree_of.
  rewrite !(proj1 sizeof_ok _ _ H) by lia. cbn [fst snd Z.add].
  split; [lia|]. split; [lia|]. split; [reflexivity|]. destruct (nodes _ _ _); reflexivity.
Qed.

(** the members determine a structure *)
Definition injective {A B} (f : A -> B) : Prop := forall x y, f x = f y -> x = y.
Ltac inj H := cbv in H; injection H; intros; subst; reflexivity.
Lemma all_inj : (forall size signed, injective (data_of (vec_map size signed))) /\
  injective (data_of bv_map) /\ injective (data_of rs_map) /\ injective (data_of bp_map) /\ injective (data_of ct_map) /\
  injective (data_of da_map) /\ injective (data_of d64_map) /\ injective (data_of ef_map) /\ injective (data_of efl_map) /\
  injective (data_of efc_map) /\ injective (data_of gamma_map) /\ injective (data_of nv_map) /\ injective (data_of tk_map).
Proof.
  repeat apply conj.
  - intros s g x y H. inj H.
  - intros [] [] H. inj H.
  - intros [[] ? ? ?] [[] ? ? ?] H. inj H.
  - intros [[[] ? ? ?] ? ? ?] [[[] ? ? ?] ? ? ?] H. inj H.
  - intros [[[] ? ? ?] ? ? ?] [[[] ? ? ?] ? ? ?] H. inj H.
  - intros [] [] H. inj H.
  - intros [? [] ? ?] [? [] ? ?] H. inj H.
  - intros [? [] [] [] [] ?] [? [] [] [] [] ?] H. inj H.
  - intros [? [] [] [] [] ?] [? [] [] [] [] ?] H. inj H.
  - intros [[? [] [] [] [] ?] []] [[? [] [] [] [] ?] []] H. inj H.
  - intros [[? [] ? ?] []] [[? [] ? ?] []] H. inj H.
  - intros [] [] H. inj H.
  - intros [? [[[] ? ? ?] ? ? ?]] [? [[[] ? ? ?] ? ? ?]] H. inj H.
Qed.

(** ** alignment *)
Lemma bv_frozen bv : frozen_size (layout_of bv_map) (data_of bv_map bv) = 16 + 8 * zlen (bv_words bv).
Proof. cbn [bv_map layout_of data_of frozen_size frozen_sizes bv_members bv_datas]. lia. Qed.
Lemma da_frozen d : frozen_size (layout_of da_map) (data_of da_map d) = 32 + 8 * zlen (da_blocks d) + 2 * zlen (da_subs d) + 8 * zlen (da_ovf d).
Proof. cbn [da_map layout_of data_of frozen_size frozen_sizes]. lia. Qed.
Lemma ef_frozen ef : exists k, frozen_size (layout_of ef_map) (data_of ef_map ef) = 2 * k + 1.
Proof.
  cbn [ef_map layout_of data_of frozen_size frozen_sizes].
  pose proof (bv_frozen (ef_high ef)) as H1. pose proof (bv_frozen (ef_low ef)) as H2.
  pose proof (da_frozen (ef_d1 ef)) as H3. pose proof (da_frozen (ef_d0 ef)) as H4.
  cbn [bv_map da_map layout_of data_of frozen_size] in H1, H2, H3, H4. cbn [bv_map da_map layout_of data_of frozen_size].
  rewrite H1, H2, H3, H4.
  eexists (4 + 8 + 4 * zlen (bv_words (ef_high ef)) + (16 + 4 * zlen (da_blocks (ef_d1 ef)) + zlen (da_subs (ef_d1 ef)) + 4 * zlen (da_ovf (ef_d1 ef)))
    + (16 + 4 * zlen (da_blocks (ef_d0 ef)) + zlen (da_subs (ef_d0 ef)) + 4 * zlen (da_ovf (ef_d0 ef))) + (8 + 4 * zlen (bv_words (ef_low ef)))). lia.
Qed.

Lemma efc_misaligned x flags addr : typed (layout_of efc_map) (data_of efc_map x) ->
  8 + frozen_size (layout_of efc_map) (data_of efc_map x) < 2 ^ 64 -> 0 <= flags < 2 ^ 64 -> addr mod 8 = 0 ->
  map_at true addr (fst (freeze (layout_of efc_map) (data_of efc_map x) flags)) (layout_of efc_map) 0 = Ub Misaligned.
Proof.
  intros H Hb Hf Ha. destruct (freeze_map_gen true addr _ _ flags [] [] H Hb Hf) as (_ & _ & E). cbv zeta in E.
  rewrite app_nil_r in E. cbn [app] in E. rewrite zlen_nil in E. rewrite E. clear E. rewrite Z.add_0_r. cbn [negb orb].
  destruct (ef_frozen (efc_ef x)) as (k & Hk). unfold efc_map. cbn [layout_of data_of aligned aligned_members].
  unfold bv_map at 1. cbn [layout_of data_of aligned aligned_members bv_members bv_datas]. rewrite Hk.
  replace ((addr + 8 + (2 * k + 1)) mod 8 =? 0) with false.
  2:{ symmetry. apply Z.eqb_neq. intros C. apply Z.mod_divide in C; [|lia]. destruct C as (c & C). apply Z.mod_divide in Ha; [|lia]. destruct Ha as (a & Ha). lia. }
  rewrite andb_false_l, !andb_false_r. reflexivity.
Qed.

Lemma mod8 a k : a mod 8 = 0 -> (a + 8 * k) mod 8 = 0.
Proof. intros H. rewrite (Z.mul_comm 8), Z_mod_plus_full. exact H. Qed.

Lemma aligned_roundtrip {A} (M : mappable A) : (forall x pos, pos mod 8 = 0 -> aligned (layout_of M) (data_of M x) pos = true) ->
  forall x flags addr post,
  typed (layout_of M) (data_of M x) -> 8 + frozen_size (layout_of M) (data_of M x) < 2 ^ 64 -> 0 <= flags < 2 ^ 64 -> addr mod 8 = 0 ->
  exists bytes written, freeze (layout_of M) (data_of M x) flags = (bytes, written) /\
  map_at true addr (bytes ++ post) (layout_of M) 0 = Ok (data_of M x, written).
Proof.
  intros HA x flags addr post H Hb Hf Ha. destruct (freeze_map_gen true addr _ _ flags [] post H Hb Hf) as (_ & _ & E). cbv zeta in E.
  destruct (freeze _ _ flags) as [bytes written]. cbn [fst snd app negb orb] in *. rewrite zlen_nil, Z.add_0_r in E.
  rewrite HA in E. 2:{ apply (mod8 addr 1). auto. } rewrite Ha in E. cbn in E. eauto.
Qed.

(** layouts of 64-bit words only *)
Fixpoint words_only (l : layout) : bool :=
  match l with
  | LPod size _ => size =? 8
  | LVec size _ => size =? 8
  | LObj ms => words_members ms
  end
with words_members (ms : members) : bool :=
  match ms with
  | MNil => true
  | MCons _ l ms => words_only l && words_members ms
  end.
Lemma mod8_add a b : a mod 8 = 0 -> b mod 8 = 0 -> (a + b) mod 8 = 0.
Proof. intros H1 H2. rewrite Z.add_mod, H1, H2 by lia. reflexivity. Qed.
Lemma mod8_mul k : (8 * k) mod 8 = 0.
Proof. rewrite Z.mul_comm. apply Z_mod_mult. Qed.
Lemma words_aligned :
  (forall l, words_only l = true -> forall d pos, pos mod 8 = 0 -> aligned l d pos = true /\ frozen_size l d mod 8 = 0) /\
  (forall ms, words_members ms = true -> forall ds pos, pos mod 8 = 0 -> aligned_members ms ds pos = true /\ frozen_sizes ms ds mod 8 = 0).
Proof.
  apply layout_members_ind.
  - intros size sg H [x|xs|ds] pos Hp; cbn [words_only aligned frozen_size] in *; auto. replace size with 8 in * by lia. rewrite Hp. auto.
  - intros size sg H [x|xs|ds] pos Hp; cbn [words_only aligned frozen_size] in *; auto. replace size with 8 in * by lia. rewrite Hp.
    rewrite (mod8_add pos 8 Hp eq_refl). rewrite orb_true_r. split; [reflexivity|]. apply mod8_add; [reflexivity|apply mod8_mul].
  - intros ms IH H [x|xs|ds] pos Hp; cbn [words_only aligned frozen_size] in *; auto.
  - intros _ [|d ds] pos Hp; cbn; auto.
  - intros nm l IHl ms IHms H [|d ds] pos Hp; cbn [words_members aligned_members frozen_sizes] in *; auto.
    apply andb_true_iff in H. destruct H as (H1 & H2). destruct (IHl H1 d pos Hp) as (A1 & S1).
    destruct (IHms H2 ds (pos + frozen_size l d)) as (A2 & S2); [apply mod8_add; auto|].
    rewrite A1, A2. split; [reflexivity|apply mod8_add; auto].
Qed.
Lemma vec_bv_rs_aligned : (forall x pos, pos mod 8 = 0 -> aligned (layout_of bv_map) (data_of bv_map x) pos = true) /\
  (forall x pos, pos mod 8 = 0 -> aligned (layout_of rs_map) (data_of rs_map x) pos = true) /\
  (forall x pos, pos mod 8 = 0 -> aligned (layout_of nv_map) (data_of nv_map x) pos = true).
Proof.
  split; [|split].
  - intros x pos H. apply (proj1 words_aligned); auto.
  - intros x pos H. apply (proj1 words_aligned); auto.
  - intros x pos H. cbn [nv_map layout_of data_of aligned aligned_members frozen_size]. rewrite H, (mod8_add pos 8 H eq_refl), Z.mod_1_r. cbn. rewrite orb_true_r. reflexivity.
Qed.
Definition aligns {A} (M : mappable A) : Prop := forall x flags addr post,
  typed (layout_of M) (data_of M x) -> 8 + frozen_size (layout_of M) (data_of M x) < 2 ^ 64 -> 0 <= flags < 2 ^ 64 -> addr mod 8 = 0 ->
  exists bytes written, freeze (layout_of M) (data_of M x) flags = (bytes, written) /\
  map_at true addr (bytes ++ post) (layout_of M) 0 = Ok (data_of M x, written).
Lemma aligns_ok : aligns bv_map /\ aligns rs_map /\ aligns nv_map.
Proof.
  destruct vec_bv_rs_aligned as (H1 & H2 & H3). split; [|split]; unfold aligns; apply aligned_roundtrip; auto.
Qed.

(** ** deciding [typed] *)
Definition in_typeb (size : Z) (signed : bool) (x : Z) : bool :=
  if signed then (- 2 ^ (8 * size - 1) <=? x) && (x <? 2 ^ (8 * size - 1)) else (0 <=? x) && (x <? 2 ^ (8 * size)).
Fixpoint typedb (l : layout) (d : data) : bool :=
  match l, d with
  | LPod size signed, DPod x => (0 <? size) && in_typeb size signed x
  | LVec size signed, DVec xs => (0 <? size) && forallb (in_typeb size signed) xs
  | LObj ms, DObj ds => typedb_members ms ds
  | _, _ => false
  end
with typedb_members (ms : members) (ds : datas) : bool :=
  match ms, ds with
  | MNil, DNil => true
  | MCons _ l ms, DCons d ds => typedb l d && typedb_members ms ds
  | _, _ => false
  end.
Lemma in_typeb_ok size signed x : in_typeb size signed x = true -> in_type size signed x.
Proof. unfold in_typeb, in_type. destruct signed; rewrite andb_true_iff; lia. Qed.
Lemma typedb_both : (forall l d, typedb l d = true -> typed l d) /\ (forall ms ds, typedb_members ms ds = true -> typed_members ms ds).
Proof.
  apply layout_members_ind.
  - intros size sg [x|xs|ds] H; cbn [typed typedb] in *; try discriminate. apply andb_true_iff in H. split; [lia|apply in_typeb_ok, H].
  - intros size sg [x|xs|ds] H; cbn [typed typedb] in *; try discriminate. apply andb_true_iff in H. destruct H as (H1 & H2). split; [lia|].
    rewrite forallb_forall in H2. apply Forall_forall. auto using in_typeb_ok.
  - intros ms IH [x|xs|ds] H; cbn [typed typedb] in *; try discriminate. auto.
  - intros [|d ds] H; cbn [typed_members typedb_members] in *; try discriminate. auto.
  - intros nm l IHl ms IHms [|d ds] H; cbn [typed_members typedb_members] in *; try discriminate. apply andb_true_iff in H. intuition.
Qed.
Definition typedb_ok := proj1 typedb_both.

(** ** bit vectors *)
Lemma canonical_typed l : zlen l < 2 ^ 64 ->
  typed (layout_of bv_map) (data_of bv_map (canonical l)) /\ 8 + frozen_size (layout_of bv_map) (data_of bv_map (canonical l)) < 2 ^ 64.
Proof.
  intros H. pose proof (zlen_nonneg l). split.
  - cbn [bv_map layout_of data_of typed typed_members bv_members bv_datas canonical bv_size bv_words in_type]. change (8 * 8) with 64.
    repeat split; try lia. exact (proj1 (words_ok_pack l)).
  - rewrite bv_frozen. cbn [canonical bv_words]. rewrite zlen_pack. pose proof (Z.div_mod (zlen l + 63) 64). pose proof (Z.mod_pos_bound (zlen l + 63) 64). lia.
Qed.
Lemma canonical_inj l m : canonical l = canonical m -> l = m.
Proof.
  intros H. apply (words_ok_inj (pack l)); [apply words_ok_pack| |].
  - replace (pack l) with (pack m) by (injection H; auto). apply words_ok_pack.
  - injection H. auto.
Qed.
Lemma bits_roundtrip l flags addr pre post : zlen l < 2 ^ 64 -> 0 <= flags < 2 ^ 64 ->
  exists bytes written, freeze (layout_of bv_map) (data_of bv_map (canonical l)) flags = (bytes, written) /\ written = zlen bytes /\
  forall bv n, map_at false addr (pre ++ bytes ++ post) (layout_of bv_map) (zlen pre) = Ok (data_of bv_map bv, n) <->
    bv = canonical l /\ n = written.
Proof.
  intros H Hf. destruct (canonical_typed l H) as (Ht & Hb). destruct (roundtrip bv_map _ flags addr pre post Ht Hb Hf) as (b & w & E1 & E2 & E3).
  exists b, w. split; [auto|]. split; [auto|]. intros bv n. rewrite E3. split.
  - intros E. assert (E' : data_of bv_map (canonical l) = data_of bv_map bv) by congruence. apply all_inj in E'. split; congruence.
  - intros (-> & ->). reflexivity.
Qed.

Lemma other_misaligned :
  (exists bp, bp_build 0 (canonical [true; false]) true true = Ok bp /\
     (typed (layout_of bp_map) (data_of bp_map bp) /\ 8 + frozen_size (layout_of bp_map) (data_of bp_map bp) < 2 ^ 64) /\
     map_at true 0 (fst (freeze (layout_of bp_map) (data_of bp_map bp) 0)) (layout_of bp_map) 0 = Ub Misaligned) /\
  (exists g, gv_build (fun c n => 2 * c) [5; 0; 900] = Ok g /\
     (typed (layout_of gamma_map) (data_of gamma_map g) /\ 8 + frozen_size (layout_of gamma_map) (data_of gamma_map g) < 2 ^ 64) /\
     map_at true 0 (fst (freeze (layout_of gamma_map) (data_of gamma_map g) 0)) (layout_of gamma_map) 0 = Ub Misaligned).
Proof.
  split; eexists; (split; [vm_compute; reflexivity|]); (split; [|vm_compute; reflexivity]);
    (split; [apply typedb_ok; vm_compute; reflexivity|vm_compute; reflexivity]).
Qed.
