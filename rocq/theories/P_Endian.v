(** Proofs about both byte orders. *)
From Verif Require Import Base Spec Lib S_BitVector P_BvLib P_RsBuild P_BitVector P_BvProps.
From Verif Require Import M_BitVector M_Mapper S_Mapper P_Mapper M_Endian.

(** ** bytes *)
Lemma zlen_e_to_bytes big n x : zlen (e_to_bytes big n x) = Z.of_nat n.
Proof. unfold e_to_bytes. destruct big; [unfold zlen; rewrite rev_length|]; apply zlen_to_bytes. Qed.
Lemma e_to_bytes_len big n x : length (e_to_bytes big n x) = n.
Proof. pose proof (zlen_e_to_bytes big n x). unfold zlen in *. lia. Qed.
Lemma e_of_bytes_ok big size signed x : 0 < size -> in_type size signed x ->
  e_of_bytes_as big signed size (e_to_bytes big (Z.to_nat size) x) = x.
Proof. intros. unfold e_of_bytes_as, e_to_bytes. destruct big; [rewrite rev_involutive|]; apply of_bytes_as_ok; auto. Qed.

(** ** the image of the members *)
Fixpoint e_image (big : bool) (l : layout) (d : data) : list Z :=
  match l, d with
  | LPod size _, DPod x => e_to_bytes big (Z.to_nat size) x
  | LVec size _, DVec xs => e_to_bytes big 8 (zlen xs) ++ flat_map (e_to_bytes big (Z.to_nat size)) xs
  | LObj ms, DObj ds => e_images big ms ds
  | _, _ => []
  end
with e_images (big : bool) (ms : members) (ds : datas) : list Z :=
  match ms, ds with
  | MCons _ l ms, DCons d ds => e_image big l d ++ e_images big ms ds
  | _, _ => []
  end.

Section Order.
Context (big : bool).

Lemma e_elems_len size xs : 0 < size -> zlen (flat_map (e_to_bytes big (Z.to_nat size)) xs) = size * zlen xs.
Proof.
  intros Hs. induction xs as [|x xs IH]; [cbn [flat_map]; rewrite !zlen_nil; lia|]. cbn [flat_map]. rewrite zlen_app, zlen_cons, IH, zlen_e_to_bytes.
  rewrite Z2Nat.id; lia.
Qed.
Lemma e_image_len : (forall l d, typed l d -> zlen (e_image big l d) = frozen_size l d) /\
  (forall ms ds, typed_members ms ds -> zlen (e_images big ms ds) = frozen_sizes ms ds).
Proof.
  apply layout_members_ind.
  - intros size sg [x|xs|ds] H; cbn in *; try contradiction. rewrite zlen_e_to_bytes. lia.
  - intros size sg [x|xs|ds] H; cbn [typed e_image frozen_size] in *; try contradiction. rewrite zlen_app, e_elems_len, zlen_e_to_bytes by tauto. reflexivity.
  - intros ms IH [x|xs|ds] H; cbn in *; try contradiction. auto.
  - intros [|d ds] H; cbn in *; try contradiction. reflexivity.
  - intros nm l IHl ms IHms [|d ds] H; cbn [typed_members e_images frozen_sizes] in *; try contradiction. rewrite zlen_app, IHl, IHms by tauto. reflexivity.
Qed.

Lemma e_freeze_ok :
  (forall l d, typed l d -> forall s, 0 <= snd s -> snd s + frozen_size l d < 2 ^ 64 ->
     e_freeze_visit big l d s = (fst s ++ e_image big l d, snd s + frozen_size l d)) /\
  (forall ms ds, typed_members ms ds -> forall s, 0 <= snd s -> snd s + frozen_sizes ms ds < 2 ^ 64 ->
     e_freeze_members big ms ds s = (fst s ++ e_images big ms ds, snd s + frozen_sizes ms ds)).
Proof.
  apply layout_members_ind.
  - intros size sg [x|xs|ds] H s Hs Hb; cbn in *; try contradiction. unfold e_freeze_pod. rewrite u64_small by lia. reflexivity.
  - intros size sg [x|xs|ds] H s Hs Hb; cbn [typed e_image frozen_size e_freeze_visit] in *; try contradiction.
    unfold e_freeze_vec, e_freeze_pod. cbn [fst snd]. pose proof (zlen_nonneg xs).
    assert (0 <= size * zlen xs) by (apply Z.mul_nonneg_nonneg; lia). rewrite (Z.mul_comm (zlen xs)).
    rewrite (u64_small (snd s + 8)), (u64_small (size * zlen xs)), u64_small by lia.
    rewrite firstn_all2. 2:{ pose proof (e_elems_len size xs ltac:(lia)) as L. unfold zlen in L at 1. lia. }
    rewrite <- app_assoc. f_equal. lia.
  - intros ms IH [x|xs|ds] H s Hs Hb; cbn [typed e_image frozen_size e_freeze_visit] in *; try contradiction. auto.
  - intros [|d ds] H s Hs Hb; cbn [typed_members e_images frozen_sizes e_freeze_members] in *; try contradiction. destruct s; cbn. rewrite app_nil_r. f_equal. lia.
  - intros nm l IHl ms IHms [|d ds] H s Hs Hb; cbn [typed_members e_images frozen_sizes e_freeze_members] in *; try contradiction.
    destruct H as (H1 & H2). pose proof (proj1 frozen_nonneg l d H1). pose proof (proj2 frozen_nonneg ms ds H2).
    rewrite IHl by (auto; lia). rewrite IHms by (auto; cbn; lia). cbn [fst snd]. rewrite <- app_assoc. f_equal. lia.
Qed.

Lemma e_freeze_eq l d flags : typed l d -> 8 + frozen_size l d < 2 ^ 64 ->
  e_freeze big l d flags = (e_to_bytes big 8 flags ++ e_image big l d, 8 + frozen_size l d).
Proof.
  intros H Hb. pose proof (proj1 frozen_nonneg l d H). unfold e_freeze, e_freeze_pod. cbn [fst snd app]. change (u64 (0 + 8)) with 8.
  rewrite (proj1 e_freeze_ok) by (auto; cbn [snd]; lia). reflexivity.
Qed.
End Order.

(** ** reading back; [big2] may be another order *)
Lemma e_read_at big2 pre bs post size signed : size = zlen bs ->
  e_read_as big2 (pre ++ bs ++ post) size signed (zlen pre) = Ok (e_of_bytes_as big2 signed size bs).
Proof.
  intros Hs. unfold e_read_as. pose proof (zlen_nonneg pre). pose proof (zlen_nonneg post).
  assert (V : (0 <=? zlen pre) && (zlen pre + size <=? zlen (pre ++ bs ++ post)) = true).
  { rewrite !zlen_app. lia. }
  rewrite V. replace (skipn (Z.to_nat (zlen pre)) (pre ++ bs ++ post)) with (bs ++ post).
  2:{ unfold zlen. rewrite Nat2Z.id, skipn_app, skipn_all, Nat.sub_diag. reflexivity. }
  assert (Z.to_nat size = length bs) as -> by (unfold zlen in Hs; lia).
  rewrite firstn_app, Nat.sub_diag, app_nil_r, firstn_all2 by lia. reflexivity.
Qed.

Section Read.
Context (big : bool).
Lemma e_read_ok pre post size signed x : 0 < size -> in_type size signed x ->
  e_read_as big (pre ++ e_to_bytes big (Z.to_nat size) x ++ post) size signed (zlen pre) = Ok x.
Proof. intros Hs Hx. rewrite e_read_at by (rewrite zlen_e_to_bytes; lia). rewrite e_of_bytes_ok; auto. Qed.

Lemma e_read_elems_ok size signed : 0 < size -> forall xs pre post, Forall (in_type size signed) xs ->
  e_read_elems big (pre ++ flat_map (e_to_bytes big (Z.to_nat size)) xs ++ post) size signed (length xs) (zlen pre) = Ok xs.
Proof.
  intros Hs. induction xs as [|x xs IH]; intros pre post H; [reflexivity|].
  inversion H as [|? ? Hx Hxs]; subst. cbn [e_read_elems length flat_map]. rewrite <- app_assoc, e_read_ok by auto. cbn [bind].
  rewrite app_assoc. replace (zlen pre + size) with (zlen (pre ++ e_to_bytes big (Z.to_nat size) x)).
  2:{ rewrite zlen_app, zlen_e_to_bytes. lia. }
  rewrite IH by auto. reflexivity.
Qed.

Lemma e_map_ok :
  (forall l d, typed l d -> frozen_size l d < 2 ^ 64 -> forall pre post,
     e_map_visit big (pre ++ e_image big l d ++ post) l (zlen pre) = Ok (d, zlen pre + frozen_size l d)) /\
  (forall ms ds, typed_members ms ds -> frozen_sizes ms ds < 2 ^ 64 -> forall pre post,
     e_map_members big (pre ++ e_images big ms ds ++ post) ms (zlen pre) = Ok (ds, zlen pre + frozen_sizes ms ds)).
Proof.
  apply layout_members_ind.
  - intros size sg [x|xs|ds] H Hb pre post; cbn [typed e_image frozen_size e_map_visit] in *; try contradiction. unfold e_map_pod.
    rewrite e_read_ok by tauto. reflexivity.
  - intros size sg [x|xs|ds] H Hb pre post; cbn [typed e_image frozen_size e_map_visit] in *; try contradiction. unfold e_map_vec, e_map_pod.
    destruct H as (Hs & Hxs). pose proof (zlen_nonneg xs). assert (zlen xs <= size * zlen xs) by nia.
    rewrite <- app_assoc. rewrite (e_read_ok pre _ 8 false) by (try apply in_u64; lia).
    cbn [bind]. rewrite app_assoc. replace (zlen pre + 8) with (zlen (pre ++ e_to_bytes big 8 (zlen xs))) by (rewrite zlen_app, zlen_e_to_bytes; reflexivity).
    replace (Z.to_nat (zlen xs)) with (length xs) by (unfold zlen; lia). rewrite e_read_elems_ok by auto.
    rewrite zlen_app, zlen_e_to_bytes. rewrite (Z.mul_comm (zlen xs)), u64_small by lia. cbn [bind]. do 2 f_equal. lia.
  - intros ms IH [x|xs|ds] H Hb pre post; cbn [typed e_image frozen_size e_map_visit] in *; try contradiction.
    rewrite IH by auto. reflexivity.
  - intros [|d ds] H Hb pre post; cbn [typed_members e_images frozen_sizes e_map_members] in *; try contradiction.
    rewrite Z.add_0_r. reflexivity.
  - intros nm l IHl ms IHms [|d ds] H Hb pre post; cbn [typed_members e_images frozen_sizes e_map_members] in *; try contradiction.
    destruct H as (H1 & H2). pose proof (proj1 frozen_nonneg l d H1). pose proof (proj2 frozen_nonneg ms ds H2).
    rewrite <- app_assoc, IHl by (auto; lia).
    cbn [bind]. rewrite app_assoc. replace (zlen pre + frozen_size l d) with (zlen (pre ++ e_image big l d)) by (rewrite zlen_app, (proj1 (e_image_len big)) by auto; reflexivity).
    rewrite IHms by (auto; lia). rewrite zlen_app, (proj1 (e_image_len big)) by auto. cbn [bind]. do 2 f_equal. lia.
Qed.

Lemma e_roundtrip l d flags pre post : typed l d -> 8 + frozen_size l d < 2 ^ 64 -> 0 <= flags < 2 ^ 64 ->
  exists bytes, e_freeze big l d flags = (bytes, zlen bytes) /\ zlen bytes = 8 + frozen_size l d /\
  e_map_at big (pre ++ bytes ++ post) l (zlen pre) = Ok (d, zlen bytes).
Proof.
  intros H Hb Hf. pose proof (proj1 frozen_nonneg l d H). rewrite e_freeze_eq by auto.
  assert (L : zlen (e_to_bytes big 8 flags ++ e_image big l d) = 8 + frozen_size l d).
  { rewrite zlen_app, zlen_e_to_bytes, (proj1 (e_image_len big)) by auto. reflexivity. }
  exists (e_to_bytes big 8 flags ++ e_image big l d). split; [rewrite L; reflexivity|]. split; [exact L|]. rewrite L.
  unfold e_map_at, e_map_pod. rewrite <- app_assoc. rewrite (e_read_ok pre _ 8 false) by (try apply in_u64; lia).
  cbn [bind]. rewrite app_assoc. replace (zlen pre + 8) with (zlen (pre ++ e_to_bytes big (Z.to_nat 8) flags)) by (rewrite zlen_app, zlen_e_to_bytes; reflexivity).
  rewrite (proj1 e_map_ok) by (auto; lia). rewrite zlen_app, zlen_e_to_bytes. cbn [bind]. do 2 f_equal. lia.
Qed.
End Read.

(** ** the little-endian case is M_Mapper *)
Lemma e_freeze_little l d flags : e_freeze false l d flags = freeze l d flags.
Proof.
  enough (E : (forall l d s, e_freeze_visit false l d s = freeze_visit l d s) /\
              (forall ms ds s, e_freeze_members false ms ds s = freeze_members ms ds s)) by apply (proj1 E).
  apply layout_members_ind; try reflexivity.
  - intros ms IH [x|xs|ds] s; cbn [e_freeze_visit freeze_visit]; auto.
  - intros nm l' IHl ms IHms [|d' ds] s; cbn [e_freeze_members freeze_members]; auto. rewrite IHl, IHms. reflexivity.
Qed.

Lemma e_read_little addr mem size sg cur : e_read_as false mem size sg cur = read_as false addr mem size sg cur.
Proof. reflexivity. Qed.
Lemma e_elems_little addr mem size sg n : forall cur, e_read_elems false mem size sg n cur = read_elems false addr mem size sg n cur.
Proof. induction n as [|n IH]; intros cur; [reflexivity|]. cbn [e_read_elems read_elems]. rewrite (e_read_little addr), IH. reflexivity. Qed.
Lemma e_map_little addr mem l base : e_map_at false mem l base = map_at false addr mem l base.
Proof.
  enough (E : (forall l cur, e_map_visit false mem l cur = map_visit false addr mem l cur) /\
              (forall ms cur, e_map_members false mem ms cur = map_members false addr mem ms cur)).
  { unfold e_map_at, map_at. change (e_map_pod false mem 8 false base) with (map_pod false addr mem 8 false base).
    destruct (map_pod false addr mem 8 false base) as [[f cur]|]; cbn [bind]; auto. rewrite (proj1 E). reflexivity. }
  apply layout_members_ind; try reflexivity.
  - intros size sg cur. cbn [e_map_visit map_visit]. unfold e_map_vec, map_vec.
    change (e_map_pod false mem 8 false cur) with (map_pod false addr mem 8 false cur).
    destruct (map_pod false addr mem 8 false cur) as [[n c]|]; cbn [bind]; auto. rewrite (e_elems_little addr). reflexivity.
  - intros ms IH cur; cbn [e_map_visit map_visit]. rewrite IH. reflexivity.
  - intros nm l' IHl ms IHms cur; cbn [e_map_members map_members]. rewrite IHl.
    destruct (map_visit false addr mem l' cur) as [[d c]|]; cbn [bind]; auto. rewrite IHms. reflexivity.
Qed.

Lemma e_load_little ws n : forall i, load_le ws i n = do bs <- e_bytes false ws i n; Ok (of_bytes bs).
Proof.
  induction n as [|n IH]; intros i; [reflexivity|]. cbn [load_le e_bytes].
  change (byte_of_words ws i) with (e_byte false ws i). destruct (e_byte false ws i) as [b|]; cbn [bind]; auto.
  rewrite IH. destruct (e_bytes false ws (i + 1) n) as [bs|]; cbn [bind]; auto.
Qed.
Lemma e_word56_little bv pos : e_get_word56 false bv pos = get_word56 bv pos.
Proof.
  unfold e_get_word56, get_word56. rewrite e_load_little. destruct (e_bytes false (bv_words bv) (pos / 8) 8) as [bs|]; cbn [bind]; reflexivity.
Qed.

(** ** a file of the other order *)
Definition swap64 (x : Z) : Z := of_bytes (rev (to_bytes 8 x)).

Lemma of_bytes_app a b : of_bytes (a ++ b) = of_bytes a + 256 ^ zlen a * of_bytes b.
Proof.
  induction a as [|x a IH]; [change (256 ^ zlen (@nil Z)) with 1; cbn [app of_bytes]; lia|]. cbn [app of_bytes]. rewrite IH, zlen_cons.
  pose proof (zlen_nonneg a). replace (zlen a + 1) with (Z.succ (zlen a)) by lia. rewrite Z.pow_succ_r by lia. ring.
Qed.
Lemma to_bytes_app m : forall n x, to_bytes (n + m) x = to_bytes n x ++ to_bytes m (x / 256 ^ Z.of_nat n).
Proof.
  intros n. induction n as [|n IH]; intros x; [cbn; rewrite Z.div_1_r; reflexivity|]. cbn [to_bytes Nat.add app]. rewrite IH. do 3 f_equal.
  rewrite Z.div_div by (try apply Z.pow_pos_nonneg; lia). f_equal. rewrite Nat2Z.inj_succ, Z.pow_succ_r by lia. reflexivity.
Qed.
Lemma to_bytes_range n : forall x, Forall (fun b => 0 <= b < 256) (to_bytes n x).
Proof. induction n as [|n IH]; intros x; cbn [to_bytes]; constructor; auto. apply Z.mod_pos_bound. lia. Qed.
Lemma of_bytes_nonneg bs : Forall (fun b => 0 <= b < 256) bs -> 0 <= of_bytes bs.
Proof. induction 1; cbn [of_bytes]; lia. Qed.
Lemma of_bytes_0 bs : Forall (fun b => 0 <= b < 256) bs -> of_bytes bs = 0 <-> Forall (fun b => b = 0) bs.
Proof.
  induction 1 as [|b bs Hb Hbs IH]; cbn [of_bytes]; [split; auto|]. pose proof (of_bytes_nonneg bs Hbs). split.
  - intros E. assert (b = 0) by lia. constructor; auto. apply IH. lia.
  - intros E. inversion E; subst. assert (of_bytes bs = 0) by (apply IH; auto). lia.
Qed.

Lemma swap64_big x : 0 < x < 2 ^ 32 -> 2 ^ 32 <= swap64 x < 2 ^ 64.
Proof.
  intros Hx. unfold swap64. change 8%nat with (4 + 4)%nat. rewrite to_bytes_app. change (256 ^ Z.of_nat 4) with (2 ^ 32).
  rewrite Z.div_small by lia. change (to_bytes 4 0) with (repeat 0 4). rewrite rev_app_distr. change (rev (repeat 0 4)) with (repeat 0 4).
  rewrite of_bytes_app. change (of_bytes (repeat 0 4)) with 0. change (256 ^ zlen (repeat 0 4)) with (2 ^ 32).
  set (bs := rev (to_bytes 4 x)).
  assert (R : Forall (fun b => 0 <= b < 256) bs) by (apply Forall_rev, to_bytes_range).
  pose proof (of_bytes_nonneg bs R).
  assert (of_bytes bs <> 0).
  { intros E. apply of_bytes_0 in E; auto. apply Forall_rev in E. unfold bs in E. rewrite rev_involutive in E.
    apply of_bytes_0 in E; [|apply to_bytes_range]. rewrite of_to_bytes in E. rewrite Z.mod_small in E; lia. }
  assert (of_bytes bs < 2 ^ 32).
  { assert (G : forall cs, Forall (fun b => 0 <= b < 256) cs -> of_bytes cs < 256 ^ zlen cs).
    { induction 1 as [|c cs Hc Hcs IH]; cbn [of_bytes]; [reflexivity|]. rewrite zlen_cons. pose proof (zlen_nonneg cs).
      replace (zlen cs + 1) with (Z.succ (zlen cs)) by lia. rewrite Z.pow_succ_r by lia. lia. }
    apply G in R. unfold bs in R at 2. unfold zlen in R. rewrite rev_length, to_bytes_len in R. exact R. }
  lia.
Qed.

Lemma e_read_other big pre post x :
  e_read_as (negb big) (pre ++ e_to_bytes big 8 x ++ post) 8 false (zlen pre) = Ok (swap64 x).
Proof.
  rewrite e_read_at by (rewrite zlen_e_to_bytes; reflexivity). unfold e_of_bytes_as, of_bytes_as, e_to_bytes, swap64.
  destruct big; cbn [negb andb]; reflexivity.
Qed.

Lemma e_elems_out big mem size sg : 0 < size -> forall n cur, 0 <= cur <= zlen mem -> zlen mem < cur + size * Z.of_nat n ->
  e_read_elems big mem size sg n cur = Ub OutOfBounds.
Proof.
  intros Hs. induction n as [|n IH]; intros cur Hc H; [lia|].
  cbn [e_read_elems]. unfold e_read_as. destruct ((0 <=? cur) && (cur + size <=? zlen mem)) eqn:E; cbn [bind]; auto.
  rewrite IH by lia. reflexivity.
Qed.

(** what [data_of bv_map (canonical l)] needs *)
Lemma bv_typed l : zlen l < 2 ^ 64 -> typed (layout_of bv_map) (data_of bv_map (canonical l)).
Proof.
  intros H. pose proof (zlen_nonneg l). cbn [layout_of data_of bv_map typed typed_members bv_members bv_datas canonical bv_size bv_words].
  split; [split; [lia|exact (conj H0 H)]|]. split; [|exact I]. split; [lia|]. destruct (words_ok_pack l) as (U & _). exact U.
Qed.
Lemma bv_frozen l : frozen_size (layout_of bv_map) (data_of bv_map (canonical l)) = 16 + 8 * ((zlen l + 63) / 64).
Proof.
  cbn [layout_of data_of bv_map frozen_size frozen_sizes bv_members bv_datas canonical bv_size bv_words]. rewrite zlen_pack. lia.
Qed.

Lemma e_other big l flags pre post bytes : 0 < zlen l < 2 ^ 32 -> zlen (pre ++ bytes ++ post) < 2 ^ 35 ->
  bytes = fst (e_freeze big (layout_of bv_map) (data_of bv_map (canonical l)) flags) ->
  e_map_at (negb big) (pre ++ bytes ++ post) (layout_of bv_map) (zlen pre) = Ub OutOfBounds.
Proof.
  intros Hl Hm Eb. assert (B : 0 < (zlen l + 63) / 64 < 2 ^ 32) by dlia.
  rewrite e_freeze_eq in Eb by (try apply bv_typed; rewrite ?bv_frozen; lia).
  cbn [fst layout_of data_of bv_map e_image e_images bv_members bv_datas canonical bv_size bv_words] in Eb. change (Z.to_nat 8) with 8%nat in Eb.
  set (rest := flat_map _ _) in Eb. clearbody rest. rewrite zlen_pack in Eb. subst bytes.
  assert (V : zlen pre + 24 <= zlen (pre ++ (e_to_bytes big 8 flags ++ e_to_bytes big 8 (zlen l) ++ (e_to_bytes big 8 ((zlen l + 63) / 64) ++ rest) ++ []) ++ post)).
  { rewrite !zlen_app, !zlen_e_to_bytes. pose proof (zlen_nonneg rest). pose proof (zlen_nonneg post). rewrite zlen_nil. lia. }
  pose proof (zlen_nonneg pre).
  unfold e_map_at, e_map_pod. rewrite <- !app_assoc in *. rewrite e_read_other. cbn [bind].
  cbn [layout_of bv_map bv_members e_map_visit e_map_members]. unfold e_map_pod at 1.
  replace (zlen pre + 8) with (zlen (pre ++ e_to_bytes big 8 flags)) by (rewrite zlen_app, zlen_e_to_bytes; reflexivity).
  rewrite (app_assoc pre (e_to_bytes big 8 flags)). rewrite e_read_other. cbn [bind]. unfold e_map_vec, e_map_pod.
  replace (zlen (pre ++ e_to_bytes big 8 flags) + 8) with (zlen ((pre ++ e_to_bytes big 8 flags) ++ e_to_bytes big 8 (zlen l)))
    by (rewrite !zlen_app, !zlen_e_to_bytes; lia).
  rewrite (app_assoc _ (e_to_bytes big 8 (zlen l))). rewrite e_read_other. cbn [bind].
  rewrite e_elems_out; [reflexivity|lia| |].
  - rewrite <- !app_assoc. rewrite !zlen_app, !zlen_e_to_bytes in *. cbn [Z.of_nat]. pose proof (zlen_nonneg rest). pose proof (zlen_nonneg post). lia.
  - pose proof (swap64_big _ B). rewrite !zlen_app, !zlen_e_to_bytes in *. rewrite Z2Nat.id by lia. lia.
Qed.

Lemma e_other_first big nm ms n ds flags pre post d r : 0 < n < 2 ^ 32 ->
  typed_members ms ds -> 16 + frozen_sizes ms ds < 2 ^ 64 ->
  e_map_at (negb big) (pre ++ fst (e_freeze big (LObj (MCons nm uint64 ms)) (DObj (DCons (DPod n) ds)) flags) ++ post) (LObj (MCons nm uint64 ms)) (zlen pre) = Ok (d, r) ->
  exists n' ds', d = DObj (DCons (DPod n') ds') /\ 2 ^ 32 <= n'.
Proof.
  intros Hn Ht Hb. rewrite e_freeze_eq. 2:{ split; auto. split; [lia|]. apply in_u64. lia. } 2:{ cbn [frozen_size frozen_sizes]. lia. }
  cbn [fst e_image e_images]. change (Z.to_nat 8) with 8%nat. unfold e_map_at, e_map_pod. rewrite <- !app_assoc, e_read_other. cbn [bind e_map_visit e_map_members].
  unfold e_map_pod. rewrite (app_assoc pre). replace (zlen pre + 8) with (zlen (pre ++ e_to_bytes big 8 flags)) by (rewrite zlen_app, zlen_e_to_bytes; reflexivity).
  rewrite e_read_other. cbn [bind]. pose proof (swap64_big n Hn).
  destruct (e_map_members _ _ ms _) as [[ds' c]|]; cbn [bind]; [|discriminate]. intros [= <- <-]. exists (swap64 n), ds'. split; auto. lia.
Qed.

(** ** get_word56 *)
Lemma testbit_of_bytes bs : Forall (fun b => 0 <= b < 256) bs -> forall j, 0 <= j < 8 * zlen bs ->
  Z.testbit (of_bytes bs) j = Z.testbit (nth (Z.to_nat (j / 8)) bs 0) (j mod 8).
Proof.
  induction 1 as [|b bs Hb Hbs IH]; intros j Hj; [change (zlen (@nil Z)) with 0 in Hj; lia|]. rewrite zlen_cons in Hj. cbn [of_bytes].
  change 256 with (2 ^ 8). rewrite testbit_byte_cat by lia. destruct (Z.ltb_spec j 8).
  - rewrite Z.div_small, Z.mod_small by lia. reflexivity.
  - rewrite IH by lia. replace (Z.to_nat (j / 8)) with (S (Z.to_nat ((j - 8) / 8))) by dlia. cbn [nth]. f_equal. dlia.
Qed.

Lemma e_bytes_ok ws l n : words_ok ws l -> forall i, 0 <= i -> i + Z.of_nat n <= 8 * zlen ws ->
  exists bs, e_bytes true ws i n = Ok bs /\ (length bs = n)%nat /\ Forall (fun b => 0 <= b < 256) bs /\
    forall u m, (u < n)%nat -> 0 <= m < 8 ->
      Z.testbit (nth u bs 0) m = zbit l (64 * ((i + Z.of_nat u) / 8) + 8 * (7 - (i + Z.of_nat u) mod 8) + m).
Proof.
  intros (U & E & B). induction n as [|n IH]; intros i Hi Hl; cbn [e_bytes].
  - exists []. repeat split; auto. intros; lia.
  - unfold e_byte. rewrite W_rd by dlia. cbn [bind]. destruct (IH (i + 1) ltac:(lia) ltac:(lia)) as (bs & -> & L & R & Bs). cbn [bind].
    assert (0 <= i mod 8 < 8) by (apply Z.mod_pos_bound; lia).
    eexists. split; [reflexivity|]. split; [cbn; lia|]. split.
    + constructor; auto. change 256 with (2 ^ 8). apply land_range; try lia. apply Z.shiftr_nonneg. apply (W_range ws (i / 8) U).
    + intros [|u] m Hu Hm; cbn [nth].
      * rewrite Z.land_spec, Z.shiftr_spec by lia. change 255 with (Z.ones 8). rewrite Z.testbit_ones_nonneg by lia.
        replace (m <? 8) with true by lia. rewrite andb_true_r, B by dlia. f_equal. replace (i + Z.of_nat 0) with i by lia. lia.
      * rewrite Bs by lia. f_equal. replace (i + 1 + Z.of_nat u) with (i + Z.of_nat (S u)) by lia. reflexivity.
Qed.

Lemma word56_big l pos : 0 <= pos -> pos / 8 + 8 <= 8 * zlen (pack l) ->
  exists r, e_get_word56 true (canonical l) pos = Ok r /\
    forall j, 0 <= j < 64 - pos mod 8 -> let q := j + pos mod 8 in let a := pos / 8 + 7 - q / 8 in
      Z.testbit r j = zbit l (64 * (a / 8) + 8 * (7 - a mod 8) + q mod 8).
Proof.
  intros Hp Hl. unfold e_get_word56, canonical; cbn [bv_words].
  destruct (e_bytes_ok (pack l) l 8 (words_ok_pack l) (pos / 8) ltac:(dlia) ltac:(lia)) as (bs & -> & L & R & B). cbn [bind].
  assert (0 <= pos mod 8 < 8) by (apply Z.mod_pos_bound; lia). rewrite shr_ok by lia. eexists. split; [reflexivity|]. intros j Hj. set (q := j + pos mod 8). set (a := pos / 8 + 7 - q / 8).
  rewrite Z.shiftr_spec by lia. fold q. unfold e_of_bytes_as, of_bytes_as. cbn [andb].
  assert (Z8 : zlen (rev bs) = 8) by (unfold zlen; rewrite rev_length, L; reflexivity).
  rewrite testbit_of_bytes; [|apply Forall_rev; auto|rewrite Z8; unfold q; lia].
  assert (0 <= q / 8 < 8) by (unfold q; dlia).
  rewrite rev_nth by (rewrite L; lia). rewrite L, B by dlia.
  replace (pos / 8 + Z.of_nat (8 - S (Z.to_nat (q / 8)))) with a by (unfold a; lia). reflexivity.
Qed.

Lemma word56_partial big l pos : 0 <= pos -> pos / 8 + 8 <= 8 * zlen (pack l) -> big = false \/ (pos / 8) mod 8 = 0 ->
  exists r, e_get_word56 big (canonical l) pos = Ok r /\ r mod 2 ^ 56 = value (window l (Z.to_nat pos) 56).
Proof.
  intros Hp Hl [->|Ha]; [rewrite e_word56_little; apply get_word56_low; auto|].
  destruct big; [|rewrite e_word56_little; apply get_word56_low; auto].
  destruct (word56_big l pos Hp Hl) as (r & E & B). exists r. split; auto.
  assert (0 <= pos mod 8 < 8) by (apply Z.mod_pos_bound; lia).
  apply Z.bits_inj'. intros i Hi. rewrite testbit_value_z by auto. rewrite zbit_window by auto.
  destruct (Z.ltb_spec i (Z.of_nat 56)).
  - rewrite Z.mod_pow2_bits_low by lia. rewrite B by lia. rewrite Z2Nat.id by lia. f_equal.
    set (t := (i + pos mod 8) / 8). assert (0 <= t < 8) by (unfold t; dlia).
    pose proof (Z.div_mod (pos / 8) 8 ltac:(lia)). pose proof (Z.div_mod pos 8 ltac:(lia)).
    pose proof (Z.div_mod (i + pos mod 8) 8 ltac:(lia)) as E3. fold t in E3. set (m := pos / 8 / 8) in *.
    assert (D : (pos / 8 + 7 - t) / 8 = m) by (symmetry; apply (Z.div_unique _ _ _ (7 - t)); lia).
    assert (M : (pos / 8 + 7 - t) mod 8 = 7 - t) by (symmetry; apply (Z.mod_unique _ _ m); lia).
    rewrite D, M, andb_true_l. f_equal. lia.
  - rewrite Z.mod_pow2_bits_high by lia. reflexivity.
Qed.

Lemma word56_refuted l pos : 0 <= pos -> pos / 8 + 8 <= 8 * zlen (pack l) -> (pos / 8) mod 8 <> 0 ->
  exists r, e_get_word56 true (canonical l) pos = Ok r /\
    Z.testbit r 0 = nth (Z.to_nat (64 * (pos / 64 + 2) - 8 * ((pos / 8) mod 8) + pos mod 8)) l false.
Proof.
  intros Hp Hl Ha. destruct (word56_big l pos Hp Hl) as (r & E & B). exists r. split; auto.
  assert (0 <= pos mod 8 < 8) by (apply Z.mod_pos_bound; lia).
  rewrite B by lia. rewrite Z.add_0_l, (Z.div_small (pos mod 8)), (Z.mod_small (pos mod 8)), Z.sub_0_r by lia. unfold zbit.
  replace (64 * ((pos / 8 + 7) / 8) + 8 * (7 - (pos / 8 + 7) mod 8) + pos mod 8) with (64 * (pos / 64 + 2) - 8 * ((pos / 8) mod 8) + pos mod 8) by dlia.
  replace (64 * (pos / 64 + 2) - 8 * ((pos / 8) mod 8) + pos mod 8 <? 0) with false by dlia. reflexivity.
Qed.
