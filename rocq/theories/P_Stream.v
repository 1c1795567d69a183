(** Freezing to a stream that can fail; the string adaptor. *)
From Coq Require Strings.String.
From Verif Require Import Base Spec Lib P_BvLib M_Mapper S_Mapper P_Mapper P_Limits M_Stream S_Stream.

(** what the writes so far should have put into the file, against a stream *)
Definition holds (ideal : list Z) (s : ofstream) : Prop :=
  exists rest, ideal = os_file s ++ os_pending s ++ rest /\
    if os_good s then rest = [] else os_pending s = [] /\ (ideal <> [] -> rest <> []).

Lemma flush_holds ideal s k : os_good s = true -> holds ideal s -> holds ideal (os_flush k s).
Proof.
  intros G (rest & E & H). rewrite G in H. subst rest. rewrite app_nil_r in E. unfold os_flush. set (n := Z.max 0 (Z.min k (zlen (os_pending s)))).
  exists (skipn (Z.to_nat n) (os_pending s)). cbn [os_file os_pending os_good app]. split; [rewrite <- app_assoc, firstn_skipn; exact E|].
  pose proof (zlen_nonneg (os_pending s)). destruct (Z.eqb_spec n (zlen (os_pending s))) as [En|Ne].
  - apply skipn_all2. unfold zlen in En. lia.
  - split; [reflexivity|]. intros _ C. apply (f_equal (@length Z)) in C. rewrite skipn_length in C. cbn in C. unfold zlen in *. lia.
Qed.
Lemma write_holds dev ideal s bs : holds ideal s -> holds (ideal ++ bs) (os_write dev bs s).
Proof.
  intros H. unfold os_write. destruct (os_good s) eqn:G.
  - assert (K : holds (ideal ++ bs) (mk_os (os_file s) (os_pending s ++ bs) true (S (os_calls s)))).
    { destruct H as (rest & E & H). rewrite G in H. subst rest. exists []. cbn. split; [|reflexivity]. rewrite app_nil_r in *. subst. rewrite app_assoc. reflexivity. }
    destruct (dev _); [apply flush_holds; auto|exact K].
  - destruct H as (rest & E & H). exists (rest ++ bs). rewrite G in *. destruct H as (P & R). split; [rewrite E, <- !app_assoc; reflexivity|]. split; [exact P|].
    intros N C. apply app_eq_nil in C. destruct C as (-> & ->). rewrite app_nil_r in N. apply (R N). reflexivity.
Qed.
Lemma close_holds ideal s k : holds ideal s -> holds ideal (os_close k s) /\ os_pending (os_close k s) = [].
Proof.
  intros H. unfold os_close. destruct (os_good s) eqn:G; [split; [apply flush_holds; auto|reflexivity]|]. split; [exact H|].
  destruct H as (rest & _ & H). rewrite G in H. apply H.
Qed.

Lemma visit_holds dev :
  (forall l d s t, holds (fst t) (fst s) -> snd s = snd t -> holds (fst (freeze_visit l d t)) (fst (sfreeze_visit dev l d s)) /\ snd (sfreeze_visit dev l d s) = snd (freeze_visit l d t)) /\
  (forall ms ds s t, holds (fst t) (fst s) -> snd s = snd t -> holds (fst (freeze_members ms ds t)) (fst (sfreeze_members dev ms ds s)) /\ snd (sfreeze_members dev ms ds s) = snd (freeze_members ms ds t)).
Proof.
  apply layout_members_ind.
  - intros size sg [x|xs|ds] s t H E; cbn [freeze_visit sfreeze_visit]; auto. unfold freeze_pod, sfreeze_pod. cbn [fst snd]. split; [apply write_holds, H|congruence].
  - intros size sg [x|xs|ds] s t H E; cbn [freeze_visit sfreeze_visit]; auto. unfold freeze_vec, sfreeze_vec, freeze_pod, sfreeze_pod. cbn [fst snd]. split; [apply write_holds, write_holds, H|congruence].
  - intros ms IH [x|xs|ds] s t H E; cbn [freeze_visit sfreeze_visit]; auto.
  - intros ds s t H E. cbn. auto.
  - intros nm l IHl ms IHm [|d ds] s t H E; cbn [freeze_members sfreeze_members]; auto. destruct (IHl d s t H E). apply IHm; auto.
Qed.
Lemma freeze_app :
  (forall l d s f, freeze_visit l d (f ++ fst s, snd s) = (f ++ fst (freeze_visit l d s), snd (freeze_visit l d s))) /\
  (forall ms ds s f, freeze_members ms ds (f ++ fst s, snd s) = (f ++ fst (freeze_members ms ds s), snd (freeze_members ms ds s))).
Proof.
  apply layout_members_ind.
  - intros size sg [x|xs|ds] s f; cbn [freeze_visit]; auto. unfold freeze_pod. cbn [fst snd]. rewrite app_assoc. reflexivity.
  - intros size sg [x|xs|ds] s f; cbn [freeze_visit]; auto. unfold freeze_vec, freeze_pod. cbn [fst snd]. rewrite !app_assoc. reflexivity.
  - intros ms IH [x|xs|ds] s f; cbn [freeze_visit]; auto.
  - intros ds s f. reflexivity.
  - intros nm l IHl ms IHm [|d ds] s f; cbn [freeze_members]; auto. rewrite IHl. apply IHm.
Qed.
Lemma stream_holds dev l d flags s ideal : holds ideal s -> holds (ideal ++ fst (freeze l d flags)) (fst (freeze_stream dev l d flags s)) /\
  snd (freeze_stream dev l d flags s) = snd (freeze l d flags).
Proof.
  intros H. unfold freeze_stream, freeze. destruct (proj1 (visit_holds dev) l d (sfreeze_pod dev 8 flags (s, 0)) (ideal ++ fst (freeze_pod 8 flags ([], 0)), snd (freeze_pod 8 flags ([], 0)))) as (A & B).
  - cbn [fst snd freeze_pod sfreeze_pod app]. apply write_holds, H.
  - reflexivity.
  - rewrite (proj1 freeze_app) in A, B. split; auto.
Qed.
Lemma stream_count dev l d flags s : snd (freeze_stream dev l d flags s) = snd (freeze l d flags).
Proof.
  set (s' := mk_os (os_file s) [] false 0).
  assert (X : forall dev' l d (p q : sfreezer), snd p = snd q -> snd (sfreeze_visit dev l d p) = snd (sfreeze_visit dev' l d q)).
  { intros dev'. enough (Y : (forall l d (p q : sfreezer), snd p = snd q -> snd (sfreeze_visit dev l d p) = snd (sfreeze_visit dev' l d q)) /\
      (forall ms ds (p q : sfreezer), snd p = snd q -> snd (sfreeze_members dev ms ds p) = snd (sfreeze_members dev' ms ds q))) by apply Y.
    apply layout_members_ind.
    - intros size sg [x|xs|ds] p q E; cbn; congruence.
    - intros size sg [x|xs|ds] p q E; cbn; congruence.
    - intros ms IH [x|xs|ds] p q E; cbn; auto.
    - intros ds p q E. exact E.
    - intros nm l0 IHl ms IHm [|d0 ds] p q E; cbn; auto. }
  rewrite <- (proj2 (stream_holds dev l d flags (os_open true) [] ltac:(exists []; split; reflexivity))). unfold freeze_stream. apply X. reflexivity.
Qed.
Lemma stream_prefix dev l d flags s0 : os_good s0 = true ->
  let s := fst (freeze_stream dev l d flags s0) in
  exists rest, os_file s0 ++ os_pending s0 ++ fst (freeze l d flags) = os_file s ++ os_pending s ++ rest /\
    if os_good s then rest = [] else os_pending s = [] /\ rest <> [].
Proof.
  intros G. cbv zeta. assert (H : holds (os_file s0 ++ os_pending s0) s0) by (exists []; rewrite G, app_nil_r; auto).
  destruct (stream_holds dev l d flags s0 _ H) as ((rest & E & K) & _). rewrite <- app_assoc in E. exists rest. split; [exact E|].
  destruct (os_good (fst (freeze_stream dev l d flags s0))); [exact K|]. destruct K as (K1 & K2). split; [exact K1|]. apply K2. rewrite <- app_assoc. intros C.
  assert (L : (8 <= length (fst (freeze l d flags)))%nat).
  { unfold freeze. replace (freeze_pod 8 flags ([], 0)) with (fst (freeze_pod 8 flags ([], 0)) ++ fst (@nil Z, 8), snd (@nil Z, 8)) by reflexivity.
    rewrite (proj1 freeze_app). cbn [fst]. rewrite app_length. cbn [fst freeze_pod app]. rewrite to_bytes_len. lia. }
  apply app_eq_nil in C. destruct C as (_ & C). apply app_eq_nil in C. destruct C as (_ & C). rewrite C in L. cbn in L. lia.
Qed.
Lemma stream_bad dev l d flags s : os_good s = false -> fst (freeze_stream dev l d flags s) = s.
Proof.
  intros G. assert (W : forall bs, os_write dev bs s = s) by (intros; unfold os_write; rewrite G; reflexivity).
  assert (X : (forall l d (p : sfreezer), fst p = s -> fst (sfreeze_visit dev l d p) = s) /\ (forall ms ds (p : sfreezer), fst p = s -> fst (sfreeze_members dev ms ds p) = s)).
  { apply layout_members_ind.
    - intros size sg [x|xs|ds] p E; cbn; auto. rewrite E. apply W.
    - intros size sg [x|xs|ds] p E; cbn; auto. rewrite E, !W. reflexivity.
    - intros ms IH [x|xs|ds] p E; cbn; auto.
    - intros ds p E. exact E.
    - intros nm l0 IHl ms IHm [|d0 ds] p E; cbn; auto. }
  unfold freeze_stream. apply X. cbn. apply W.
Qed.
Lemma file_prefix dev opened last l d flags : exists rest, fst (freeze l d flags) = fst (freeze_file dev opened last l d flags) ++ rest.
Proof.
  unfold freeze_file. cbn [fst]. assert (H : holds [] (os_open opened)) by (exists []; destruct opened; cbn; repeat split; auto).
  destruct (stream_holds dev l d flags (os_open opened) [] H) as (A & _). cbn [app] in A. destruct (close_holds _ _ last A) as ((rest & E & _) & P).
  rewrite P in E. exists rest. exact E.
Qed.
Lemma file_detect {A} (M : mappable A) x flags addr dev opened last :
  typed (layout_of M) (data_of M x) -> 8 + frozen_size (layout_of M) (data_of M x) < 2 ^ 64 -> 0 <= flags < 2 ^ 64 ->
  let image := fst (freeze (layout_of M) (data_of M x) flags) in
  let file := fst (freeze_file dev opened last (layout_of M) (data_of M x) flags) in
  (zlen file = size_of (layout_of M) (data_of M x) + 8 /\ file = image /\ map_at false addr file (layout_of M) 0 = Ok (data_of M x, zlen file)) \/
  (zlen file < size_of (layout_of M) (data_of M x) + 8 /\ map_at false addr file (layout_of M) 0 = Ub OutOfBounds).
Proof.
  intros T Hb Hf image file. destruct (file_prefix dev opened last (layout_of M) (data_of M x) flags) as (rest & E). fold image file in E.
  destruct (freeze_map_gen false addr _ _ flags [] [] T Hb Hf) as (H1 & H2 & H3). cbn [app negb orb] in H3. rewrite app_nil_r in H3. change (zlen (@nil Z)) with 0 in H3. fold image in H1, H3.
  assert (HS : size_of (layout_of M) (data_of M x) = frozen_size (layout_of M) (data_of M x)) by (apply (size_of_ok M x flags String.EmptyString T Hb Hf)).
  destruct rest as [|r rest].
  - left. rewrite app_nil_r in E. rewrite <- E. split; [lia|]. split; [reflexivity|]. rewrite H3. congruence.
  - right. assert (L : zlen image = zlen file + zlen (r :: rest)) by (rewrite E, zlen_app; reflexivity). rewrite zlen_cons in L. pose proof (zlen_nonneg rest). split; [lia|].
    replace file with (firstn (length file) image) by (rewrite E, firstn_app, firstn_all, Nat.sub_diag; cbn; apply app_nil_r).
    apply truncated; auto. fold image. unfold zlen in L, H. unfold zlen in L. rewrite E, app_length. cbn. lia.
Qed.
Lemma good_lost l d flags :
  let s := fst (freeze_stream (fun _ => None) l d flags (os_open true)) in
  os_good s = true /\ freeze_file (fun _ => None) true 0 l d flags = ([], snd (freeze l d flags)).
Proof.
  set (dev := fun _ : nat => @None Z). assert (X : (forall l d (p : sfreezer), os_good (fst p) = true /\ os_file (fst p) = [] -> os_good (fst (sfreeze_visit dev l d p)) = true /\ os_file (fst (sfreeze_visit dev l d p)) = []) /\
    (forall ms ds (p : sfreezer), os_good (fst p) = true /\ os_file (fst p) = [] -> os_good (fst (sfreeze_members dev ms ds p)) = true /\ os_file (fst (sfreeze_members dev ms ds p)) = [])).
  { assert (W : forall bs s, os_good s = true /\ os_file s = [] -> os_good (os_write dev bs s) = true /\ os_file (os_write dev bs s) = []).
    { intros bs s (G & F). unfold os_write. rewrite G. cbn. auto. }
    apply layout_members_ind.
    - intros size sg [x|xs|ds] p E; cbn [sfreeze_visit]; auto. unfold sfreeze_pod. cbn [fst]. auto.
    - intros size sg [x|xs|ds] p E; cbn [sfreeze_visit]; auto. unfold sfreeze_vec, sfreeze_pod. cbn [fst]. auto.
    - intros ms IH [x|xs|ds] p E; cbn; auto.
    - intros ds p E. exact E.
    - intros nm l0 IHl ms IHm [|d0 ds] p E; cbn; auto. }
  cbv zeta. assert (Y : os_good (fst (freeze_stream dev l d flags (os_open true))) = true /\ os_file (fst (freeze_stream dev l d flags (os_open true))) = []).
  { unfold freeze_stream. apply X. cbn. auto. }
  split; [apply Y|]. unfold freeze_file. rewrite stream_count. f_equal. destruct Y as (G & F). unfold os_close. rewrite G. unfold os_flush. cbn [os_file]. rewrite F.
  pose proof (zlen_nonneg (os_pending (fst (freeze_stream dev l d flags (os_open true))))).
  replace (Z.max 0 (Z.min 0 (zlen (os_pending (fst (freeze_stream dev l d flags (os_open true))))))) with 0 by lia. reflexivity.
Qed.

(** ** the string adaptor *)
Lemma adaptor_bytes s : range_bytes (c_str s) (identity_adaptor (stl_string_adaptor s)) = Ok (s ++ [0]).
Proof.
  unfold range_bytes, identity_adaptor, stl_string_adaptor, c_str. cbn [fst snd]. rewrite zlen_app. change (zlen [0]) with 1. pose proof (zlen_nonneg s).
  replace ((0 <=? 0) && (0 <=? zlen s + 1) && (zlen s + 1 <=? zlen s + 1)) with true by lia. f_equal. cbn [Z.to_nat skipn]. apply firstn_all2. rewrite app_length. unfold zlen. cbn. lia.
Qed.
Lemma adaptor_inj s t : s ++ [0] = t ++ [0] -> s = t.
Proof. apply app_inv_tail. Qed.
Lemma adaptor_free s : forall t, Forall (fun b => 0 < b) s -> Forall (fun b => 0 < b) t -> prefix (s ++ [0]) (t ++ [0]) -> s = t.
Proof.
  induction s as [|x s IH]; intros [|y t] Hs Ht (u & E); auto.
  - injection E as E _. inversion Ht; subst. lia.
  - injection E as E _. inversion Hs; subst. lia.
  - inversion Hs; subst. inversion Ht; subst. cbn in E. injection E as -> E. f_equal. apply IH; auto. exists u. exact E.
Qed.
Lemma adaptor_order s : forall t, Forall (fun b => 0 < b) s -> Forall (fun b => 0 < b) t -> lex (s ++ [0]) (t ++ [0]) <-> lex s t.
Proof.
  induction s as [|x s IH]; intros [|y t] Hs Ht; cbn [app]; split; intros L.
  - inversion L; subst; try lia. match goal with H : lex [] [] |- _ => inversion H end.
  - inversion L.
  - constructor.
  - inversion Ht; subst. apply lex_lt. lia.
  - inversion Hs; subst. inversion L; subst; try lia; try match goal with H : lex _ [] |- _ => inversion H end.
  - inversion L.
  - inversion Hs; subst. inversion Ht; subst. inversion L; subst; [apply lex_lt; auto|apply lex_eq, IH; auto].
  - inversion Hs; subst. inversion Ht; subst. inversion L; subst; [apply lex_lt; auto|apply lex_eq, IH; auto].
Qed.
Lemma adaptor_nul s u : prefix (s ++ [0]) ((s ++ 0 :: u) ++ [0]) /\ s <> s ++ 0 :: u.
Proof.
  split; [exists (u ++ [0]); rewrite <- !app_assoc; reflexivity|]. intros C. apply (f_equal (@length Z)) in C. rewrite app_length in C. cbn in C. lia.
Qed.
Lemma adaptor_ok s : range_bytes (c_str s) (identity_adaptor (stl_string_adaptor s)) = Ok (s ++ [0]) /\ forall t, s ++ [0] = t ++ [0] -> s = t.
Proof. split; [apply adaptor_bytes|apply adaptor_inj]. Qed.
Lemma adaptor_keys s t : Forall (fun b => 0 < b) s -> Forall (fun b => 0 < b) t ->
  (prefix (s ++ [0]) (t ++ [0]) -> s = t) /\ (lex (s ++ [0]) (t ++ [0]) <-> lex s t).
Proof. intros. split; [apply adaptor_free|apply adaptor_order]; auto. Qed.
Lemma file_count dev l d flags :
  (forall s, snd (freeze_stream dev l d flags s) = snd (freeze l d flags)) /\
  (forall last, freeze_file dev false last l d flags = ([], snd (freeze l d flags))).
Proof.
  split; [intros; apply stream_count|]. intros last. unfold freeze_file. rewrite stream_count, stream_bad by reflexivity. reflexivity.
Qed.
