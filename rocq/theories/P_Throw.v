(** Proofs about mappable_vector when calls throw. *)
From Verif Require Import Base Spec Lib M_MVec M_Throw S_MVec S_Throw P_MVec.

(** ** the same state where vectors without elements are empty *)
Definition mask (c : xcontents) : contents :=
  mk_ct (fun i => match xc_vecs c i with Some (Some xs) => Some xs | Some None => Some [] | None => None end) (xc_std c).
Definition same_but (c : option (option (list Z))) (v v0 : option vec) : Prop :=
  match c with
  | Some None => (exists n, 0 < n /\ v = Some (mk_vec Null n None)) /\ v0 = Some vec_default
  | _ => v = v0
  end.
Definition xinv (s : state) (c : xcontents) : Prop :=
  exists vs0, inv (mk_st (st_heap s) vs0 (st_std s)) (mask c) /\ forall i, same_but (xc_vecs c i) (st_vecs s i) (vs0 i).

Lemma mask_alive c i : xalive c i -> alive (mask c) i.
Proof. unfold xalive, alive, mask. cbn. destruct (xc_vecs c i) as [[xs|]|]; congruence. Qed.
Lemma mask_dead c i : ~ xalive c i -> ~ alive (mask c) i.
Proof. unfold xalive, alive, mask. cbn. destruct (xc_vecs c i) as [[xs|]|]; intros H K; apply H; congruence. Qed.
Lemma mask_intact c j xs : ct_vecs (intact c) j = Some xs -> ct_vecs (mask c) j = Some xs /\ xc_vecs c j = Some (Some xs).
Proof. unfold intact, mask. cbn. destruct (xc_vecs c j) as [[ys|]|]; try discriminate. intros H. injection H as ->. auto. Qed.
Lemma mask_range c r : range_legal (intact c) r -> range_legal (mask c) r /\ range_value (mask c) r = range_value (intact c) r.
Proof.
  destruct r as [xs|j|j a b]; cbn [range_legal range_value]; auto.
  - unfold alive. intros H. destruct (ct_vecs (intact c) j) as [xs|] eqn:E; [|congruence]. apply mask_intact in E. destruct E as (-> & _). split; [discriminate|auto].
  - intros (xs & E & H). pose proof (mask_intact _ _ _ E) as (E' & _). split; [exists xs; auto|]. rewrite E, E'. reflexivity.
Qed.

(** an argument denotes the same in both states *)
Lemma same_arg h c vs vs0 r : (forall i, same_but (xc_vecs c i) (vs i) (vs0 i)) -> range_legal (intact c) r ->
  pass vs r = pass vs0 r /\ forall a, pass vs0 r = Ok a -> elements h vs a = elements h vs0 a.
Proof.
  intros S L. destruct r as [xs|j|j a b]; cbn [pass range_legal] in *.
  - split; [auto|]. intros a H. injection H as <-. reflexivity.
  - split; [auto|]. intros a H. injection H as <-. cbn [elements]. specialize (S j). unfold alive, intact in L. cbn [ct_vecs] in L.
    destruct (xc_vecs c j) as [[xs|]|]; cbn [same_but] in S; try congruence.
  - destruct L as (xs & E & _). apply mask_intact in E. destruct E as (_ & E). specialize (S j). rewrite E in S. cbn [same_but] in S. rewrite S.
    split; [auto|]. intros a' H. destruct (vs0 j); cbn [the bind] in H; [|discriminate]. injection H as <-. reflexivity.
Qed.
Lemma same_some c v v0 : same_but c v v0 -> forall u0, v0 = Some u0 -> exists u, v = Some u /\ m_deleter u = m_deleter u0.
Proof.
  destruct c as [[xs|]|]; cbn [same_but]; intros H u0 E; try (subst; eauto; fail).
  destruct H as ((n & _ & ->) & ->). injection E as <-. eexists. split; [reflexivity|reflexivity].
Qed.
Lemma clear_same h u u0 : m_deleter u = m_deleter u0 -> vec_clear h u = vec_clear h u0.
Proof. intros E. unfold vec_clear. rewrite !vec_swap_ok. unfold vec_destroy. rewrite E. reflexivity. Qed.
Lemma destroy_same h u u0 : m_deleter u = m_deleter u0 -> vec_destroy h u = vec_destroy h u0.
Proof. intros E. unfold vec_destroy. rewrite E. reflexivity. Qed.

Lemma same_set c vs vs0 i x v v0 : (forall j, same_but (c j) (vs j) (vs0 j)) -> same_but x v v0 ->
  forall j, same_but (assigned c i x j) (assigned vs i v j) (assigned vs0 i v0 j).
Proof. intros H K j. unfold assigned. destruct (Nat.eqb j i); auto. Qed.

Lemma inv_contents s c c' : inv s c -> (forall j, ct_vecs c' j = ct_vecs c j) -> (forall k, ct_std c' k = ct_std c k) -> inv s c'.
Proof.
  destruct s as [h vs sv]. intros H E1 E2. pose proof H as (_ & _ & _ & H4). cbn in H4. eapply inv_ext; [exact H|auto|auto|]. intros k. rewrite E2. auto.
Qed.

Lemma clear_default h v h' v' : vec_clear h v = Ok (h', v') -> v' = vec_default.
Proof. unfold vec_clear. rewrite vec_swap_ok. destruct (vec_destroy h v); cbn [bind]; congruence. Qed.

Ltac same_contents := intros; cbn [mask ct_vecs ct_std xc_vecs xc_std meaning xmeaning]; unfold assigned;
  repeat match goal with |- context [Nat.eqb ?a ?b] => destruct (Nat.eqb a b) eqn:? end; try reflexivity; auto.

Lemma xstep_ok s c w o : xinv s c -> only_new w -> xallowed c o ->
  exists s', xstep s w o = Ok (s', throws c w o) /\ xinv s' (xmeaning c w o).
Proof.
  destruct s as [h vs sv]. intros (vs0 & H & S) (Wd & Wr) A. cbn [st_heap st_vecs st_std] in *.
  assert (AL : forall i, xalive c i -> exists v v0, vs i = Some v /\ vs0 i = Some v0 /\ m_deleter v = m_deleter v0).
  { intros i Ai. destruct (inv_alive _ _ _ H (mask_alive _ _ Ai)) as (v0 & xs & E0 & _). cbn [st_vecs] in E0.
    destruct (same_some _ _ _ (S i) _ E0) as (v & E & D). eauto. }
  assert (CL : forall i, xalive c i -> exists v h', vs i = Some v /\ vec_clear h v = Ok (h', vec_default) /\
            inv (mk_st h' (assigned vs0 i (Some vec_default)) sv) (mk_ct (assigned (ct_vecs (mask c)) i (Some [])) (xc_std c))).
  { intros i Ai. destruct (AL i Ai) as (v & v0 & E & E0 & D). pose proof (step_ok _ _ (VClear i) H (mask_alive _ _ Ai)) as (s' & St & I').
    cbn [step] in St. rewrite E0 in St. cbn [the bind] in St. destruct (vec_clear h v0) as [[h' v']|] eqn:C; cbn [bind] in St; [|discriminate].
    injection St as <-. pose proof (clear_default _ _ _ _ C) as ->. exists v, h'. split; [auto|]. rewrite (clear_same _ _ _ D). split; [auto|]. exact I'. }
  assert (Hstd : forall k, sv k = xc_std c k) by (destruct H as (_ & _ & _ & H4); exact H4).
  destruct o as [i|i r|i|i j|i|i k|i r|i xs|k xs]; cbn [xallowed throws] in *.
  - destruct (step_ok _ _ (VNew i) H (mask_dead _ _ A)) as (s' & St & I'). cbn [step] in St. injection St as <-.
    eexists. split; [reflexivity|]. exists (assigned vs0 i (Some vec_default)). cbn [st_heap st_vecs st_std]. split.
    + eapply inv_contents; [exact I'| |]; same_contents.
    + cbn [xmeaning xc_vecs]. apply same_set; [auto|]. reflexivity.
  - destruct A as (A & L). destruct (mask_range _ _ L) as (L' & V). destruct (same_arg h _ _ _ _ S L) as (P & Q).
    destruct (elements_ok _ _ _ _ _ H L') as (a & Pa & Ea). cbn [xstep]. rewrite P, Pa. cbn [bind]. unfold xvec_of. rewrite (Q _ Pa), Ea, Wd, Wr, V in *.
    destruct (w_new w) eqn:Wn; cbn [bind].
    + eexists. split; [reflexivity|]. cbn [xmeaning]. rewrite Wn. exists vs0. auto.
    + unfold alloc. eexists. split; [reflexivity|]. cbn [xmeaning]. rewrite Wn.
      destruct (step_ok _ _ (VFrom i r) H (conj (mask_dead _ _ A) L')) as (s' & St & I'). cbn [step] in St. rewrite Pa in St. cbn [bind] in St. rewrite Ea in St. cbn [bind] in St.
      unfold vec_of, alloc in St. injection St as <-. eexists. cbn [st_heap st_vecs st_std]. split.
      * eapply inv_contents; [exact I'| |]; same_contents. rewrite V. reflexivity.
      * cbn [xc_vecs]. apply same_set; [auto|]. reflexivity.
  - destruct (AL i A) as (v & v0 & E & E0 & D). destruct (step_ok _ _ (VDestroy i) H (mask_alive _ _ A)) as (s' & St & I').
    cbn [xstep step] in *. rewrite E0 in St. rewrite E. cbn [the bind] in *. rewrite (destroy_same _ _ _ D). destruct (vec_destroy h v0) as [h'|]; cbn [bind] in *; [|discriminate].
    injection St as <-. eexists. split; [reflexivity|]. eexists. cbn [st_heap st_vecs st_std]. split.
    + eapply inv_contents; [exact I'| |]; same_contents.
    + cbn [xmeaning xc_vecs]. apply same_set; [auto|]. reflexivity.
  - destruct A as (A1 & A2). destruct (AL i A1) as (v & v0 & E & E0 & D). destruct (AL j A2) as (u & u0 & F & F0 & D').
    destruct (step_ok _ _ (VSwap i j) H (conj (mask_alive _ _ A1) (mask_alive _ _ A2))) as (s' & St & I'). cbn [xstep step] in *. rewrite E0, F0 in St. rewrite E, F. cbn [the bind] in *.
    rewrite vec_swap_ok in *. injection St as <-. cbn [bind]. eexists. split; [reflexivity|]. eexists. cbn [st_heap st_vecs st_std]. split.
    + eapply inv_contents; [exact I'| |]; same_contents.
    + cbn [xmeaning xc_vecs]. apply same_set; [apply same_set; [auto|]|].
      * rewrite <- F, <- F0. auto.
      * rewrite <- E, <- E0. auto.
  - destruct (CL i A) as (v & h' & E & C & I'). cbn [xstep step]. rewrite E. cbn [the bind]. rewrite C. cbn [bind]. eexists. split; [reflexivity|].
    eexists. cbn [st_heap st_vecs st_std]. split.
    + eapply inv_contents; [exact I'| |]; same_contents.
    + cbn [xmeaning xc_vecs]. apply same_set; [auto|]. reflexivity.
  - destruct (AL i A) as (v & v0 & E & E0 & D). destruct (CL i A) as (v' & h' & E' & C & I'). assert (v' = v) by congruence. subst v'.
    cbn [xstep]. rewrite E. cbn [the bind]. unfold xvec_steal. rewrite C. cbn [bind vec_default m_size m_data m_deleter]. cbn [xmeaning throws]. rewrite !Hstd, Wd.
    destruct (step_ok _ _ (VSteal i k) H (mask_alive _ _ A)) as (s' & St & I2). cbn [step] in St. rewrite E0 in St. cbn [the bind] in St.
    unfold vec_steal in St. rewrite <- (clear_same _ _ _ D), C in St. cbn [bind vec_default m_size m_data m_deleter] in St. rewrite !Hstd in St.
    destruct (Z.eqb_spec (zlen (xc_std c k)) 0) as [Z0|NZ].
    + cbn [negb]. rewrite andb_false_r. cbn [bind] in *. injection St as <-. eexists. split; [reflexivity|]. eexists. cbn [st_heap st_vecs st_std]. split.
      * eapply inv_contents; [exact I2| |]; same_contents.
      * cbn [xc_vecs]. apply same_set; [auto|]. reflexivity.
    + cbn [negb]. rewrite andb_true_r. destruct (w_new w) eqn:Wn; cbn [bind].
      * eexists. split; [reflexivity|]. exists (assigned vs0 i (Some vec_default)). cbn [st_heap st_vecs st_std]. split.
        { destruct I' as (J1 & J2 & J3 & J4). split; [|split; [|split]]; cbn [st_heap st_vecs st_std] in *; auto.
          - intros l. specialize (J1 l). cbn [mask ct_vecs xc_vecs] in *. unfold assigned in *. destruct (Nat.eqb l i); auto.
          - intros l. cbn [mask ct_std xc_std]. unfold set. destruct (Nat.eqb_spec l k) as [->|]; auto. }
        { cbn [xc_vecs]. apply same_set; [auto|]. cbn [same_but]. split; [|reflexivity]. exists (zlen (xc_std c k)). split; [|reflexivity]. pose proof (zlen_nonneg (xc_std c k)). lia. }
      * unfold alloc in *. cbn [bind] in *. injection St as <-. eexists. split; [reflexivity|]. eexists. cbn [st_heap st_vecs st_std]. split.
        { eapply inv_contents; [exact I2| |]; same_contents. }
        { cbn [xc_vecs]. apply same_set; [auto|]. reflexivity. }
  - destruct A as (A & L & N). destruct (mask_range _ _ L) as (L' & V). destruct (AL i A) as (v & v0 & E & E0 & D).
    destruct (CL i A) as (v' & h' & E' & C & I'). assert (v' = v) by congruence. subst v'.
    destruct (same_arg h _ _ _ _ S L) as (P & _). destruct (elements_frame _ _ _ _ _ _ _ H L' N E0) as (a & h2 & Pa & C2 & Ea & _).
    rewrite <- (clear_same _ _ _ D), C in C2. injection C2 as <-. rewrite V in Ea.
    assert (Q : elements h' (assigned vs i (Some vec_default)) a = Ok (range_value (intact c) r)).
    { rewrite <- Ea. clear - S L N Pa. destruct r as [xs|j|j x y]; cbn [pass range_of range_legal] in *.
      - injection Pa as <-. reflexivity.
      - injection Pa as <-. cbn [elements]. rewrite !assigned_other by auto. specialize (S j). unfold alive, intact in L. cbn [ct_vecs] in L.
        destruct (xc_vecs c j) as [[xs|]|]; cbn [same_but] in S; congruence.
      - destruct (vs0 j); cbn [the bind] in Pa; [|discriminate]. injection Pa as <-. reflexivity. }
    cbn [xstep]. rewrite P, Pa. cbn [bind]. rewrite E. cbn [the bind]. rewrite C. cbn [bind]. unfold xvec_of. rewrite Wd, Wr. cbn [xmeaning].
    change @set with @assigned. destruct (w_new w) eqn:Wn; cbn [bind].
    + eexists. split; [reflexivity|]. eexists. cbn [st_heap st_vecs st_std]. split.
      * eapply inv_contents; [exact I'| |]; same_contents.
      * cbn [xc_vecs]. apply same_set; [auto|]. reflexivity.
    + rewrite Q. cbn [bind]. unfold alloc. cbv iota beta. cbn [bind]. rewrite vec_swap_ok. unfold vec_destroy. cbn [vec_default m_deleter bind]. eexists. split; [reflexivity|].
      destruct (step_ok _ _ (VAssign i r) H (conj (mask_alive _ _ A) (conj L' N))) as (s' & St & I2). cbn [step] in St. rewrite Pa in St. cbn [bind] in St. rewrite E0 in St. cbn [the bind] in St.
      rewrite <- (clear_same _ _ _ D), C in St. cbn [bind] in St. change @set with @assigned in St. rewrite Ea in St. cbn [bind] in St. unfold vec_of, alloc in St. rewrite vec_swap_ok in St.
      unfold vec_destroy in St. cbn [vec_default m_deleter bind] in St. injection St as <-. eexists. cbn [st_heap st_vecs st_std]. split.
      * eapply inv_contents; [exact I2| |]; same_contents. rewrite V. reflexivity.
      * change @set with @assigned. cbn [xc_vecs]. intros l. pose proof (S l) as Sl. unfold assigned. destruct (Nat.eqb l i); auto. reflexivity.
  - destruct (CL i A) as (v & h' & E & C & _). destruct (AL i A) as (v' & v0 & E' & E0 & D). assert (v' = v) by congruence. subst v'.
    destruct (step_ok _ _ (VMap i xs) H (mask_alive _ _ A)) as (s' & St & I'). cbn [xstep step] in *. rewrite E0 in St. rewrite E. cbn [the bind] in *.
    unfold vec_map_file in *. rewrite <- (clear_same _ _ _ D), C in St. rewrite C. cbn [bind vec_default m_deleter] in *. injection St as <-. eexists. split; [reflexivity|].
    eexists. cbn [st_heap st_vecs st_std]. split.
    + eapply inv_contents; [exact I'| |]; same_contents.
    + cbn [xmeaning xc_vecs]. apply same_set; [auto|]. reflexivity.
  - destruct (step_ok _ _ (SSet k xs) H I) as (s' & St & I'). cbn [xstep step] in *. injection St as <-. cbn [bind]. eexists. split; [reflexivity|].
    eexists. cbn [st_heap st_vecs st_std]. split.
    + eapply inv_contents; [exact I'| |]; same_contents.
    + cbn [xmeaning xc_vecs]. auto.
Qed.

Lemma xrun_ok os : forall s c c' ts, xinv s c -> xhistory c os c' ts -> exists s', xrun s os = Ok (s', ts) /\ xinv s' c'.
Proof.
  induction os as [|[w o] os IH]; intros s c c' [|t ts] H L; cbn [xhistory xrun] in *; try contradiction.
  - subst. eauto.
  - destruct L as (W & A & -> & L). destruct (xstep_ok _ _ _ _ H W A) as (s' & -> & I'). cbn [bind].
    destruct (IH _ _ _ _ I' L) as (s2 & -> & I2). cbn [bind]. eauto.
Qed.
Lemma xstart : xinv start xnothing.
Proof. exists (fun _ => None). split; [exact start_inv|]. reflexivity. Qed.

Lemma xinv_facts s c : xinv s c ->
  (forall i xs, xc_vecs c i = Some (Some xs) -> exists v, st_vecs s i = Some v /\ shows (st_heap s) v xs) /\
  (forall i, xc_vecs c i = Some None -> exists v, st_vecs s i = Some v /\ hollow (st_heap s) v) /\
  (forall i, xc_vecs c i = None -> st_vecs s i = None) /\
  (forall b, unreleased (st_heap s) b <-> exists i v, st_vecs s i = Some v /\ owns v b) /\
  (forall i j v w b, st_vecs s i = Some v -> st_vecs s j = Some w -> owns v b -> owns w b -> i = j) /\
  (forall k, st_std s k = xc_std c k).
Proof.
  intros (vs0 & H & S).
  assert (OW : forall i v b, st_vecs s i = Some v -> owns v b -> vs0 i = Some v).
  { intros i v b E O. specialize (S i). rewrite E in S. destruct (xc_vecs c i) as [[xs|]|]; cbn [same_but] in S; auto.
    destruct S as ((n & _ & Ev) & _). injection Ev as ->. discriminate. }
  assert (OW0 : forall i v b, vs0 i = Some v -> owns v b -> st_vecs s i = Some v).
  { intros i v b E O. specialize (S i). rewrite E in S. destruct (xc_vecs c i) as [[xs|]|]; cbn [same_but] in S; auto.
    destruct S as (_ & Ev). injection Ev as ->. discriminate. }
  pose proof H as (H1 & H2 & H3 & H4). cbn [st_heap st_vecs st_std] in *.
  split; [|split; [|split; [|split; [|split]]]].
  - intros i xs C. specialize (H1 i). specialize (S i). rewrite C in S. cbn [same_but] in S. rewrite S. cbn [mask ct_vecs] in H1. rewrite C in H1.
    destruct (vs0 i) as [v|]; [|contradiction]. exists v. auto using holds_shows.
  - intros i C. specialize (S i). rewrite C in S. destruct S as ((n & N & ->) & _). eexists. split; [reflexivity|]. split; [exact N|].
    intros m M. unfold vec_get. cbn [m_size m_data] in *. replace ((0 <=? m) && (m <? n)) with true by lia. reflexivity.
  - intros i C. specialize (H1 i). specialize (S i). rewrite C in S. cbn [same_but] in S. rewrite S. cbn [mask ct_vecs] in H1. rewrite C in H1. destruct (vs0 i); [contradiction|auto].
  - intros b. split.
    + intros U. destruct (H3 b U) as (i & v & V & O). exists i, v. split; [eauto|auto].
    + intros (i & v & V & O). pose proof (OW _ _ _ V O) as V0. specialize (H1 i). rewrite V0 in H1. destruct (ct_vecs (mask c) i) as [xs|]; [|contradiction]. unfold owns in O.
      destruct H1 as (_ & [(b' & D & _ & U)|[(D & _)|(D & _)]]); try congruence. assert (b' = b) by congruence. subst. exists xs. auto.
  - intros i j v w b V W O O'. eauto.
  - auto.
Qed.

Lemma xhistory_ok os c ts : xhistory xnothing os c ts -> exists s, xrun start os = Ok (s, ts) /\
  (forall i xs, xc_vecs c i = Some (Some xs) -> exists v, st_vecs s i = Some v /\ shows (st_heap s) v xs) /\
  (forall i, xc_vecs c i = Some None -> exists v, st_vecs s i = Some v /\ hollow (st_heap s) v) /\
  (forall i, xc_vecs c i = None -> st_vecs s i = None) /\
  (forall b, unreleased (st_heap s) b <-> exists i v, st_vecs s i = Some v /\ owns v b) /\
  (forall i j v w b, st_vecs s i = Some v -> st_vecs s j = Some w -> owns v b -> owns w b -> i = j) /\
  (forall k, st_std s k = xc_std c k).
Proof. intros L. destruct (xrun_ok _ _ _ _ _ xstart L) as (s & E & H). exists s. split; [auto|]. apply xinv_facts, H. Qed.

Lemma xrun_app os : forall s o, xrun s (os ++ [o]) = do (s, ts) <- xrun s os; do (s, t) <- xstep s (fst o) (snd o); Ok (s, ts ++ [t]).
Proof.
  induction os as [|[w' o'] os IH]; intros s [w o]; cbn [app xrun fst snd].
  - cbn [bind]. destruct (xstep s w o) as [[s' t]|]; reflexivity.
  - destruct (xstep s w' o') as [[s' t]|]; cbn [bind]; [|reflexivity]. rewrite IH. destruct (xrun s' os) as [[s2 ts]|]; cbn [bind fst snd]; [|reflexivity].
    destruct (xstep s2 w o) as [[s3 t3]|]; reflexivity.
Qed.

(** ** steal *)
Lemma steal_hollow os c ts i k w : xhistory xnothing os c ts -> xalive c i -> xc_std c k <> [] -> w_new w = true ->
  exists s v, xrun start (os ++ [(w, VSteal i k)]) = Ok (s, ts ++ [true]) /\ st_std s k = xc_std c k /\
  st_vecs s i = Some v /\ m_size v = zlen (xc_std c k) /\ hollow (st_heap s) v.
Proof.
  intros L A N Wn. destruct (xrun_ok _ _ _ _ _ xstart L) as (s & E & H). rewrite xrun_app, E. cbn [bind fst snd].
  pose proof (xinv_facts _ _ H) as (_ & _ & _ & _ & _ & St). destruct s as [h vs sv]. cbn [st_heap st_vecs st_std] in *.
  destruct H as (vs0 & H & S). cbn [st_heap st_vecs st_std] in *. destruct (inv_alive _ _ _ H (mask_alive _ _ A)) as (v0 & xs & E0 & _). cbn [st_vecs] in E0.
  destruct (same_some _ _ _ (S i) _ E0) as (v & Ev & D). destruct (clear_ok _ _ _ _ _ _ H E0) as (h' & C & _). rewrite <- (clear_same _ _ _ D) in C.
  cbn [xstep]. rewrite Ev. cbn [the bind]. unfold xvec_steal. rewrite C. cbn [bind vec_default m_size m_data m_deleter]. rewrite Wn, St.
  assert (P : 0 < zlen (xc_std c k)). { destruct (xc_std c k); [congruence|]. rewrite zlen_cons. pose proof (zlen_nonneg l). lia. }
  destruct (Z.eqb_spec (zlen (xc_std c k)) 0) as [?|_]; [lia|]. cbn [bind]. eexists _, _. split; [reflexivity|]. cbn [st_heap st_vecs st_std]. change @set with @assigned.
  rewrite !assigned_same. split; [reflexivity|]. split; [reflexivity|]. split; [reflexivity|]. split; [exact P|].
  intros m M. unfold vec_get. cbn [m_size m_data] in *. replace ((0 <=? m) && (m <? zlen (xc_std c k))) with true by lia. reflexivity.
Qed.

(** ** lost buffers *)
Definition lost (s : state) (b : nat) : Prop :=
  unreleased (st_heap s) b /\ forall i v, st_vecs s i = Some v -> ~ owns v b.

Lemma free_other h b b' h' : free h b = Ok h' -> b <> b' -> unreleased h b' -> unreleased h' b'.
Proof.
  unfold free. destruct (nth_error h b) as [[x|]|]; try discriminate. intros H N (xs & U). injection H as <-. exists xs. rewrite update_other; auto.
Qed.
Lemma destroy_other h v b h' : vec_destroy h v = Ok h' -> ~ owns v b -> unreleased h b -> unreleased h' b.
Proof.
  unfold vec_destroy, owns. destruct (m_deleter v) as [b'|]; intros H N U; [|congruence]. eapply free_other; eauto.
Qed.
Lemma clear_other h v b h' v' : vec_clear h v = Ok (h', v') -> ~ owns v b -> unreleased h b -> unreleased h' b.
Proof.
  unfold vec_clear. rewrite vec_swap_ok. destruct (vec_destroy h v) as [h2|] eqn:E; cbn [bind]; [|discriminate]. intros H N U. injection H as <- _. eapply destroy_other; eauto.
Qed.
Lemma unreleased_lt h b : unreleased h b -> (b < length h)%nat.
Proof. intros (xs & U). apply nth_error_Some. congruence. Qed.
Lemma unreleased_app h b x : unreleased h b -> unreleased (h ++ [x]) b.
Proof. intros U. pose proof (unreleased_lt _ _ U). destruct U as (xs & U). exists xs. rewrite nth_error_app1; auto. Qed.
Lemma lost_set h h' vs sv sv' b i x : lost (mk_st h vs sv) b -> unreleased h' b -> (forall v, x = Some v -> ~ owns v b) ->
  lost (mk_st h' (assigned vs i x) sv') b.
Proof.
  intros (_ & N) U K. split; [exact U|]. cbn [st_vecs] in *. intros j v. unfold assigned. destruct (Nat.eqb j i); [apply K|apply N].
Qed.
Lemma the_inv {A} (x : option A) y : the x = Ok y -> x = Some y.
Proof. destruct x; cbn; congruence. Qed.
Lemma no_owner_default b : ~ owns vec_default b.
Proof. discriminate. Qed.
Lemma no_owner_new (h : heap) b p n : (b < length h)%nat -> ~ owns (mk_vec p n (Some (length h))) b.
Proof. unfold owns. cbn. intros L E. injection E as E. lia. Qed.

Lemma xvec_of_lost w h vs a h' v b : xvec_of w h vs a = Ok (h', v) -> unreleased h b ->
  unreleased h' b /\ forall u, v = Some u -> ~ owns u b.
Proof.
  unfold xvec_of. intros H U. destruct (w_new w); [injection H as <- <-; split; [auto|discriminate]|].
  destruct (elements h vs a) as [xs|]; cbn [bind] in H; [|discriminate]. unfold alloc in H.
  destruct (w_deleter w); [injection H as <- <-; split; [apply unreleased_app; auto|discriminate]|].
  destruct (match w_range w with Some n => n <? zlen xs | None => false end); injection H as <- <-; (split; [apply unreleased_app; auto|]); [discriminate|].
  intros u E. injection E as <-. apply no_owner_new, unreleased_lt, U.
Qed.

Lemma xstep_lost s w o s' t b : xstep s w o = Ok (s', t) -> lost s b -> lost s' b.
Proof.
  destruct s as [h vs sv]. intros H Lo. pose proof Lo as (U & N). cbn [st_heap st_vecs] in U, N.
  destruct o as [i|i r|i|i j|i|i k|i r|i xs|k xs]; cbn [xstep step] in H; change @set with @assigned in H.
  - cbn [bind] in H. injection H as <- _. eapply lost_set; [exact Lo|exact U|]. intros v E. injection E as <-. apply no_owner_default.
  - apply bind_inv in H. destruct H as (a & _ & H). apply bind_inv in H. destruct H as ([h' v] & X & H). destruct (xvec_of_lost _ _ _ _ _ _ _ X U) as (U' & V').
    destruct v as [v|]; injection H as <- _; [eapply lost_set; [exact Lo|exact U'|exact V']|]. split; auto.
  - apply bind_inv in H. destruct H as (s2 & H & K). injection K as <- _. apply bind_inv in H. destruct H as (v & V & H). apply the_inv in V.
    apply bind_inv in H. destruct H as (h' & D & H). injection H as <-. eapply lost_set; [exact Lo|eapply destroy_other; eauto|discriminate].
  - apply bind_inv in H. destruct H as (s2 & H & K). injection K as <- _. apply bind_inv in H. destruct H as (v & V & H). apply the_inv in V.
    apply bind_inv in H. destruct H as (u & V' & H). apply the_inv in V'. rewrite vec_swap_ok in H. injection H as <-.
    apply (lost_set h h _ sv sv); [apply (lost_set h h _ sv sv); [exact Lo|exact U|]|exact U|]; intros x E; injection E as <-; eauto.
  - apply bind_inv in H. destruct H as (s2 & H & K). injection K as <- _. apply bind_inv in H. destruct H as (v & V & H). apply the_inv in V.
    apply bind_inv in H. destruct H as ([h' v'] & D & H). injection H as <-. pose proof (clear_default _ _ _ _ D) as ->.
    eapply lost_set; [exact Lo|eapply clear_other; eauto|]. intros x E. injection E as <-. apply no_owner_default.
  - apply bind_inv in H. destruct H as (v & V & H). apply the_inv in V. apply bind_inv in H. destruct H as ([[[h' v'] src] t'] & X & H). injection H as <- _.
    unfold xvec_steal in X. apply bind_inv in X. destruct X as ([h2 v2] & D & X). pose proof (clear_default _ _ _ _ D) as ->. pose proof (clear_other _ _ _ _ _ D (N _ _ V) U) as U2.
    cbn [vec_default m_size m_data m_deleter] in X. unfold alloc in X.
    destruct (zlen (sv k) =? 0); [|destruct (w_new w); [|destruct (w_deleter w)]]; injection X as <- <- <- _; (eapply lost_set; [exact Lo| |]);
      try (apply unreleased_app; exact U2); try exact U2; intros x E; injection E as <-; try discriminate.
    apply no_owner_new, unreleased_lt, U2.
  - apply bind_inv in H. destruct H as (a & _ & H). apply bind_inv in H. destruct H as (v & V & H). apply the_inv in V. apply bind_inv in H. destruct H as ([h2 v2] & D & H).
    pose proof (clear_default _ _ _ _ D) as ->. pose proof (clear_other _ _ _ _ _ D (N _ _ V) U) as U2.
    apply bind_inv in H. destruct H as ([h' tmp] & X & H). destruct (xvec_of_lost _ _ _ _ _ _ _ X U2) as (U' & V').
    assert (L2 : forall h, unreleased h b -> lost (mk_st h (assigned vs i (Some vec_default)) sv) b).
    { intros hh Uh. eapply lost_set; [exact Lo|exact Uh|]. intros x E. injection E as <-. apply no_owner_default. }
    destruct tmp as [tmp|].
    + rewrite vec_swap_ok in H. unfold vec_destroy in H. cbn [vec_default m_deleter bind] in H. injection H as <- _. apply (lost_set h' h' _ sv sv); [apply L2; exact U'|exact U'|].
      intros x E. injection E as <-. apply V'. reflexivity.
    + injection H as <- _. apply L2, U'.
  - apply bind_inv in H. destruct H as (s2 & H & K). injection K as <- _. apply bind_inv in H. destruct H as (v & V & H). apply the_inv in V.
    apply bind_inv in H. destruct H as ([h' v'] & D & H). injection H as <-. unfold vec_map_file in D. apply bind_inv in D. destruct D as ([h2 v2] & D & K).
    pose proof (clear_default _ _ _ _ D) as ->. injection K as <- <-. eapply lost_set; [exact Lo|eapply clear_other; eauto|]. intros x E. injection E as <-. discriminate.
  - cbn [bind] in H. injection H as <- _. split; auto.
Qed.
Lemma xrun_lost os : forall s s' ts b, xrun s os = Ok (s', ts) -> lost s b -> lost s' b.
Proof.
  induction os as [|[w o] os IH]; intros s s' ts b H L; cbn [xrun] in H.
  - injection H as <- _. auto.
  - apply bind_inv in H. destruct H as ([s2 t] & St & H). apply bind_inv in H. destruct H as ([s3 ts3] & R & H). injection H as <- _.
    eapply IH; eauto. eapply xstep_lost; eauto.
Qed.

(** a call that throws after it made a buffer loses it *)
Lemma late_lost os c ts w o : xhistory xnothing os c ts -> xallowed c o -> throws_late c w o ->
  exists s b, xrun start (os ++ [(w, o)]) = Ok (s, ts ++ [true]) /\ unreleased (st_heap s) b /\
  (forall i v, st_vecs s i = Some v -> ~ owns v b) /\
  (forall more s' ts', xrun s more = Ok (s', ts') -> unreleased (st_heap s') b).
Proof.
  intros L A (Wn & T). destruct (xrun_ok _ _ _ _ _ xstart L) as (s & E & H). rewrite xrun_app, E. cbn [bind fst snd].
  assert (G : exists s' b, xstep s w o = Ok (s', true) /\ lost s' b).
  2:{ destruct G as (s' & b & -> & Lo). cbn [bind]. exists s', b. split; [reflexivity|]. split; [apply Lo|]. split; [apply Lo|]. intros more s2 ts2 R. eapply xrun_lost in R; eauto. apply R. }
  pose proof (xinv_facts _ _ H) as (_ & _ & _ & Fb & _ & St). destruct s as [h vs sv]. cbn [st_heap st_vecs st_std] in *.
  assert (OB : forall i v b, vs i = Some v -> owns v b -> (b < length h)%nat). { intros i v b V O. apply unreleased_lt, Fb. eauto. }
  destruct H as (vs0 & H & S). cbn [st_heap st_vecs st_std] in *.
  assert (NEW : forall h' vs' sv' xs, length h' = length h -> (forall j v b, vs' j = Some v -> owns v b -> (b < length h)%nat) ->
            lost (mk_st (h' ++ [Some xs]) vs' sv') (length h)).
  { intros h' vs' sv' xs Hl Hv. split.
    - exists xs. cbn [st_heap]. rewrite nth_error_app2 by lia. rewrite Hl, Nat.sub_diag. reflexivity.
    - cbn [st_vecs]. intros j v V O. specialize (Hv _ _ _ V O). lia. }
  assert (UL : forall {X} (l : list X) i x, length (update l i x) = length l). { induction l as [|y l IH]; intros [|n] x; cbn; auto. }
  assert (CL : forall i v h' v', vs i = Some v -> vec_clear h v = Ok (h', v') -> length h' = length h).
  { intros i v h' v' _ C. unfold vec_clear in C. rewrite vec_swap_ok in C. unfold vec_destroy in C. destruct (m_deleter v) as [b|]; [|injection C as <- _; reflexivity].
    unfold free in C. destruct (nth_error h b) as [[x|]|]; cbn [bind] in C; try discriminate. injection C as <- _. apply UL. }
  destruct o as [i|i r|i|i j|i|i k|i r|i xs|k xs]; try contradiction; cbn [xallowed xstep] in *; change @set with @assigned.
  - destruct A as (A & La). destruct (mask_range _ _ La) as (L' & V). destruct (same_arg h _ _ _ _ S La) as (P & Q).
    destruct (elements_ok _ _ _ _ _ H L') as (a & Pa & Ea). rewrite P, Pa. cbn [bind]. unfold xvec_of. rewrite (Q _ Pa), Ea, Wn, V in *. cbn [bind]. unfold alloc.
    exists (mk_st (h ++ [Some (range_value (intact c) r)]) vs sv), (length h). split; [|apply NEW; auto].
    destruct (w_deleter w); [reflexivity|]. destruct T as [T|(n & -> & T)]; [discriminate|]. replace (n <? _) with true by lia. reflexivity.
  - destruct T as (Wd & Nn). destruct (inv_alive _ _ _ H (mask_alive _ _ A)) as (v0 & xs & E0 & _). cbn [st_vecs] in E0.
    destruct (same_some _ _ _ (S i) _ E0) as (v & Ev & D). destruct (clear_ok _ _ _ _ _ _ H E0) as (h' & C & _). rewrite <- (clear_same _ _ _ D) in C.
    rewrite Ev. cbn [the bind]. unfold xvec_steal. rewrite C. cbn [bind vec_default m_size m_data m_deleter]. rewrite Wn, Wd, St. unfold alloc.
    assert (P : 0 < zlen (xc_std c k)). { destruct (xc_std c k); [congruence|]. rewrite zlen_cons. pose proof (zlen_nonneg l). lia. }
    destruct (Z.eqb_spec (zlen (xc_std c k)) 0) as [?|_]; [lia|]. cbn [bind]. eexists _, (length h). split; [reflexivity|]. apply NEW; [eapply CL; eauto|].
    intros j u b. unfold assigned. destruct (Nat.eqb j i); [|apply OB]. intros X O. injection X as <-. discriminate.
  - destruct A as (A & La & N). destruct (mask_range _ _ La) as (L' & V). destruct (inv_alive _ _ _ H (mask_alive _ _ A)) as (v0 & xs & E0 & _). cbn [st_vecs] in E0.
    destruct (same_some _ _ _ (S i) _ E0) as (v & Ev & D). destruct (same_arg h _ _ _ _ S La) as (P & _).
    destruct (elements_frame _ _ _ _ _ _ _ H L' N E0) as (a & h2 & Pa & C2 & Ea & _). rewrite <- (clear_same _ _ _ D) in C2. rewrite V in Ea.
    assert (Q : elements h2 (assigned vs i (Some vec_default)) a = Ok (range_value (intact c) r)).
    { rewrite <- Ea. clear - S La N Pa. destruct r as [xs|j|j x y]; cbn [pass range_of range_legal] in *.
      - injection Pa as <-. reflexivity.
      - injection Pa as <-. cbn [elements]. rewrite !assigned_other by auto. specialize (S j). unfold alive, intact in La. cbn [ct_vecs] in La.
        destruct (xc_vecs c j) as [[xs|]|]; cbn [same_but] in S; congruence.
      - destruct (vs0 j); cbn [the bind] in Pa; [|discriminate]. injection Pa as <-. reflexivity. }
    rewrite P, Pa. cbn [bind]. rewrite Ev. cbn [the bind]. rewrite C2. cbn [bind]. unfold xvec_of. rewrite Wn, Q. cbn [bind]. unfold alloc.
    exists (mk_st (h2 ++ [Some (range_value (intact c) r)]) (assigned vs i (Some vec_default)) sv), (length h). split.
    + destruct (w_deleter w); [reflexivity|]. destruct T as [T|(n & -> & T)]; [discriminate|]. replace (n <? _) with true by lia. reflexivity.
    + apply NEW; [eapply CL; eauto|]. intros j u b. unfold assigned. destruct (Nat.eqb j i); [|apply OB]. intros X O. injection X as <-. discriminate.
Qed.

(** ** in fair weather nothing throws *)
Lemma fair_xstep s o : xstep s fair o = do s <- step s o; Ok (s, false).
Proof.
  destruct s as [h vs sv]. destruct o as [i|i r|i|i j|i|i k|i r|i xs|k xs]; try reflexivity.
  - cbn [xstep step]. destruct (pass vs r) as [a|]; cbn [bind]; [|reflexivity]. unfold xvec_of. cbn [w_new w_deleter w_range fair]. destruct (elements h vs a); reflexivity.
  - cbn [xstep step]. destruct (the (vs i)) as [v|]; cbn [bind]; [|reflexivity]. unfold xvec_steal, vec_steal. destruct (vec_clear h v) as [[h' v']|]; cbn [bind]; [|reflexivity].
    cbn [m_size fair w_new w_deleter]. destruct (zlen (sv k) =? 0); reflexivity.
  - cbn [xstep step]. destruct (pass vs r) as [a|]; cbn [bind]; [|reflexivity]. destruct (the (vs i)) as [v|]; cbn [bind]; [|reflexivity].
    destruct (vec_clear h v) as [[h' v']|]; cbn [bind]; [|reflexivity]. unfold xvec_of. cbn [w_new w_deleter w_range fair]. destruct (elements h' _ a) as [xs|]; cbn [bind]; [|reflexivity].
    unfold vec_of, alloc. cbn [bind]. destruct (vec_swap _ v') as [tmp v2]. destruct (vec_destroy _ tmp); reflexivity.
Qed.
Lemma fair_xrun os : forall s, xrun s (map (pair fair) os) = do s <- run s os; Ok (s, repeat false (length os)).
Proof.
  induction os as [|o os IH]; intros s; cbn [map xrun run length repeat]; [reflexivity|]. rewrite fair_xstep. destruct (step s o) as [s'|]; cbn [bind]; [|reflexivity].
  rewrite IH. destruct (run s' os); reflexivity.
Qed.
