(** Files are closed exactly once *)
From Coq Require Import String.
From Verif Require Import Base Lib M_Util M_LineIter M_AutoFile S_Util S_AutoFile P_BvLib P_Util P_LineIter.
From Coq Require Import ZifyBool ZifyNat.

Lemma times_app e a b : times e (a ++ b) = (times e a + times e b)%nat.
Proof. apply count_occ_app. Qed.
Lemma times_cons e x a : times e (x :: a) = ((if event_eq x e then 1 else 0) + times e a)%nat.
Proof. unfold times. cbn [count_occ]. destruct (event_eq x e); reflexivity. Qed.

Lemma nested_balanced live t : nested live t -> forall f, times (EClose f) t = times (EOpen f) t.
Proof.
  induction 1 as [|live f v _ _ IH|live f u v _ _ IHu _ IHv]; intros g; [reflexivity| |].
  - rewrite !times_cons, IH. destruct (event_eq _ _); [discriminate|]. destruct (event_eq _ _); [discriminate|]. reflexivity.
  - rewrite !times_cons, !times_app, !times_cons, IHu, IHv.
    destruct (event_eq (EOpen f) (EClose g)); [discriminate|]. destruct (event_eq (EClose f) (EOpen g)); [discriminate|].
    destruct (event_eq (EClose f) (EClose g)), (event_eq (EOpen f) (EOpen g)); try congruence; lia.
Qed.
Lemma nested_app live u v : nested live u -> nested live v -> nested live (u ++ v).
Proof.
  induction 1; intros HV; cbn [app]; [exact HV|constructor; auto|]. rewrite <- app_assoc. cbn [app]. constructor; auto.
Qed.

Definition owner (f : nat) : auto_file := mk_af (Some f).

(** the files opened are new, and each is opened once *)
Definition fresh_opens (a b : nat) (t : list event) : Prop := forall f,
  (times (EOpen f) t <= 1)%nat /\ (times (EOpen f) t = 0%nat \/ (a <= f < b)%nat).
Lemma fresh_nil a b : fresh_opens a b [].
Proof. intros f. change (times (EOpen f) []) with O. lia. Qed.
Lemma fresh_app a b c u v : (a <= b)%nat -> (b <= c)%nat -> fresh_opens a b u -> fresh_opens b c v -> fresh_opens a c (u ++ v).
Proof. intros Hab Hbc HU HV f. rewrite times_app. specialize (HU f). specialize (HV f). lia. Qed.

Lemma exec_ok can p : forall live kept w, fs_open w = live -> Forall (fun f => (f < fs_calls w)%nat) live -> scoped (length live) p ->
  exists kept' t, exec can (map owner live) kept w p =
      Ok (fst (ending can (fs_calls w) p), kept', mk_fs (snd (ending can (fs_calls w) p)) live (fs_trace w ++ t)) /\
    nested live t /\ (fs_calls w <= snd (ending can (fs_calls w) p))%nat /\ fresh_opens (fs_calls w) (snd (ending can (fs_calls w) p)) t.
Proof.
  induction p as [|msg|k rest IH|k rest IH|rest IH|name body IHb rest IHr]; intros live kept w HO HL HS; cbn [exec ending].
  - exists kept, []. rewrite app_nil_r. cbn [fst snd]. split; [destruct w; cbn in *; congruence|]. split; [constructor|]. split; [lia|apply fresh_nil].
  - exists kept, []. rewrite app_nil_r. cbn [fst snd]. split; [destruct w; cbn in *; congruence|]. split; [constructor|]. split; [lia|apply fresh_nil].
  - cbn [scoped] in HS. destruct HS as [Hk HS]. rewrite nth_error_map. destruct (nth_error live k) as [f|] eqn:Ef; [|apply nth_error_None in Ef; lia].
    cbn [option_map owner af_get af_file use]. unfold fuse. apply nth_error_In in Ef. rewrite HO. destruct (in_dec Nat.eq_dec f live); [|contradiction]. cbn [bind].
    destruct (IH live kept (mk_fs (fs_calls w) live (fs_trace w ++ [EUse f])) eq_refl HL HS) as (kept' & t & E & N & L & F). cbn [fs_calls fs_trace] in *.
    exists kept', (EUse f :: t). rewrite E, <- app_assoc. split; [reflexivity|]. split; [constructor; auto|]. split; [exact L|].
    intros g. rewrite times_cons. destruct (event_eq _ _); [discriminate|]. apply F.
  - cbn [scoped] in HS. destruct HS as [Hk HS]. rewrite nth_error_map. destruct (nth_error live k) as [f|] eqn:Ef; [|apply nth_error_None in Ef; lia].
    cbn [option_map owner af_get af_file]. apply IH; auto.
  - contradiction.
  - cbn [scoped] in HS. destruct HS as [HSb HSr]. unfold af_new, fopen. destruct (can name (fs_calls w)).
    2:{ exists kept, []. rewrite app_nil_r. cbn [fst snd]. rewrite HO. split; [reflexivity|]. split; [constructor|]. split; [lia|apply fresh_nil]. }
    set (f := fs_calls w) in *. assert (Hf : ~ In f live) by (intros X; rewrite Forall_forall in HL; specialize (HL f X); lia).
    destruct (IHb (f :: live) kept (mk_fs (S f) (f :: fs_open w) (fs_trace w ++ [EOpen f]))) as (kept1 & t1 & E1 & N1 & L1 & F1).
    { cbn [fs_open]. rewrite HO. reflexivity. }
    { cbn [fs_calls]. constructor; [lia|]. eapply Forall_impl; [|exact HL]. cbn. intros; lia. }
    { exact HSb. }
    cbn [fs_calls fs_trace] in *. cbn [map] in E1. unfold owner at 1 in E1. rewrite E1. cbn [bind]. unfold af_delete. cbn [af_file]. unfold fclose. cbn [fs_open fs_calls fs_trace].
    destruct (in_dec Nat.eq_dec f (f :: live)) as [_|X]; [|exfalso; apply X; left; reflexivity]. cbn [bind remove]. destruct (Nat.eq_dec f f); [|contradiction].
    rewrite (notin_remove _ _ _ Hf).
    destruct (ending can (S f) body) as [[msg|] n] eqn:Eb; cbn [fst snd] in *.
    + exists kept1, (EOpen f :: t1 ++ [EClose f]). split; [f_equal; f_equal; rewrite <- !app_assoc; reflexivity|].
      split; [apply nested_pair; auto; constructor|]. split; [lia|].
      intros g. rewrite times_cons, times_app, times_cons. specialize (F1 g). change (times (EOpen g) []) with O.
      destruct (event_eq (EClose f) (EOpen g)); [discriminate|]. destruct (event_eq (EOpen f) (EOpen g)) as [X|X]; [injection X as ->|]; lia.
    + destruct (IHr live kept1 (mk_fs n live (((fs_trace w ++ [EOpen f]) ++ t1) ++ [EClose f]))) as (kept2 & t2 & E2 & N2 & L2 & F2).
      { reflexivity. }
      { cbn [fs_calls]. eapply Forall_impl; [|exact HL]. cbn. intros; lia. }
      { exact HSr. }
      cbn [fs_calls fs_trace] in *. rewrite E2. exists kept2, (EOpen f :: t1 ++ EClose f :: t2).
      split; [f_equal; f_equal; f_equal; rewrite <- !app_assoc; reflexivity|]. split; [constructor; auto|]. split; [lia|].
      intros g. rewrite times_cons, times_app, times_cons. specialize (F1 g). specialize (F2 g).
      destruct (event_eq (EClose f) (EOpen g)); [discriminate|]. destruct (event_eq (EOpen f) (EOpen g)) as [X|X]; [injection X as ->|]; lia.
Qed.

Lemma raii can p : scoped 0 p -> exists kept w, exec can [] None fs0 p = Ok (fst (ending can 0 p), kept, w) /\
  fs_open w = [] /\ nested [] (fs_trace w) /\
  forall f, (times (EOpen f) (fs_trace w) <= 1)%nat /\ times (EClose f) (fs_trace w) = times (EOpen f) (fs_trace w).
Proof.
  intros HS. destruct (exec_ok can p [] None fs0 eq_refl (Forall_nil _) HS) as (kept & t & E & N & _ & F).
  cbn [fs0 fs_calls fs_trace map app] in *. exists kept. eexists. split; [exact E|]. cbn [fs_open fs_trace].
  split; [reflexivity|]. split; [exact N|]. intros f. split; [|eapply nested_balanced; eauto]. apply F.
Qed.

Lemma kept_too_long can name : can name 0%nat = true -> exec can [] None fs0 (Block name (Keep 0 Ret) (UseKept Ret)) = Ub Dangling.
Proof. intros H. cbn. unfold af_new, fopen. cbn [fs0 fs_calls]. rewrite H. reflexivity. Qed.

(** ** mmap_lines *)
Lemma mapped_increment buf it : ml_increment (Some buf) (zlen buf) it = bl_increment buf it.
Proof. reflexivity. Qed.
Lemma split_len_nil l : split_lines l = [] <-> l = [].
Proof. split; [apply split_nil|intros ->; reflexivity]. Qed.

Lemma unmapped buf i it : bl_nth buf i = Ok it ->
  (forall line, nth_error (split_lines buf) i = Some line -> exists v, bl_deref it = Ok v /\ without_cr line v) /\
  ((S i < length (split_lines buf))%nat -> ml_increment None (zlen buf) it = Ub Dangling) /\
  (S i = length (split_lines buf) -> exists last, ml_increment None (zlen buf) it = Ok last /\ bl_at_end last = true) /\
  (i = length (split_lines buf) -> ml_increment None (zlen buf) it = Ub AssertFailed).
Proof.
  intros E. assert (Hi : (i <= length (split_lines buf))%nat).
  { destruct (Nat.le_gt_cases i (length (split_lines buf))) as [H|H]; [exact H|]. rewrite bl_nth_past in E by exact H. discriminate. }
  destruct (bl_nth_ok buf i Hi) as (it' & E' & A). assert (it' = it) as -> by congruence. unfold at_line in A.
  unfold bl_deref, ml_increment. destruct (bl_pos it) as [pos|].
  - destruct A as (Hp & Hs & line & Hl & W). assert (nth_error (split_lines buf) i <> None) as X by congruence. apply nth_error_Some in X.
    assert (C : zlen buf <= pos <-> S i = length (split_lines buf)).
    { split; intros C.
      - rewrite skipn_all2 in Hs by (unfold zlen in C; lia). apply (f_equal (@List.length (list Z))) in Hs. rewrite skipn_length in Hs. cbn in Hs. lia.
      - rewrite C, skipn_all in Hs. apply split_nil in Hs. apply (f_equal zlen) in Hs. rewrite zlen_skipn in Hs. change (zlen (@nil Z)) with 0 in Hs. lia. }
    split; [intros l Hl'; exists (bl_value it); split; [reflexivity|congruence]|].
    destruct (Z.leb_spec (zlen buf) pos) as [L|L]; split; [|split| |split]; intros H; try reflexivity; try lia.
    eexists. split; reflexivity.
  - split; [intros l Hl|].
    + assert (nth_error (split_lines buf) i <> None) as X by congruence. apply nth_error_Some in X. lia.
    + split; [intros H; lia|]. split; [intros H; lia|reflexivity].
Qed.

Lemma unset_use can env w p : exec can env None w (UseKept p) = Ub OutOfBounds.
Proof. reflexivity. Qed.
