(** The line iterators of util.hpp as forward iterators. *)
From Verif Require Import Base Lib P_BvLib P_Darray M_Util S_Util P_Util M_LineIter.

(** ** pointers *)
Lemma skipn_plus' {A} (l : list A) a b : 0 <= a -> 0 <= b -> skipn (Z.to_nat (a + b)) l = skipn (Z.to_nat b) (skipn (Z.to_nat a) l).
Proof. intros. rewrite skipn_plus. f_equal. lia. Qed.

Lemma line_len_end l : (line_len l < length l)%nat -> nth_error l (line_len l) = Some 10.
Proof.
  induction l as [|c l IH]; cbn [line_len length]; [lia|]. unfold LF. destruct (Z.eqb_spec c 10); [subst; reflexivity|]. intros. cbn [nth_error]. apply IH. lia.
Qed.
Lemma line_len_notin l : (line_len l = length l)%nat <-> ~ In 10 l.
Proof.
  induction l as [|c l IH]; cbn [line_len length In]; [tauto|]. unfold LF. destruct (Z.eqb_spec c 10) as [->|N].
  - split; [discriminate|intros H; exfalso; auto].
  - split; [intros [= H] [D|D]; [auto|apply IH in H; auto]|intros H; f_equal; apply IH; auto].
Qed.
Lemma line_len_le l : (line_len l <= length l)%nat.
Proof. induction l as [|c l IH]; cbn [line_len length]; [lia|]. destruct (c =? LF); lia. Qed.

(** the last piece of the buffer ends in a newline *)
Lemma terminated_skip l n : (n < length l)%nat -> terminated l <-> terminated (skipn n l).
Proof.
  intros Hn. assert (N : skipn n l <> []) by (intros E; apply (f_equal (@length Z)) in E; rewrite skipn_length in E; cbn in E; lia).
  split; intros [E0|(q & E)]; try (subst l; cbn in Hn; lia); try contradiction.
  - right. subst l. rewrite app_length in Hn. cbn in Hn. exists (skipn n q). rewrite skipn_app. replace (n - length q)%nat with 0%nat by lia. reflexivity.
  - right. exists (firstn n l ++ q). rewrite <- app_assoc, <- E. symmetry. apply firstn_skipn.
Qed.
Lemma terminated_last l : ~ In 10 l -> terminated l -> l = [].
Proof. intros H [->|(q & ->)]; [reflexivity|]. exfalso. apply H, in_or_app. right. left. reflexivity. Qed.

Lemma terminated_next l : (S (line_len l) <= length l)%nat -> terminated l <-> terminated (skipn (S (line_len l)) l).
Proof.
  intros L. destruct (Nat.eq_dec (S (line_len l)) (length l)) as [D|D]; [|apply terminated_skip; lia].
  rewrite D, skipn_all. split; [intros _; left; reflexivity|intros _; right].
  pose proof (line_len_end l ltac:(lia)) as X. apply nth_error_split in X. destruct X as (a & b & X & La).
  exists a. rewrite X. f_equal. f_equal. destruct b; [reflexivity|]. apply (f_equal (@length Z)) in X. rewrite app_length in X. cbn [length] in X. lia.
Qed.

Lemma bl_walk_ok buf : forall n fuel pos v, 0 <= pos <= zlen buf -> (Z.to_nat (zlen buf - pos) <= n)%nat -> (n < fuel)%nat ->
  (terminated (skipn (Z.to_nat pos) buf) -> bl_walk fuel buf (mk_bl (Some pos) v) = bl_visit fuel buf (mk_bl (Some pos) v)) /\
  (~ terminated (skipn (Z.to_nat pos) buf) -> bl_walk fuel buf (mk_bl (Some pos) v) = Ub OutOfBounds).
Proof.
  induction n as [n IHn] using (well_founded_induction lt_wf). intros fuel pos v Hp Hn Hf. destruct fuel as [|fuel]; [lia|].
  cbn [bl_walk bl_visit]. unfold bl_at_end. cbn [bl_pos bl_value]. unfold bl_step. destruct (Z_lt_le_dec pos (zlen buf)) as [L|L].
  - destruct (bl_incr_ok buf pos v) as (q & _ & E); [lia|]. rewrite E. cbn [bind bl_pos]. set (rest := skipn (Z.to_nat pos) buf) in *.
    assert (Lr : zlen rest = zlen buf - pos) by (unfold rest; rewrite zlen_skipn; lia).
    pose proof (line_len_le rest) as Ll. unfold zlen in Lr at 1.
    destruct (Z.leb_spec (pos + Z.of_nat (line_len rest) + 1) (zlen buf)) as [C|C]; cbn [bind].
    + destruct n as [|n]; [lia|]. destruct (IHn n ltac:(lia) fuel (pos + Z.of_nat (line_len rest) + 1) q) as (H1 & H2); [lia|lia|lia|].
      replace (pos + Z.of_nat (line_len rest) + 1) with (pos + Z.of_nat (S (line_len rest))) in H1, H2 by lia. rewrite skipn_plus', Nat2Z.id in H1, H2 by lia. fold rest in H1, H2.
      replace (pos + Z.of_nat (S (line_len rest))) with (pos + Z.of_nat (line_len rest) + 1) in H1, H2 by lia.
      assert (T : terminated rest <-> terminated (skipn (S (line_len rest)) rest)) by (apply terminated_next; lia).
      split; intros H; [rewrite H1 by (apply T; exact H); reflexivity|rewrite H2 by (intros X; apply H, T, X); reflexivity].
    + assert (X : ~ In 10 rest) by (apply line_len_notin; lia). split; intros H; [|reflexivity].
      apply (terminated_last _ X) in H. rewrite H in Lr. cbn in Lr. lia.
  - unfold bl_increment. cbn [bl_pos bl_value]. replace (zlen buf <=? pos) with true by (symmetry; apply Z.leb_le; lia). cbn [bind bl_pos].
    split; intros H; [destruct fuel; reflexivity|]. exfalso. apply H. left. apply skipn_all2. unfold zlen in L. lia.
Qed.
Lemma bl_strict_ok buf : (terminated buf -> bl_lines_strict buf = bl_lines buf) /\ (~ terminated buf -> bl_lines_strict buf = Ub OutOfBounds).
Proof.
  unfold bl_lines_strict, bl_lines, bl_new, bl_step. destruct (Z_lt_le_dec 0 (zlen buf)) as [L|L].
  2:{ destruct buf; [|rewrite zlen_cons in L; pose proof (zlen_nonneg buf); lia]. split; [reflexivity|]. intros H. exfalso. apply H. left. reflexivity. }
  destruct (bl_incr_ok buf 0 []) as (q & _ & E); [lia|]. change (skipn (Z.to_nat 0) buf) with buf in E. cbv zeta in E. change (skipn (Z.to_nat 0) buf) with buf in E. rewrite E. cbn [bind bl_pos].
  pose proof (line_len_le buf) as Ll. destruct (Z.leb_spec (0 + Z.of_nat (line_len buf) + 1) (zlen buf)) as [C|C]; cbn [bind].
  - pose proof C as C'. unfold zlen in C'. destruct (bl_walk_ok buf (length buf) (S (S (length buf))) (0 + Z.of_nat (line_len buf) + 1) q) as (H1 & H2); [lia|unfold zlen; lia|lia|].
    replace (Z.to_nat (0 + Z.of_nat (line_len buf) + 1)) with (S (line_len buf)) in H1, H2 by lia.
    assert (T : terminated buf <-> terminated (skipn (S (line_len buf)) buf)) by (apply terminated_next; lia).
    split; intros H; [exact (H1 (proj1 T H))|apply H2; intros X; apply H, T, X].
  - assert (X : ~ In 10 buf) by (apply line_len_notin; unfold zlen in C; lia). split; intros H; [|reflexivity].
    apply (terminated_last _ X) in H. rewrite H in L. change (zlen (@nil Z)) with 0 in L. lia.
Qed.

(** ** the n-th iterator *)
Definition at_line (buf : list Z) (i : nat) (it : bl_iter) : Prop :=
  match bl_pos it with
  | None => i = length (split_lines buf)
  | Some pos => 0 <= pos /\ split_lines (skipn (Z.to_nat pos) buf) = skipn (S i) (split_lines buf) /\
      exists line, nth_error (split_lines buf) i = Some line /\ without_cr line (bl_value it)
  end.
Lemma skipn_cons {A} (l : list A) n x t : skipn n l = x :: t -> nth_error l n = Some x /\ skipn (S n) l = t.
Proof. revert n. induction l as [|y l IH]; intros [|n] H; cbn in *; try discriminate; [injection H as -> ->; auto|auto]. Qed.
Lemma split_nil l : split_lines l = [] -> l = [].
Proof. destruct l as [|c l]; [reflexivity|]. cbn. destruct (c =? 10); [discriminate|]. destruct (split_lines l); discriminate. Qed.
Lemma at_line_step buf i pos v : 0 <= pos -> split_lines (skipn (Z.to_nat pos) buf) = skipn i (split_lines buf) -> (i <= length (split_lines buf))%nat ->
  exists it, bl_increment buf (mk_bl (Some pos) v) = Ok it /\ at_line buf i it.
Proof.
  intros Hp Hs Hi. destruct (Z_lt_le_dec pos (zlen buf)) as [L|L].
  - destruct (bl_incr_ok buf pos v) as (q & Hq & E); [lia|]. set (rest := skipn (Z.to_nat pos) buf) in *.
    assert (Nr : rest <> []).
    { unfold rest. intros E0. apply (f_equal zlen) in E0. rewrite zlen_skipn in E0. change (zlen (@nil Z)) with 0 in E0. lia. }
    destruct (line_len_split rest Nr) as [Es _]. rewrite Hs in Es. apply skipn_cons in Es. destruct Es as (N & S').
    eexists. split; [exact E|]. unfold at_line. cbn [bl_pos bl_value]. split; [lia|]. split; [|eauto].
    rewrite S'. f_equal. unfold rest. rewrite skipn_plus. f_equal. lia.
  - unfold bl_increment. cbn [bl_pos bl_value]. replace (zlen buf <=? pos) with true by (symmetry; apply Z.leb_le; lia). eexists. split; [reflexivity|].
    unfold at_line. cbn [bl_pos]. rewrite skipn_all2 in Hs by (unfold zlen in L; lia). cbn in Hs. apply (f_equal (@length (list Z))) in Hs. rewrite skipn_length in Hs. cbn in Hs. lia.
Qed.
Lemma bl_nth_ok buf : forall i, (i <= length (split_lines buf))%nat -> exists it, bl_nth buf i = Ok it /\ at_line buf i it.
Proof.
  induction i as [|i IH]; intros Hi; cbn [bl_nth].
  { apply (at_line_step buf 0 0 []); auto; lia. }
  destruct IH as ([[pos|] v] & E & H); [lia| |]; rewrite E; cbn [bind]; unfold at_line in H; cbn [bl_pos bl_value] in H.
  - destruct H as (Hp & Hs & _). apply at_line_step; auto.
  - lia.
Qed.
Lemma bl_nth_past buf : forall i, (length (split_lines buf) < i)%nat -> bl_nth buf i = Ub AssertFailed.
Proof.
  induction i as [|i IH]; intros Hi; [lia|]. cbn [bl_nth]. destruct (Nat.eq_dec i (length (split_lines buf))) as [D|D].
  - destruct (bl_nth_ok buf i ltac:(lia)) as ([[pos|] v] & E & H); rewrite E; cbn [bind]; [|reflexivity]. unfold at_line in H. cbn [bl_pos] in H.
    destruct H as (_ & _ & line & H & _). assert (nth_error (split_lines buf) i <> None) as X by congruence. apply nth_error_Some in X. lia.
  - rewrite IH by lia. reflexivity.
Qed.
Lemma buffer_forward buf i : ((length (split_lines buf) < i)%nat -> bl_nth buf i = Ub AssertFailed) /\
  ((i <= length (split_lines buf))%nat -> exists a, bl_nth buf i = Ok a /\
   (forall line, nth_error (split_lines buf) i = Some line -> without_cr line (bl_value a)) /\
   forall j b, bl_nth buf j = Ok b -> bl_equal a b = true <-> i = j).
Proof.
  split; [apply bl_nth_past|]. intros Hi. destruct (bl_nth_ok buf i Hi) as (a & E & H). exists a. split; [exact E|].
  split.
  - intros line HL. unfold at_line in H. destruct (bl_pos a); [destruct H as (_ & _ & l & H & W); congruence|].
    assert (nth_error (split_lines buf) i <> None) as X by congruence. apply nth_error_Some in X. lia.
  - intros j b Eb. destruct (Nat.le_gt_cases j (length (split_lines buf))) as [Hj|Hj]; [|rewrite bl_nth_past in Eb by auto; discriminate].
    destruct (bl_nth_ok buf j Hj) as (b' & Eb' & H'). assert (b' = b) as -> by congruence. split; [|intros <-; assert (a = b) as -> by congruence].
    2:{ unfold bl_equal. destruct (bl_pos b); [apply Z.eqb_refl|reflexivity]. }
    unfold bl_equal, at_line in *. intros X. destruct (bl_pos a) as [p|], (bl_pos b) as [q|]; try discriminate; [|congruence].
    apply Z.eqb_eq in X. subst q. destruct H as (_ & H & l & N & _), H' as (_ & H' & l' & N' & _). rewrite H in H'.
    apply (f_equal (@length (list Z))) in H'. rewrite !skipn_length in H'.
    assert (nth_error (split_lines buf) i <> None) as X by congruence. apply nth_error_Some in X.
    assert (nth_error (split_lines buf) j <> None) as X' by congruence. apply nth_error_Some in X'. lia.
Qed.

(** ** line_iterator *)
Lemma file_lines_ub trim : file_lines trim = Ub Dangling.
Proof. reflexivity. Qed.
Lemma shared_file input trim : no_nul input -> In 10 input -> In 10 (after_line input) -> exists a b,
  advance_both input (fi_new trim) = Ok (a, b) /\ fi_equal a b = true /\
  (if trim then trimmed (next_line input) (fi_line a) else fi_line a = next_line input) /\
  (if trim then trimmed (next_line (after_line input)) (fi_line b) else fi_line b = next_line (after_line input)).
Proof.
  intros H0 H1 H2. destruct (fast_getline_ok input trim H0 H1) as (x & Ex & Hx).
  destruct (fast_getline_ok (after_line input) trim) as (y & Ey & Hy); auto.
  { intros X. apply H0. unfold after_line in X. rewrite <- (firstn_skipn (length (next_line input)) input). apply in_or_app. right. exact X. }
  exists (mk_fi x true (Some trim)), (mk_fi y true (Some trim)). unfold advance_both, fi_new, fi_copy, fi_increment. cbn [fi_trim fi_open bind]. rewrite Ex. cbn [bind]. rewrite Ey. cbn [bind]. auto.
Qed.
Lemma fi_visit_eq trim : forall fuel file line,
  fi_visit fuel file (mk_fi line true (Some trim)) = li_visit fuel (mk_li line (Some file) trim).
Proof.
  induction fuel as [|fuel IH]; intros file line; cbn [fi_visit li_visit]; [reflexivity|].
  unfold fi_equal, fi_increment, li_increment. cbn [fi_open fi_default eqb fi_trim li_file li_trim fi_line li_line].
  destruct (fast_getline file trim) as [[r rest]|u]; cbn [bind]; [|reflexivity]. destruct r as [l|]; cbn [bind]; [rewrite IH; reflexivity|].
  destruct fuel; reflexivity.
Qed.
Lemma fi_lines_eq file trim : fi_lines file trim = lines_visited file trim.
Proof. apply fi_visit_eq. Qed.
