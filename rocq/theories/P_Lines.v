From Verif Require Import Base Lib M_Util S_Util S_Lines P_Util.

Lemma fgets_chars_short input : forall n, ~ In 10 input -> zlen input <= n -> fgets_chars n input = (input, []).
Proof.
  induction input as [|c input IH]; intros n Hi Hz; [reflexivity|]. cbn [fgets_chars]. rewrite zlen_cons in Hz. pose proof (zlen_nonneg input).
  replace (n <=? 0) with false by lia. unfold LF. destruct (Z.eqb_spec c 10) as [->|]; [exfalso; apply Hi; left; reflexivity|].
  rewrite IH; [reflexivity| |lia]. intros ?. apply Hi. right. assumption.
Qed.
Lemma fgets_chars_long input : forall n, 0 <= n -> ~ In 10 input -> n <= zlen input ->
  fgets_chars n input = (firstn (Z.to_nat n) input, skipn (Z.to_nat n) input).
Proof.
  induction input as [|c input IH]; intros n H0 Hi Hz; [cbn [fgets_chars]; rewrite firstn_nil, skipn_nil; reflexivity|].
  cbn [fgets_chars]. rewrite zlen_cons in Hz. destruct (Z.leb_spec n 0).
  - replace n with 0 by lia. reflexivity.
  - unfold LF. destruct (Z.eqb_spec c 10) as [->|]; [exfalso; apply Hi; left; reflexivity|].
    rewrite IH; [| lia| |lia]. 2:{ intros ?. apply Hi. right. assumption. }
    replace (Z.to_nat n) with (S (Z.to_nat (n - 1))) by lia. reflexivity.
Qed.

Lemma last_not_lf line (a : list Z) : a <> [] -> ~ In 10 a -> exists c, last_char (line ++ a) = Ok c /\ (c =? 10) = false.
Proof.
  intros Na Hi. destruct (snoc a Na) as (q & c & ->). exists c. rewrite app_assoc, last_char_app. split; [reflexivity|].
  apply Z.eqb_neq. intros ->. apply Hi. apply in_or_app. right. left. reflexivity.
Qed.

Lemma last_chunk_short l : zlen l <= 65535 -> last_chunk l = l.
Proof.
  intros H. unfold last_chunk. pose proof (zlen_nonneg l). destruct (Z.eq_dec (zlen l) 0) as [E|].
  - destruct l; [rewrite skipn_nil; reflexivity|rewrite zlen_cons in E; pose proof (zlen_nonneg l); lia].
  - rewrite Z.div_small by lia. reflexivity.
Qed.
Lemma skipn_twice {A} a : forall b (l : list A), skipn a (skipn b l) = skipn (b + a) l.
Proof. induction b as [|b IH]; intros l; [reflexivity|]. destruct l; [rewrite !skipn_nil; reflexivity|]. apply IH. Qed.
Lemma last_chunk_long l : 65535 < zlen l -> last_chunk l = last_chunk (skipn (Z.to_nat 65535) l).
Proof.
  intros H. unfold last_chunk. rewrite skipn_twice. f_equal. unfold zlen in *. rewrite skipn_length.
  rewrite Nat2Z.inj_sub by lia. rewrite Z2Nat.id by lia.
  replace (Z.of_nat (length l) - 65535 - 1) with (Z.of_nat (length l) - 1 + (-1) * 65535) by lia. rewrite Z.div_add by lia.
  assert (1 <= (Z.of_nat (length l) - 1) / 65535) by (apply Z.div_le_lower_bound; lia). lia.
Qed.

(** one more chunk makes the line [line ++ input ++ last_chunk input] *)
Lemma getline_tail : forall fuel line buffer input, (length input < fuel)%nat -> no_nul input -> ~ In 10 input -> input <> [] ->
  getline_loop (S fuel) line buffer input = Ok (Some (line ++ input ++ last_chunk input), []).
Proof.
  induction fuel as [|fuel IH]; intros line buffer input Hf H0 Hi Hn; [lia|].
  remember (S fuel) as f1 eqn:Ef1. cbn [getline_loop]. unfold fgets at 1. destruct input as [|c0 input0] eqn:Ei; [contradiction|]. rewrite <- Ei in *.
  destruct (Z.le_gt_cases (zlen input) 65535) as [Hz|Hz].
  - rewrite fgets_chars_short by (unfold max_buffer; auto). cbn [negb andb orb]. rewrite cstr_id by assumption.
    destruct (last_not_lf line input Hn Hi) as (c & -> & Ec). cbn [bind]. unfold LF. rewrite Ec.
    assert (Hl : (zlen (line ++ input) =? 0) = false).
    { rewrite zlen_app. pose proof (zlen_nonneg line). assert (0 < zlen input) by (rewrite Ei, zlen_cons; pose proof (zlen_nonneg input0); lia). lia. }
    rewrite Ef1. cbn [getline_loop fgets negb andb]. rewrite Hl. rewrite cstr_id by assumption. cbn [orb].
    rewrite last_chunk_short by assumption.
    destruct (last_not_lf (line ++ input) input Hn Hi) as (c' & -> & Ec'). cbn [bind]. rewrite app_assoc. reflexivity.
  - rewrite fgets_chars_long by (unfold max_buffer; try assumption; lia). change (max_buffer - 1) with 65535. cbn [negb andb orb].
    set (a := firstn (Z.to_nat 65535) input). set (b := skipn (Z.to_nat 65535) input).
    assert (Eab : input = a ++ b) by (symmetry; apply firstn_skipn).
    assert (La : length a = Z.to_nat 65535) by (apply firstn_length_le; unfold zlen in Hz; lia).
    assert (Na : a <> []) by (intros E; rewrite E in La; cbn [length] in La; lia).
    assert (Lb : (length input = length a + length b)%nat) by (rewrite Eab, app_length; reflexivity).
    assert (Nb : b <> []) by (intros E; rewrite E in Lb; cbn [length] in Lb; unfold zlen in Hz; lia).
    assert (Ha : ~ In 10 a) by (intros ?; apply Hi; rewrite Eab; apply in_or_app; left; assumption).
    assert (Hb : ~ In 10 b) by (intros ?; apply Hi; rewrite Eab; apply in_or_app; right; assumption).
    assert (H0a : no_nul a) by (intros ?; apply H0; rewrite Eab; apply in_or_app; left; assumption).
    assert (H0b : no_nul b) by (intros ?; apply H0; rewrite Eab; apply in_or_app; right; assumption).
    rewrite cstr_id by assumption. destruct (last_not_lf line a Na Ha) as (c & -> & Ec). cbn [bind]. unfold LF. rewrite Ec.
    rewrite IH; [|lia|assumption|assumption|assumption].
    rewrite (last_chunk_long input) by assumption. fold b. rewrite <- app_assoc, (app_assoc a b), <- Eab. reflexivity.
Qed.
Lemma fast_getline_tail_exact input trim : no_nul input -> ~ In 10 input -> input <> [] -> exists line,
  fast_getline input trim = Ok (Some line, []) /\ tail_result trim input line.
Proof.
  intros H0 Hi Hn. unfold fast_getline. rewrite getline_tail by (try assumption; lia). cbn [bind option_map app].
  eexists. split; [reflexivity|]. unfold tail_result. destruct trim; [apply trim_ok|reflexivity].
Qed.

Lemma li_visit_tail trim tail : tail <> [] -> no_nul tail -> ~ In 10 tail ->
  forall n fuel body line, (length body <= n)%nat -> (S n < fuel)%nat -> no_nul body -> terminated body ->
  exists rs t, li_visit fuel (mk_li line (Some (body ++ tail)) trim) = Ok (line :: rs ++ [t]) /\
    Forall2 (line_result trim) (split_lines body) rs /\ tail_result trim tail t.
Proof.
  intros Nt H0t Hit. induction n as [n IHn] using (well_founded_induction lt_wf). intros fuel body line Hn Hf H0 Ht.
  destruct fuel as [|fuel]; [lia|]. cbn [li_visit li_file li_line]. unfold li_increment. cbn [li_file li_trim].
  destruct body as [|c body'] eqn:Ef.
  - cbn [app]. destruct (fast_getline_tail_exact tail trim H0t Hit Nt) as (t & E & Hr). rewrite E. cbn [bind].
    destruct fuel as [|fuel]; [lia|]. cbn [li_visit li_file li_line]. unfold li_increment. cbn [li_file li_trim]. rewrite fast_getline_eof. cbn [bind].
    exists [], t. split; [|split; [constructor|exact Hr]]. destruct fuel; reflexivity.
  - rewrite <- Ef in *. assert (Nf : body <> []) by (rewrite Ef; discriminate).
    pose proof (terminated_in _ Ht Nf) as Hi.
    assert (Hib : In 10 (body ++ tail)) by (apply in_or_app; left; assumption).
    assert (H0b : no_nul (body ++ tail)) by (intros X; apply in_app_or in X; destruct X; [apply H0|apply H0t]; assumption).
    destruct (fast_getline_ok (body ++ tail) trim H0b Hib) as (l & E & Hl). rewrite E. cbn [bind].
    assert (Enl : next_line (body ++ tail) = next_line body /\ after_line (body ++ tail) = after_line body ++ tail).
    { assert (En : next_line (body ++ tail) = next_line body).
      { clear - Hi. induction body as [|c body IH]; [destruct Hi|]. cbn [app next_line]. destruct (Z.eqb_spec c 10); [reflexivity|].
        rewrite IH; [reflexivity|]. destruct Hi; [congruence|assumption]. }
      split; [exact En|]. unfold after_line. rewrite En. rewrite skipn_app.
      assert (length (next_line body) <= length body)%nat.
      { rewrite (next_after body) at 2. rewrite app_length. lia. }
      replace (length (next_line body) - length body)%nat with 0%nat by lia. reflexivity. }
    destruct Enl as (En & Ea). rewrite Ea. rewrite En in Hl.
    destruct (split_next body Hi) as (p & E1 & E2).
    assert (Hlen : (length (after_line body) < length body)%nat).
    { rewrite (next_after body) at 2. rewrite E1, !app_length. cbn [length]. lia. }
    destruct (IHn (length (after_line body)) ltac:(lia) fuel (after_line body) l) as (rs & t & Ev & Hrs & Hr); [lia|lia| | |].
    + intros ?. apply H0. rewrite (next_after body). apply in_or_app. right. assumption.
    + apply terminated_after, Ht.
    + rewrite Ev. cbn [bind]. exists (l :: rs), t. split; [reflexivity|]. split; [|exact Hr]. rewrite E2. constructor; [|exact Hrs].
      unfold line_result. rewrite <- E1. exact Hl.
Qed.
Lemma lines_visited_tail body tail trim : no_nul (body ++ tail) -> terminated body -> tail <> [] -> ~ In 10 tail -> exists rs t,
  lines_visited (body ++ tail) trim = Ok ([] :: rs ++ [t]) /\
  Forall2 (line_result trim) (split_lines body) rs /\ tail_result trim tail t.
Proof.
  intros H0 Ht Nt Hi. unfold lines_visited, li_new. apply li_visit_tail with (n := length body); auto.
  - intros ?. apply H0. apply in_or_app. right. assumption.
  - rewrite app_length. destruct tail; [contradiction|]. cbn [length]. lia.
  - intros ?. apply H0. apply in_or_app. left. assumption.
Qed.

(** ** NUL characters *)
Lemma fgets_first n c input : 0 < n -> exists a b, fgets_chars n (c :: input) = (c :: a, b).
Proof.
  intros H. cbn [fgets_chars]. replace (n <=? 0) with false by lia. destruct (c =? LF); [eauto|].
  destruct (fgets_chars (n - 1) input) as (a & b). eauto.
Qed.
Lemma getline_nul_first input trim : fast_getline (0 :: input) trim = Ub OutOfBounds.
Proof.
  unfold fast_getline. cbn [getline_loop]. unfold fgets. destruct (fgets_first (max_buffer - 1) 0 input) as (a & b & ->); [reflexivity|].
  reflexivity.
Qed.

Lemma fgets_line p : forall n rest, ~ In 10 p -> zlen p < n -> fgets_chars n (p ++ 10 :: rest) = (p ++ [10], rest).
Proof.
  induction p as [|c p IH]; intros n rest Hi Hz.
  - rewrite zlen_nil in Hz. cbn [app fgets_chars]. replace (n <=? 0) with false by lia. reflexivity.
  - rewrite zlen_cons in Hz. pose proof (zlen_nonneg p). cbn [app fgets_chars]. replace (n <=? 0) with false by lia.
    unfold LF. destruct (Z.eqb_spec c 10) as [->|]; [exfalso; apply Hi; left; reflexivity|]. rewrite IH; [reflexivity| |lia].
    intros ?. apply Hi. right. assumption.
Qed.
Lemma cstr_nul a b : no_nul a -> cstr (a ++ 0 :: b) = a.
Proof.
  unfold no_nul. induction a as [|c a IH]; intros H; [reflexivity|]. cbn [app cstr].
  destruct (Z.eqb_spec c 0) as [->|]; [exfalso; apply H; left; reflexivity|].
  rewrite IH; [reflexivity|]. intros ?. apply H. right. assumption.
Qed.
(** a line with a NUL character loses what follows it and takes the next line with it *)
Lemma getline_nul a b rest : a <> [] -> no_nul a -> ~ In 10 a -> ~ In 10 b -> zlen a + 1 + zlen b < 65535 ->
  no_nul rest -> In 10 rest ->
  fast_getline (a ++ 0 :: b ++ 10 :: rest) false = Ok (Some (a ++ next_line rest), after_line rest).
Proof.
  intros Na H0a Ha Hb Hz H0 Hi. unfold fast_getline.
  assert (E : a ++ 0 :: b ++ 10 :: rest = (a ++ 0 :: b) ++ 10 :: rest) by (rewrite <- app_assoc; reflexivity).
  rewrite E. remember (S (length ((a ++ 0 :: b) ++ 10 :: rest))) as f eqn:Ef. cbn [getline_loop]. unfold fgets.
  destruct ((a ++ 0 :: b) ++ 10 :: rest) as [|x l] eqn:El; [destruct a; discriminate|]. rewrite <- El.
  rewrite fgets_line. 2:{ intros X. apply in_app_or in X. destruct X as [X|[X|X]]; [auto|discriminate|auto]. }
  2:{ rewrite zlen_app, zlen_cons. unfold max_buffer. lia. }
  cbn [negb andb orb]. rewrite <- app_assoc. cbn [app]. rewrite cstr_nul by assumption.
  destruct (last_not_lf [] a Na Ha) as (c & Ec & Ec2). cbn [app] in Ec. rewrite Ec. cbn [bind]. unfold LF. rewrite Ec2.
  rewrite getline_ok; [reflexivity| |assumption|assumption].
  apply (f_equal (@length Z)) in El. rewrite !app_length in El. cbn [length] in *. lia.
Qed.
