(** Proofs for C90 *)
From Verif Require Import Base Lib M_Util S_Util P_Util S_Lines P_Lines.

Lemma trimmed_le s t t' : trimmed s t -> trimmed s t' -> (length t <= length t')%nat -> t = t'.
Proof.
  intros (a & E & Fa & _) (b & E' & _ & L') H.
  assert (X : t' = t ++ skipn (length t) t').
  { rewrite <- (firstn_skipn (length t) t') at 1. f_equal.
    assert (Y : firstn (length t) (t ++ a) = firstn (length t) (t' ++ b)) by congruence.
    rewrite firstn_app, Nat.sub_diag, firstn_all, firstn_O, app_nil_r in Y.
    rewrite firstn_app in Y. replace (length t - length t')%nat with O in Y by lia. rewrite firstn_O, app_nil_r in Y. auto. }
  set (x := skipn (length t) t') in *. clearbody x.
  destruct x as [|y x].
  - rewrite app_nil_r in X. auto.
  - exfalso. destruct (exists_last (l := y :: x)) as (x' & c & Ex); [discriminate|].
    rewrite Ex in X. subst t'. apply (L' (t ++ x') c); [now rewrite app_assoc|].
    rewrite E in E'. rewrite <- !app_assoc in E'. apply app_inv_head in E'.
    rewrite E' in Fa. apply Forall_app in Fa. destruct Fa as [_ Fa]. inversion Fa; auto.
Qed.
Lemma trimmed_unique s t t' : trimmed s t -> trimmed s t' -> t = t'.
Proof.
  intros A B. destruct (Nat.le_ge_cases (length t) (length t')); [eapply trimmed_le; eauto|symmetry; eapply trimmed_le; eauto].
Qed.

Lemma split_no_lf file p : In p (split_lines file) -> ~ In 10 p.
Proof.
  revert p. induction file as [|c file IH]; cbn [split_lines]; [easy|]. intros p.
  destruct (Z.eqb_spec c 10).
  - intros [<-|H]; [easy|auto].
  - destruct (split_lines file) as [|q qs].
    + intros [<-|[]]. cbn. intuition.
    + intros [<-|H]; [|apply IH; right; auto]. intros [H|H]; [auto|]. apply (IH q); [left; auto|auto].
Qed.

Lemma two_lines p t q : ~ In 10 p -> trimmed (p ++ [10]) t -> without_cr p q -> (t = q <-> forall r, p <> r ++ [13; 13]).
Proof.
  intros N T [W|[-> W]].
  - subst p. split.
    + intros -> r H. change [13; 13] with ([13] ++ [13]) in H. rewrite app_assoc in H. apply app_inj_tail in H. destruct H as [-> _].
      destruct T as (tl & _ & _ & L). apply (L r 13); [auto|right; auto].
    + intros H. apply (trimmed_unique _ _ _ T). exists [13; 10]. rewrite <- app_assoc. split; [auto|].
      split; [constructor; [right; reflexivity|constructor; [left; reflexivity|constructor]]|]. intros t' c -> [->| ->].
      * apply N. apply in_or_app. left. apply in_or_app. right. left. auto.
      * apply (H t'). now rewrite <- app_assoc.
  - assert (T' : trimmed (q ++ [10]) q).
    { exists [10]. split; [auto|]. split; [constructor; [left; reflexivity|constructor]|]. intros t' c -> [->| ->].
      * apply N. apply in_or_app. right. left. auto.
      * apply (W t'). auto. }
    rewrite (trimmed_unique _ _ _ T T'). split; [|reflexivity]. intros _ r H. change [13; 13] with ([13] ++ [13]) in H. rewrite app_assoc in H. exact (W _ H).
Qed.

Lemma two_readers file : no_nul file -> terminated file -> exists ls, bl_lines file = Ok ls /\
  (lines_visited file true = Ok ([] :: ls) <-> forall p r, In p (split_lines file) -> p <> r ++ [13; 13]).
Proof.
  intros N T. destruct (bl_lines_ok file) as (ls & E & F). exists ls. split; [auto|].
  destruct (lines_visited_ok file true N T) as (rs & E' & F'). rewrite E'.
  assert (X : forall p, In p (split_lines file) -> ~ In 10 p) by apply split_no_lf.
  assert (Y : rs = ls <-> forall p r, In p (split_lines file) -> p <> r ++ [13; 13]).
  { clear E E' N T. revert ls F rs F' X. induction (split_lines file) as [|p ps IH]; intros ls F rs F' X.
    - inversion F; inversion F'; subst. split; [intros _ p r []|auto].
    - inversion F as [|? q ? qs W F2]; inversion F' as [|? t ? ts W' F2']; subst.
      destruct (IH qs F2 ts F2') as [A B]; [intros; apply X; right; auto|].
      destruct (two_lines p t q) as [C D]; [apply X; left; auto|exact W'|exact W|]. split.
      + intros H r. injection H as <- <-. intros s [<-|K]; [apply C; auto|apply A; auto].
      + intros H. f_equal; [apply D; intros r; apply H; left; auto|apply B; intros r s K; apply H; right; auto]. }
  rewrite <- Y. split; [intros H; injection H; auto|intros ->; auto].
Qed.

Lemma split_concat file : terminated file -> concat (map (fun p => p ++ [10]) (split_lines file)) = file.
Proof.
  intros [->|(q & ->)]; [auto|]. induction q as [|c q IH]; [auto|]. cbn [app split_lines].
  destruct (Z.eqb_spec c 10) as [->|].
  - cbn [map concat app]. now rewrite IH.
  - destruct (split_lines (q ++ [10])) as [|p ps]; [destruct q; discriminate|]. cbn [map concat] in IH |- *. cbn [app]. now rewrite IH.
Qed.
Lemma whole_file file : no_nul file -> terminated file -> exists rs, lines_visited file false = Ok ([] :: rs) /\ concat rs = file.
Proof.
  intros N T. destruct (lines_visited_ok file false N T) as (rs & E & F). exists rs. split; [auto|].
  transitivity (concat (map (fun p => p ++ [10]) (split_lines file))); [|apply split_concat; exact T]. f_equal. clear E. induction F as [|p r ps rs H F IH]; cbn; [auto|]. cbn in H. congruence.
Qed.

Lemma split_tail body tail : terminated body -> tail <> [] -> ~ In 10 tail -> split_lines (body ++ tail) = split_lines body ++ [tail].
Proof.
  intros T H N. assert (X : split_lines tail = [tail]).
  { clear T body. induction tail as [|c l IH]; [congruence|]. cbn [split_lines]. destruct (Z.eqb_spec c 10) as [->|]; [exfalso; apply N; left; auto|].
    destruct l as [|d l]; [auto|]. rewrite IH; [auto|discriminate|intros K; apply N; right; auto]. }
  destruct T as [->|(q & ->)]; [exact X|]. induction q as [|c q IH]; cbn [app split_lines].
  - cbn. now rewrite X.
  - destruct (c =? 10); [cbn [app]; now rewrite IH|]. rewrite IH. destruct (split_lines (q ++ [10])) as [|p ps] eqn:E; [destruct q as [|x q]; cbn in E; [discriminate|destruct (x =? 10), (split_lines (q ++ [10])); discriminate]|]. reflexivity.
Qed.

Lemma tail_longer tail c t : In c tail -> ~ newline_char c -> trimmed (tail ++ tail) t -> (length tail < length t)%nat.
Proof.
  intros H N (x & E & F & _). destruct (Nat.le_gt_cases (length t) (length tail)); [exfalso|auto].
  assert (X : x = skipn (length t) tail ++ tail).
  { assert (Y : skipn (length t) (tail ++ tail) = skipn (length t) (t ++ x)) by congruence.
    rewrite !skipn_app, Nat.sub_diag, skipn_all, skipn_O in Y. cbn [app] in Y. rewrite <- Y. f_equal.
    replace (length t - length tail)%nat with O by lia. auto. }
  rewrite X in F. apply Forall_app in F. destruct F as [_ F]. rewrite Forall_forall in F. apply N, F, H.
Qed.

Lemma two_readers_tail body tail c : no_nul (body ++ tail) -> terminated body -> ~ In 10 tail -> zlen tail <= 65535 -> In c tail -> c <> 13 ->
  exists ls q rs t, bl_lines (body ++ tail) = Ok (ls ++ [q]) /\ lines_visited (body ++ tail) true = Ok ([] :: rs ++ [t]) /\
    without_cr tail q /\ (length q <= length tail < length t)%nat.
Proof.
  intros N T N10 L I C. assert (tail <> []) by (intros ->; destruct I).
  destruct (lines_visited_tail body tail true N T ltac:(auto) N10) as (rs & t & E & F & G).
  destruct (bl_lines_ok (body ++ tail)) as (ls & E' & F'). rewrite split_tail in F' by auto.
  apply Forall2_app_inv_l in F'. destruct F' as (l1 & l2 & F1 & F2 & ->). inversion F2 as [|? q ? ? W F3]; subst. inversion F3; subst.
  exists l1, q, rs, t. split; [auto|]. split; [auto|]. split; [auto|]. split.
  - destruct W as [-> |[-> _]]; [rewrite app_length; lia|lia].
  - unfold tail_result in G. rewrite last_chunk_short in G by auto. apply (tail_longer tail c t); auto. intros [->| ->]; auto.
Qed.
