From Coq Require Import Strings.String Strings.Ascii.
From Verif Require Import Base Spec Lib M_Mapper S_Mapper P_Mapper M_Dump S_Dump.
Local Open Scope string_scope.
Local Open Scope Z_scope.

Lemma sapp_assoc (a b c : string) : (a ++ b) ++ c = a ++ b ++ c.
Proof. induction a as [|x a IH]; cbn; [reflexivity|]. rewrite IH. reflexivity. Qed.

Lemma digit_code d : 0 <= d < 10 -> Z.of_nat (nat_of_ascii (digit d)) - 48 = d.
Proof. intros H. unfold digit. rewrite nat_ascii_embedding by lia. lia. Qed.
Lemma value_digit d acc s : 0 <= d < 10 -> value acc (String (digit d) s) = value (10 * acc + d) s.
Proof. intros H. cbn [value]. cbv zeta. rewrite digit_code by lia. replace (0 <=? d) with true by lia. replace (d <? 10) with true by lia. reflexivity. Qed.

(** [value] started at [x] after the digits of [x] *)
Lemma digits_ok fuel : forall x acc, 0 <= x -> x < 10 ^ Z.of_nat fuel -> (0 < fuel)%nat ->
  value 0 (digits fuel x acc) = value x acc /\
  (exists d s, digits fuel x acc = String (digit d) s /\ 0 <= d < 10 /\ (d = 0 -> x = 0 /\ s = acc)).
Proof.
  induction fuel as [|fuel IH]; intros x acc H0 H1 Hf; [lia|]. cbn [digits]. cbv zeta.
  pose proof (Z.mod_pos_bound x 10). pose proof (Z.div_mod x 10).
  destruct (x / 10 =? 0) eqn:E.
  - rewrite value_digit by lia. split; [f_equal; lia|]. exists (x mod 10), acc. split; [reflexivity|]. split; [lia|]. intros; split; [lia|reflexivity].
  - assert (Hq : x / 10 < 10 ^ Z.of_nat fuel).
    { apply Z.div_lt_upper_bound; [lia|]. rewrite Nat2Z.inj_succ, Z.pow_succ_r in H1 by lia. lia. }
    assert (0 <= x / 10) by (apply Z.div_pos; lia).
    destruct fuel as [|f]. { cbn in Hq. lia. }
    destruct (IH (x / 10) (String (digit (x mod 10)) acc)) as (V & d & s & Es & Hd & Hz); [lia|lia|lia|].
    split; [rewrite V, value_digit by lia; f_equal; lia|]. exists d, s. split; [exact Es|]. split; [lia|]. intros D. destruct (Hz D). lia.
Qed.
Lemma print_numeral x : 0 <= x < 2 ^ 64 -> numeral (print_size x) x.
Proof.
  intros H. unfold print_size. destruct (digits_ok 20 x "") as (V & d & s & E & Hd & Hz); [lia| |lia|].
  { change (10 ^ Z.of_nat 20) with 100000000000000000000. change (2 ^ 64) with 18446744073709551616 in H. lia. }
  unfold numeral. split; [exact V|]. rewrite E. split; [discriminate|]. cbn [String.get]. intros G.
  assert (digit d = "0"%char) by congruence. assert (d = 0).
  { pose proof (digit_code d Hd) as C. rewrite H0 in C. cbn in C. lia. }
  destruct (Hz H1) as (_ & ->). subst d. reflexivity.
Qed.
Lemma spaces_blank n : spaces n = blank n.
Proof. induction n as [|n IH]; cbn; [reflexivity|]. rewrite IH. reflexivity. Qed.

Definition scat (ls : list string) : string := fold_right String.append "" ls.
Lemma scat_app a b : scat (a ++ b)%list = scat a ++ scat b.
Proof. induction a as [|x a IH]; cbn; [reflexivity|]. fold (scat (a ++ b)%list). fold (scat a). rewrite IH, sapp_assoc. reflexivity. Qed.

Fixpoint depth_of (t : size_node) : nat := match t with Node _ _ cs => S (fold_right (fun c m => Nat.max (depth_of c) m) 0%nat cs) end.

Lemma dump_ok t depth : sizes_in t -> exists lines, dump t depth = scat lines /\ Forall2 line_for (preorder depth t) lines.
Proof.
  enough (G : forall n t depth, (depth_of t <= n)%nat -> sizes_in t ->
    exists lines, dump t depth = scat lines /\ Forall2 line_for (preorder depth t) lines) by (apply (G (depth_of t)); lia).
  clear. induction n as [|n IH]; intros [nm size cs] depth Hn Hs; [cbn in Hn; lia|].
  cbn [sizes_in depth_of dump preorder] in *. destruct Hs as (Hsz & Hcs).
  assert (X : exists lines, fold_right (fun c rest => dump c (S depth) ++ rest) "" cs = scat lines /\
    Forall2 line_for (flat_map (preorder (S depth)) cs) lines).
  { assert (Hd : (fold_right (fun c m => Nat.max (depth_of c) m) 0%nat cs <= n)%nat) by lia. clear Hn.
    induction cs as [|c cs IHcs]; cbn [fold_right flat_map] in *; [exists []; split; [reflexivity|constructor]|].
    destruct Hcs as (Hc & Hcs). destruct IHcs as (l2 & E2 & F2); [auto|lia|]. destruct (IH c (S depth)) as (l1 & E1 & F1); [lia|auto|].
    exists (l1 ++ l2)%list. split; [rewrite scat_app, E1, E2; reflexivity|]. apply Forall2_app; assumption. }
  destruct X as (ls & E & F).
  exists ((spaces (depth * 4) ++ nm ++ ": " ++ print_size size ++ String "010" "") :: ls). split.
  - rewrite E. cbn [scat fold_right]. fold (scat ls). rewrite !sapp_assoc. reflexivity.
  - constructor; [|exact F]. unfold line_for. exists (print_size size). split; [apply print_numeral; assumption|].
    rewrite spaces_blank, Nat.mul_comm. reflexivity.
Qed.

Lemma sizes_app P a b : fold_right (fun c Q => P c /\ Q) True (a ++ b : list size_node)%list <->
  fold_right (fun c Q => P c /\ Q) True a /\ fold_right (fun c Q => P c /\ Q) True b.
Proof. induction a as [|x a IH]; cbn; [tauto|]. rewrite IH. tauto. Qed.
Lemma nodes_sizes : (forall l d, typed l d -> frozen_size l d < 2 ^ 64 -> forall nm, fold_right (fun c P => sizes_in c /\ P) True (nodes l d nm)) /\
  (forall ms ds, typed_members ms ds -> frozen_sizes ms ds < 2 ^ 64 -> fold_right (fun c P => sizes_in c /\ P) True (member_nodes ms ds)).
Proof.
  apply layout_members_ind.
  - intros size sg [x|xs|ds] H B nm; cbn in *; try contradiction. exact I.
  - intros size sg [x|xs|ds] H B nm; cbn [typed] in *; try contradiction. pose proof (proj1 frozen_nonneg (LVec size sg) (DVec xs) H).
    cbn [nodes fold_right sizes_in]. tauto.
  - intros ms IH [x|xs|ds] H B nm; cbn [typed] in *; try contradiction. pose proof (proj1 frozen_nonneg (LObj ms) (DObj ds) H).
    cbn [nodes fold_right sizes_in]. cbn [frozen_size] in *. split; [|exact I]. split; [lia|]. apply IH; assumption.
  - intros [|d ds] H B; cbn in *; try contradiction. exact I.
  - intros nm l IHl ms IHms [|d ds] H B; cbn [typed_members member_nodes frozen_sizes] in *; try contradiction.
    destruct H as (H1 & H2). pose proof (proj1 frozen_nonneg l d H1). pose proof (proj2 frozen_nonneg ms ds H2).
    apply sizes_app. split; [apply IHl; [assumption|lia]|apply IHms; [assumption|lia]].
Qed.
Lemma tree_sizes {A} (M : mappable A) x nm t :
  typed (layout_of M) (data_of M x) -> 8 + frozen_size (layout_of M) (data_of M x) < 2 ^ 64 ->
  size_tree_of (layout_of M) (data_of M x) nm = Ok t -> sizes_in t.
Proof.
  intros Ht Hb. destruct (size_of_ok M x 0 nm Ht Hb ltac:(lia)) as (_ & _ & _ & E). rewrite E.
  pose proof (proj1 nodes_sizes _ _ Ht ltac:(lia) nm) as N. destruct (nodes (layout_of M) (data_of M x) nm) as [|n ns]; [discriminate|].
  intros [= <-]. exact (proj1 N).
Qed.
Lemma dump_tree {A} (M : mappable A) x nm t :
  typed (layout_of M) (data_of M x) -> 8 + frozen_size (layout_of M) (data_of M x) < 2 ^ 64 ->
  size_tree_of (layout_of M) (data_of M x) nm = Ok t ->
  exists lines, dump t 0 = fold_right String.append "" lines /\ Forall2 line_for (preorder 0 t) lines.
Proof. intros H1 H2 H3. apply dump_ok. eapply tree_sizes; eassumption. Qed.
