(** Proof for C08: every entry of the table *)
From Verif Require Import Base Spec Lib M_Tables.

Lemma table_all d r : 0 <= d < 256 -> 0 <= r < 8 -> exists t, nth_error select_in_byte (Z.to_nat (256 * r + d)) = Some t /\
  (forall q, is_select true (bits_of 8 d) (Z.to_nat r) q -> t = Z.of_nat q) /\
  (Z.of_nat (count true (bits_of 8 d)) <= r -> t = 8).
Proof.
  intros Hd Hr.
  set (P := fun d r => match nth_error select_in_byte (Z.to_nat (256 * r + d)) with
     | Some t => if Z.of_nat (count true (bits_of 8 d)) <=? r then t =? 8
                 else (0 <=? t) && (t <? 8) && nth (Z.to_nat t) (bits_of 8 d) false && (Z.of_nat (rank true (bits_of 8 d) (Z.to_nat t)) =? r)
     | None => false end).
  assert (A : forallb (fun d => forallb (fun r => P (Z.of_nat d) (Z.of_nat r)) (seq 0 8)) (seq 0 256) = true) by (vm_compute; reflexivity).
  rewrite forallb_forall in A. specialize (A (Z.to_nat d) ltac:(apply in_seq; lia)). rewrite forallb_forall in A.
  specialize (A (Z.to_nat r) ltac:(apply in_seq; lia)). rewrite !Z2Nat.id in A by lia. unfold P in A. clear P.
  destruct (nth_error select_in_byte (Z.to_nat (256 * r + d))) as [t|]; [|discriminate]. exists t. split; [reflexivity|].
  destruct (Z.leb_spec (Z.of_nat (count true (bits_of 8 d))) r) as [C|C].
  - split; [|intros _; lia]. intros q [N R]. exfalso. pose proof (rank_S true _ q true N) as S.
    pose proof (rank_le_count true (bits_of 8 d) (Datatypes.S q)). cbn [Bool.eqb] in S. lia.
  - split; [|lia]. intros q Hq. apply andb_prop in A as (A & A4). apply andb_prop in A as (A & A3). apply andb_prop in A as (A1 & A2).
    assert (T : is_select true (bits_of 8 d) (Z.to_nat r) (Z.to_nat t)).
    { split; [|lia]. rewrite (nth_error_nth' _ false) by (rewrite bits_of_length; lia). rewrite A3. reflexivity. }
    rewrite (is_select_unique _ _ _ _ _ Hq T). lia.
Qed.
Lemma table_whole : length select_in_byte = 2048%nat /\ forall d r, 0 <= d < 256 -> 0 <= r < 8 ->
  exists t, nth_error select_in_byte (Z.to_nat (256 * r + d)) = Some t /\
  (forall q, is_select true (bits_of 8 d) (Z.to_nat r) q -> t = Z.of_nat q) /\
  (Z.of_nat (count true (bits_of 8 d)) <= r -> t = 8).
Proof. split; [reflexivity|exact table_all]. Qed.
