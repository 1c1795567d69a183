(** Proofs for C27: nat2int on all numbers *)
From Verif Require Import Base M_Util P_Util.

Lemma nat2int_high n : 2 ^ 63 - 1 <= n < 2 ^ 64 - 1 ->
  nat2int n = Ok (if n mod 2 =? 0 then n / 2 else - ((n + 1) / 2)) /\
  int2nat (if n mod 2 =? 0 then n / 2 else - ((n + 1) / 2)) = Ub SignedOverflow.
Proof.
  intros H. rewrite nat2int_ok by lia. split; [reflexivity|].
  pose proof (Z.div_mod n 2). pose proof (Z.mod_pos_bound n 2). pose proof (Z.div_mod (n + 1) 2). pose proof (Z.mod_pos_bound (n + 1) 2).
  apply int2nat_ub; destruct (Z.eqb_spec (n mod 2) 0); lia.
Qed.

Lemma nat_int_iff n : 0 <= n < 2 ^ 64 -> ((exists x, nat2int n = Ok x /\ int2nat x = Ok n) <-> n < 2 ^ 63 - 1).
Proof.
  intros H. split.
  - intros [x [A B]]. destruct (Z.lt_ge_cases n (2 ^ 63 - 1)) as [|G]; [assumption|exfalso].
    destruct (Z.eq_dec n (2 ^ 64 - 1)) as [->|N].
    + destruct nat2int_wrap as [W V]. rewrite W in A. injection A as <-. rewrite V in B. discriminate.
    + destruct (nat2int_high n) as [W V]; [lia|]. rewrite W in A. injection A as <-. rewrite V in B. discriminate.
  - intros L. apply nat_int_nat. lia.
Qed.

Lemma int_nat_iff x : - 2 ^ 63 <= x < 2 ^ 63 -> ((exists n, int2nat x = Ok n /\ nat2int n = Ok x) <-> - 2 ^ 62 < x < 2 ^ 62).
Proof.
  intros H. split.
  - intros [n [A _]]. destruct (Z.lt_ge_cases (- 2 ^ 62) x), (Z.lt_ge_cases x (2 ^ 62)); try lia; rewrite int2nat_ub in A by lia; discriminate.
  - intros L. destruct (int_nat_int x L) as [n [A [_ B]]]. eauto.
Qed.

(** the even numbers are the images of the integers from 0 on, the odd ones of the negative ones *)
Lemma int2nat_image x n : int2nat x = Ok n -> - 2 ^ 63 <= x < 2 ^ 63 -> (0 <= x -> n = 2 * x) /\ (x < 0 -> n = - 2 * x - 1) /\ n < 2 ^ 63 - 1.
Proof.
  intros A H. assert (L : - 2 ^ 62 < x < 2 ^ 62).
  { destruct (Z.lt_ge_cases (- 2 ^ 62) x), (Z.lt_ge_cases x (2 ^ 62)); try lia; rewrite int2nat_ub in A by lia; discriminate. }
  rewrite int2nat_ok in A by lia. destruct (Z.ltb_spec x 0); injection A as <-; lia.
Qed.
