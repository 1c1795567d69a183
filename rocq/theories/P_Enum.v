(** Proofs for M_Enum. *)
From Verif Require Import Base Spec Lib M_BitVector M_EliasFano M_Topk M_Enum S_EliasFano P_EliasFano2.

Lemma fe_run_ok {C V} (get : C -> Z -> res V) c (xs : list V) : zlen xs < 2 ^ 64 ->
  (forall i x, nth_error xs i = Some x -> get c (Z.of_nat i) = Ok x) ->
  forall k i, (i + k <= length xs)%nat -> fe_run get c (fe_new (Z.of_nat i)) k = Ok (window xs i k).
Proof.
  intros HL G. unfold fe_new, window. induction k as [|k IH]; intros i Hi; [reflexivity|]. cbn [fe_run]. unfold fe_next.
  destruct (nth_error xs i) as [x|] eqn:E; [|apply nth_error_None in E; lia].
  rewrite (G i x E). cbn [bind]. unfold zlen in HL. rewrite u64_small by lia. replace (Z.of_nat i + 1) with (Z.of_nat (S i)) by lia.
  rewrite IH by lia. cbn [bind]. f_equal. clear - E. revert i E. induction xs as [|y xs IH]; intros [|i] E; cbn in *; try discriminate.
  - injection E as ->. reflexivity.
  - apply IH. exact E.
Qed.

Lemma fe_all : (forall gr ints, Forall (fun x => 0 <= x) ints -> sum ints < 2 ^ 64 - 1 -> zlen ints < 2 ^ 61 ->
    exists c, efl_build gr ints = Ok c /\
    forall i k, (i + k <= length ints)%nat -> fe_run efl_get c (fe_new (Z.of_nat i)) k = Ok (window ints i k)) /\
  (forall gr ints, Forall (fun x => 0 <= x < 2 ^ 64 - 1) ints -> zlen ints < 2 ^ 57 ->
    exists c, efc_build gr ints = Ok c /\
    forall i k, (i + k <= length ints)%nat -> fe_run efc_get c (fe_new (Z.of_nat i)) k = Ok (window ints i k)) /\
  (forall T (v : topk_vector T), zlen (tk_v v) < 2 ^ 64 ->
    forall i k, (i + k <= length (tk_v v))%nat -> fe_run tk_get v (fe_new (Z.of_nat i)) k = Ok (window (tk_v v) i k)).
Proof.
  split; [|split].
  - intros gr ints F S L. destruct (efl_all gr ints F S L) as (c & E & _ & _ & G). exists c. split; [exact E|]. intros i k Hk. apply fe_run_ok with (xs := ints); [lia|exact G|exact Hk].
  - intros gr ints F L. destruct (efc_all gr ints F L) as (c & E & _ & G). exists c. split; [exact E|]. intros i k Hk. apply fe_run_ok with (xs := ints); [lia|exact G|exact Hk].
  - intros T v L j k Hk. apply fe_run_ok with (xs := tk_v v); [exact L| |exact Hk]. intros i x E. unfold tk_get. rewrite (rd_ok x). { f_equal. rewrite Nat2Z.id. apply nth_error_nth with (d := x) in E. exact E. }
    assert (i < length (tk_v v))%nat by (apply nth_error_Some; congruence). unfold zlen. lia.
Qed.
