(** The exact behaviour of the enumerators where C05 and C06 fail. *)
From Verif Require Import Base Spec M_BitVector S_BitVector S_Stale P_Stale.

(** C05. After any correct history, [take(64)] followed by [skip_zeros] looks for the one
    in the word already consumed. From then on [next] returns the rest of that word and
    then zeros, for 2^64-64 calls, whatever the sequence holds. *)
Theorem C05_exact_refuted : forall l pos os rs p c n, 0 <= pos ->
  espec_run l (pos, false) os rs p -> first_in l p 64 c -> Z.of_nat n <= 2 ^ 64 - 64 ->
  erun (canonical l) (enum_new pos) (os ++ [ETake 64; ESkipZeros] ++ repeat ENext n) =
    Ok (rs ++ [value (window l (Z.to_nat p) 64); c] ++
          map (fun i => if c + 1 + Z.of_nat i <? 64 then bit_at l (p + (c + 1 + Z.of_nat i)) else 0)
            (seq 0 n),
        p + 64 + c + 1 + Z.of_nat n).
Proof. exact stale_enumerator. Qed.
Print Assumptions C05_exact_refuted.
Definition C05_ones : list bool := [false; true; false; false; true; true] ++ repeat true 200.
Example C05_exact_ex :
  espec_run C05_ones (1, false) [ENext] [1] 2 /\ first_in C05_ones 2 64 2 /\
  nth_error C05_ones 130 = Some true /\
  erun (canonical C05_ones) (enum_new 1) ([ENext] ++ [ETake 64; ESkipZeros] ++ repeat ENext 63) =
    Ok ([1; 2 ^ 64 - 4; 2] ++ repeat 1 61 ++ [0; 0], 132).
Proof.
  split; [|split; [|split; reflexivity]].
  - apply esr_cons with (s' := (2, false)); [|apply esr_nil]. apply (es_next C05_ones 1 false true). reflexivity.
  - split; [lia|]. split; [reflexivity|]. intros i Hi. assert (i = 0 \/ i = 1) as [-> | ->] by lia; reflexivity.
Qed.

(** C05, the remaining case of [skip_zeros] directly after [take(64)]: the word taken was zero. *)
Theorem C05_zero_word : forall l pos os rs p q, 0 <= pos -> espec_run l (pos, false) os rs p ->
  p + 64 <= q -> nth_error l (Z.to_nat q) = Some true ->
  (forall i, p <= i < q -> nth_error l (Z.to_nat i) = Some false) ->
  erun (canonical l) (enum_new pos) (os ++ [ETake 64; ESkipZeros]) =
    Ok (rs ++ [0; q - (p + 64)], q + 1).
Proof. exact fresh_enumerator. Qed.
Print Assumptions C05_zero_word.
Definition C05_gap : list bool := [true] ++ repeat false 70 ++ [true].
Example C05_zero_word_ex :
  espec_run C05_gap (0, false) [ENext] [1] 1 /\ nth_error C05_gap 71 = Some true /\
  forall i, 1 <= i < 71 -> nth_error C05_gap (Z.to_nat i) = Some false.
Proof.
  split; [|split; [reflexivity|]].
  - apply esr_cons with (s' := (1, false)); [|apply esr_nil]. apply (es_next C05_gap 0 false true). reflexivity.
  - intros i Hi. unfold C05_gap. rewrite nth_error_app2 by (cbn; lia). rewrite nth_error_app1 by (rewrite repeat_length; cbn; lia).
    apply nth_error_repeat. cbn; lia.
Qed.

(** C06. Every history of calls that have an answer, [skip0] directly after [next] included:
    [skip0] counts the one returned last as a zero, and the other calls after it are right. *)
Theorem C06_exact_refuted : forall l pos os rs, 0 <= pos < 64 * zlen (pack l) ->
  uact_run l (pos, false) os rs -> urun_from (canonical l) pos os = Ok rs.
Proof. exact unary_all. Qed.
Print Assumptions C06_exact_refuted.
Definition C06_bits : list bool := [false; true; true; false; true; false] ++ repeat true 70 ++ [false].
Example C06_exact_ex : 1 < 64 * zlen (pack C06_bits) /\
  uact_run C06_bits (0, false) [UNext; USkip0 0; UNext; USkip0 1; UNext; USkip0 2] [1; 1; 2; 3; 4; 76].
Proof.
  split; [reflexivity|].
  eapply uar_cons; [apply (ua_next C06_bits (0, false) 1); vm_compute; auto|].
  eapply uar_cons; [apply (ua_skip0 C06_bits _ 0 1); [lia|vm_compute; auto]|].
  eapply uar_cons; [apply (ua_next C06_bits _ 2); vm_compute; auto|].
  eapply uar_cons; [apply (ua_skip0 C06_bits _ 1 3); [lia|vm_compute; auto]|].
  eapply uar_cons; [apply (ua_next C06_bits _ 4); vm_compute; auto|].
  eapply uar_cons; [apply (ua_skip0 C06_bits _ 2 76); [lia|vm_compute; auto]|].
  apply uar_nil.
Qed.

(** C06 in particular: for every sequence and every one in it, [skip0(0)] after [next]
    stays at that one, and [skip0(k+1)] finds the zero that [skip0(k)] should. *)
Theorem C06_off_by_one_refuted : forall a b,
  urun_from (canonical (a ++ true :: b)) (zlen a) [UNext; USkip0 0] = Ok [zlen a; zlen a] /\
  forall k q, is_select false b k q ->
    urun_from (canonical (a ++ true :: b)) (zlen a) [UNext; USkip0 (Z.of_nat k + 1)] =
      Ok [zlen a; zlen a + 1 + Z.of_nat q].
Proof. exact skip0_after_next. Qed.
Print Assumptions C06_off_by_one_refuted.
Example C06_off_by_one_ex : is_select false [true; false; true; false] 1 3.
Proof. split; reflexivity. Qed.
