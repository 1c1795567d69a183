(** C78: the bytes decode_vbyte accepts. *)
From Verif Require Import Base M_Util S_Util S_Vbyte P_Vbyte.

(** any bytes with the continuation bit up to one without it: the digits in base 128, modulo 2^64 *)
Theorem C78_decode : forall pre enc last suf, zlen pre + zlen enc < 2 ^ 64 - 1 -> Forall more enc -> final last ->
  decode_vbyte (pre ++ enc ++ last :: suf) (zlen pre) = Ok (zlen enc + 1, base128 (enc ++ [last]) mod 2 ^ 64).
Proof. exact decode_exact. Qed.
Print Assumptions C78_decode.
Example C78_decode_ex : Forall more [130; 200] /\ final 5 /\ decode_vbyte [7; 130; 200; 5; 9] 1 = Ok (3, (2 * 128 + 72) * 128 + 5) /\
  decode_vbyte (repeat 255 10 ++ [127]) 0 = Ok (11, 2 ^ 64 - 1).
Proof. split; [repeat constructor; unfold more; lia|]. split; [unfold final; lia|]. vm_compute. auto. Qed.

(** bytes that never end: reads past the buffer *)
Theorem C78_unterminated_refuted : forall pre enc, Forall more enc -> decode_vbyte (pre ++ enc) (zlen pre) = Ub OutOfBounds.
Proof. exact decode_unterminated. Qed.
Print Assumptions C78_unterminated_refuted.
Example C78_unterminated_ex : Forall more [130; 200] /\ decode_vbyte [7; 130; 200] 1 = Ub OutOfBounds.
Proof. split; [repeat constructor; unfold more; lia|reflexivity]. Qed.

(** codes other than the one append_vbyte writes are accepted: leading zero digits change only the length *)
Theorem C78_overlong_refuted : forall pre enc last suf k, zlen pre + Z.of_nat k + zlen enc < 2 ^ 64 - 1 -> Forall more enc -> final last ->
  decode_vbyte (pre ++ repeat 128 k ++ enc ++ last :: suf) (zlen pre) = Ok (Z.of_nat k + zlen enc + 1, base128 (enc ++ [last]) mod 2 ^ 64).
Proof. exact decode_overlong. Qed.
Print Assumptions C78_overlong_refuted.
Example C78_overlong_ex : decode_vbyte [130; 44] 0 = Ok (2, 300) /\ decode_vbyte [128; 128; 130; 44] 0 = Ok (4, 300).
Proof. vm_compute. auto. Qed.

(** without leading zero digits and below 2^64 the accepted code is the one append_vbyte writes *)
Theorem C78_canonical_partial : forall v enc last, Forall more enc -> final last -> no_leading_zero enc -> base128 (enc ++ [last]) < 2 ^ 64 ->
  append_vbyte v (base128 (enc ++ [last])) = Ok (v ++ enc ++ [last], zlen enc + 1).
Proof. exact encode_canonical. Qed.
Print Assumptions C78_canonical_partial.
Example C78_canonical_ex : Forall more [130] /\ final 44 /\ no_leading_zero [130] /\ base128 [130; 44] = 300 /\ append_vbyte [200] 300 = Ok ([200; 130; 44], 2).
Proof. split; [repeat constructor; unfold more; lia|]. split; [unfold final; lia|]. split; [cbn; lia|]. vm_compute. auto. Qed.
