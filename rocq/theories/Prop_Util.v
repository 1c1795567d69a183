(** C25, C26, C27, C38, C39, C40: vbyte.hpp, nibble_vector.hpp, util.hpp. *)
From Verif Require Import Base M_Util S_Util P_Util.

(** C25 *)
Theorem C25_vbyte : forall v val, 0 <= val < 2 ^ 64 -> exists enc,
  append_vbyte v val = Ok (v ++ enc, zlen enc) /\ Forall (fun x => 0 <= x < 256) enc /\
  vbyte_size val = Ok (zlen enc) /\ zlen enc = vbytes_spec val /\
  forall suf, decode_vbyte (v ++ enc ++ suf) (zlen v) = Ok (zlen enc, val).
Proof. exact vbyte_ok. Qed.
Print Assumptions C25_vbyte.
Example C25_ex : 0 <= 2 ^ 64 - 1 < 2 ^ 64 /\
  append_vbyte [200; 5] 300 = Ok ([200; 5; 130; 44], 2) /\ decode_vbyte [200; 5; 130; 44; 255] 2 = Ok (2, 300) /\
  append_vbyte [] (2 ^ 64 - 1) = Ok ([129; 255; 255; 255; 255; 255; 255; 255; 255; 127], 10) /\
  decode_vbyte [129; 255; 255; 255; 255; 255; 255; 255; 255; 127] 0 = Ok (10, 2 ^ 64 - 1) /\
  append_vbyte [] 0 = Ok ([0], 1).
Proof. vm_compute. intuition congruence. Qed.

(** C26 *)
Theorem C26_nibble_vector : forall l, Forall (fun x => 0 <= x < 16) l -> exists n,
  nv_build l = Ok n /\ nv_size n = zlen l /\ zlen (nv_nibbles n) = (zlen l + 1) / 2 /\
  forall i x, nth_error l i = Some x -> nv_get n (Z.of_nat i) = Ok x.
Proof. exact nv_ok. Qed.
Print Assumptions C26_nibble_vector.
Example C26_ex : Forall (fun x => 0 <= x < 16) [3; 15; 0; 7; 9] /\
  nv_build [3; 15; 0; 7; 9] = Ok (mk_nv 5 [243; 112; 9]) /\ nv_get (mk_nv 5 [243; 112; 9]) 3 = Ok 7.
Proof. split; [repeat constructor; discriminate|]. vm_compute. auto. Qed.

(** C27: the range where both are inverse; missing: the rest of the 64-bit range, where int2nat is
    undefined (C27_overflow_refuted, C27_wrap_refuted) *)
Theorem C27_int_nat_partial : forall x, - 2 ^ 62 < x < 2 ^ 62 -> exists n,
  int2nat x = Ok n /\ 0 <= n < 2 ^ 64 /\ nat2int n = Ok x.
Proof. exact int_nat_int. Qed.
Print Assumptions C27_int_nat_partial.
Example C27_int_nat_ex : - 2 ^ 62 < - 2 ^ 62 + 1 < 2 ^ 62 /\ int2nat (- 2 ^ 62 + 1) = Ok (2 ^ 63 - 3) /\
  nat2int (2 ^ 63 - 3) = Ok (- 2 ^ 62 + 1).
Proof. vm_compute. auto. Qed.
Theorem C27_nat_int_partial : forall n, 0 <= n < 2 ^ 63 - 1 -> exists x, nat2int n = Ok x /\ int2nat x = Ok n.
Proof. exact nat_int_nat. Qed.
Print Assumptions C27_nat_int_partial.
Example C27_ex : - 2 ^ 62 < - 2 ^ 62 + 1 < 2 ^ 62 /\ int2nat (- 2 ^ 62 + 1) = Ok (2 ^ 63 - 3) /\
  nat2int (2 ^ 63 - 3) = Ok (- 2 ^ 62 + 1) /\ nat2int (2 ^ 63 - 2) = Ok (2 ^ 62 - 1) /\ int2nat (2 ^ 62 - 1) = Ok (2 ^ 63 - 2).
Proof. vm_compute. intuition congruence. Qed.

Theorem C27_overflow_refuted : forall x, - 2 ^ 63 <= x < 2 ^ 63 -> ~ (- 2 ^ 62 < x < 2 ^ 62) ->
  int2nat x = Ub SignedOverflow.
Proof. exact int2nat_ub. Qed.
Print Assumptions C27_overflow_refuted.
Example C27_overflow_ex : int2nat (2 ^ 62) = Ub SignedOverflow /\ int2nat (- 2 ^ 63) = Ub SignedOverflow.
Proof. vm_compute. auto. Qed.
Theorem C27_wrap_refuted : nat2int (2 ^ 64 - 1) = Ok 0 /\ int2nat 0 = Ok 0.
Proof. exact nat2int_wrap. Qed.
Print Assumptions C27_wrap_refuted.

(** C38 *)
Theorem C38_buffer_lines : forall buf, exists ls,
  bl_lines buf = Ok ls /\ Forall2 without_cr (split_lines buf) ls.
Proof. exact bl_lines_ok. Qed.
Print Assumptions C38_buffer_lines.
Example C38_ex : bl_lines [97; 13; 10; 10; 98; 13; 13; 10; 99] = Ok [[97]; []; [98; 13]; [99]] /\
  split_lines [97; 13; 10; 10; 98; 13; 13; 10; 99] = [[97; 13]; []; [98; 13; 13]; [99]] /\
  bl_lines [10] = Ok [[]] /\ bl_lines [] = Ok [].
Proof. vm_compute. auto. Qed.

(** C39: lines that end in a newline, and the end of the file; missing: a last line without
    newline (C39_tail_refuted) *)
Theorem C39_getline_partial : forall input trim, no_nul input -> In 10 input -> exists line,
  fast_getline input trim = Ok (Some line, after_line input) /\
  if trim then trimmed (next_line input) line else line = next_line input.
Proof. exact fast_getline_ok. Qed.
Print Assumptions C39_getline_partial.
Example C39_getline_ex : no_nul [97; 13; 10; 98] /\ In 10 [97; 13; 10; 98] /\
  fast_getline [97; 13; 10; 98] true = Ok (Some [97], [98]).
Proof. split; [intros H; repeat (destruct H as [H|H]; [discriminate|]); exact H|]. vm_compute. auto. Qed.
Theorem C39_eof_partial : forall trim, fast_getline [] trim = Ok (None, []).
Proof. exact fast_getline_eof. Qed.
Print Assumptions C39_eof_partial.
Example C39_eof_ex : fast_getline [] true = Ok (None, []) /\ fast_getline [10] true = Ok (Some [], []).
Proof. vm_compute. auto. Qed.
Theorem C39_tail_refuted :
  ~ (forall input, no_nul input -> input <> [] ->
     fast_getline input false = Ok (Some (next_line input), after_line input)).
Proof. exact getline_false. Qed.
Print Assumptions C39_tail_refuted.
(** what an unterminated last line is read as *)
Theorem C39_tail_doubled_refuted : forall input, no_nul input -> ~ In 10 input -> input <> [] -> zlen input < 65536 ->
  fast_getline input false = Ok (Some (input ++ input), []).
Proof. exact fast_getline_tail. Qed.
Print Assumptions C39_tail_doubled_refuted.
Example C39_ex : no_nul [97; 13; 10; 98] /\ In 10 [97; 13; 10; 98] /\
  fast_getline [97; 13; 10; 98] false = Ok (Some [97; 13; 10], [98]) /\
  fast_getline [97; 13; 10; 98] true = Ok (Some [97], [98]) /\
  fast_getline [98; 99] false = Ok (Some [98; 99; 98; 99], []).
Proof. split; [intros H; repeat (destruct H as [H|H]; [discriminate|]); exact H|]. vm_compute. auto. Qed.

(** C40: the lines do come in order, each once; but an empty string is visited first *)
Theorem C40_lines_partial : forall file trim, no_nul file -> terminated file -> exists rs,
  lines_visited file trim = Ok ([] :: rs) /\ Forall2 (line_result trim) (split_lines file) rs.
Proof. exact lines_visited_ok. Qed.
Print Assumptions C40_lines_partial.
Example C40_lines_ex : no_nul [97; 10; 10; 98; 10] /\ terminated [97; 10; 10; 98; 10] /\
  lines_visited [97; 10; 10; 98; 10] false = Ok [[]; [97; 10]; [10]; [98; 10]].
Proof.
  split; [intros H; repeat (destruct H as [H|H]; [discriminate|]); exact H|].
  split; [right; exists [97; 10; 10; 98]; reflexivity|reflexivity].
Qed.
Theorem C40_lines_refuted :
  ~ (forall file, no_nul file -> terminated file ->
     exists rs, lines_visited file false = Ok rs /\ Forall2 (line_result false) (split_lines file) rs).
Proof. exact lines_false. Qed.
Print Assumptions C40_lines_refuted.
Example C40_ex : no_nul [97; 10; 98; 10] /\ terminated [97; 10; 98; 10] /\
  lines_visited [97; 10; 98; 10] true = Ok [[]; [97]; [98]].
Proof.
  split; [intros H; repeat (destruct H as [H|H]; [discriminate|]); exact H|].
  split; [right; exists [97; 10; 98]; reflexivity|reflexivity].
Qed.
