(** C76: freezing to a stream that can fail. C79: the adaptors of util.hpp. *)
From Verif Require Import Base Spec M_BitVector M_Mapper M_Stream S_BitVector S_Mapper P_Mapper S_Stream P_Stream.

(** the result of freeze does not depend on the stream: it counts the bytes handed over, also when none reaches the file *)
Theorem C76_count_refuted : forall dev l d flags,
  (forall s, snd (freeze_stream dev l d flags s) = snd (freeze l d flags)) /\
  (forall last, freeze_file dev false last l d flags = ([], snd (freeze l d flags))).
Proof. exact file_count. Qed.
Print Assumptions C76_count_refuted.
Example C76_count_ex : freeze_file (fun _ => Some 100) false 100 (layout_of bv_map) (data_of bv_map (canonical [true; false; true])) 0 = ([], 32).
Proof. vm_compute. reflexivity. Qed.

(** a stream that is still good when freeze returns can lose everything when it is closed *)
Theorem C76_good_refuted : forall l d flags,
  let s := fst (freeze_stream (fun _ => None) l d flags (os_open true)) in
  os_good s = true /\ freeze_file (fun _ => None) true 0 l d flags = ([], snd (freeze l d flags)).
Proof. exact good_lost. Qed.
Print Assumptions C76_good_refuted.
Example C76_good_ex : freeze_file (fun _ => None) true 0 (layout_of bv_map) (data_of bv_map (canonical [true; false; true])) 0 = ([], 32).
Proof. vm_compute. reflexivity. Qed.

(** what the stream holds: all bytes of the image, in the file or still in the buffer, when it is good; a proper prefix when it has failed *)
Theorem C76_prefix : forall dev l d flags s0, os_good s0 = true ->
  let s := fst (freeze_stream dev l d flags s0) in
  exists rest, os_file s0 ++ os_pending s0 ++ fst (freeze l d flags) = os_file s ++ os_pending s ++ rest /\
    if os_good s then rest = [] else os_pending s = [] /\ rest <> [].
Proof. exact stream_prefix. Qed.
Print Assumptions C76_prefix.
Example C76_prefix_ex : os_good (os_open true) = true /\
  fst (freeze_stream (fun n => if Nat.eqb n 2 then Some 17 else None) (layout_of bv_map) (data_of bv_map (canonical [true; false; true])) 5 (os_open true)) =
    mk_os [5; 0; 0; 0; 0; 0; 0; 0; 3; 0; 0; 0; 0; 0; 0; 0; 1] [] false 3.
Proof. vm_compute. auto. Qed.

(** a failed stream is left as it was *)
Theorem C76_failed : forall dev l d flags s, os_good s = false -> fst (freeze_stream dev l d flags s) = s.
Proof. exact stream_bad. Qed.
Print Assumptions C76_failed.
Example C76_failed_ex : os_good (mk_os [1; 2] [] false 7) = false.
Proof. reflexivity. Qed.

(** how a caller can tell: the file has size_of + 8 bytes and maps to the structure, or it is shorter and mapping it reads outside it *)
Theorem C76_detect : forall A (M : mappable A) x flags addr dev opened last,
  typed (layout_of M) (data_of M x) -> 8 + frozen_size (layout_of M) (data_of M x) < 2 ^ 64 -> 0 <= flags < 2 ^ 64 ->
  let image := fst (freeze (layout_of M) (data_of M x) flags) in
  let file := fst (freeze_file dev opened last (layout_of M) (data_of M x) flags) in
  (zlen file = size_of (layout_of M) (data_of M x) + 8 /\ file = image /\ map_at false addr file (layout_of M) 0 = Ok (data_of M x, zlen file)) \/
  (zlen file < size_of (layout_of M) (data_of M x) + 8 /\ map_at false addr file (layout_of M) 0 = Ub OutOfBounds).
Proof. exact @file_detect. Qed.
Print Assumptions C76_detect.
Example C76_detect_ex : typed (layout_of bv_map) (data_of bv_map (canonical [true; false; true])) /\
  8 + frozen_size (layout_of bv_map) (data_of bv_map (canonical [true; false; true])) < 2 ^ 64 /\
  zlen (fst (freeze_file (fun _ => Some 31) true 31 (layout_of bv_map) (data_of bv_map (canonical [true; false; true])) 0)) = 32 /\
  zlen (fst (freeze_file (fun _ => None) true 31 (layout_of bv_map) (data_of bv_map (canonical [true; false; true])) 0)) = 31.
Proof. split; [apply typedb_ok; vm_compute; reflexivity|]. vm_compute. auto. Qed.

(** stl_string_adaptor: the bytes of the string and one 0; different strings give different bytes *)
Theorem C79_bytes : forall s, range_bytes (c_str s) (identity_adaptor (stl_string_adaptor s)) = Ok (s ++ [0]) /\ forall t, s ++ [0] = t ++ [0] -> s = t.
Proof. exact adaptor_ok. Qed.
Print Assumptions C79_bytes.
Example C79_bytes_ex : range_bytes (c_str [104; 105]) (identity_adaptor (stl_string_adaptor [104; 105])) = Ok [104; 105; 0].
Proof. reflexivity. Qed.

(** without 0 among the characters no range is a prefix of another, and the order of the strings is kept *)
Theorem C79_prefix_free_partial : forall s t, Forall (fun b => 0 < b) s -> Forall (fun b => 0 < b) t ->
  (prefix (s ++ [0]) (t ++ [0]) -> s = t) /\ (lex (s ++ [0]) (t ++ [0]) <-> lex s t).
Proof. exact adaptor_keys. Qed.
Print Assumptions C79_prefix_free_partial.
Example C79_prefix_free_ex : Forall (fun b => 0 < b) [104; 105] /\ Forall (fun b => 0 < b) [104; 105; 33] /\ prefix [104; 105] [104; 105; 33].
Proof. split; [|split]; [repeat constructor..|exists [33]; reflexivity]. Qed.

(** with a 0 among the characters a range can be a proper prefix of another *)
Theorem C79_prefix_free_refuted : forall s u, prefix (s ++ [0]) ((s ++ 0 :: u) ++ [0]) /\ s <> s ++ 0 :: u.
Proof. exact adaptor_nul. Qed.
Print Assumptions C79_prefix_free_refuted.
Example C79_prefix_free_refuted_ex : prefix [104; 0] [104; 0; 105; 0].
Proof. exists [105; 0]. reflexivity. Qed.
