(** Model of freeze of mapper.hpp with an output stream that can fail, and of the adaptors of util.hpp. *)
From Verif Require Import Base M_Mapper.

(** mapper.hpp:245 and the standard library: an ofstream has passed [os_file] on to the file, holds [os_pending] in its
    buffer, and has failed or not. [os_calls] counts the calls of write. Bytes that are pending when the stream fails are lost. *)
Record ofstream := mk_os { os_file : list Z; os_pending : list Z; os_good : bool; os_calls : nat }.

(** What the stream does with its buffer during the n-th write: keep it, or pass it on to a file that takes [k] bytes at most. (the ofstream of mapper.hpp:245) *)
Definition device := nat -> option Z.

(** mapper.hpp:245: the constructor sets failbit when the file cannot be opened *)
Definition os_open (opened : bool) : ofstream := mk_os [] [] opened 0.

(** the standard library: pass the buffer on; fewer bytes than asked for set badbit (behind mapper.hpp:59, 73, 84) *)
Definition os_flush (k : Z) (s : ofstream) : ofstream :=
  let n := Z.max 0 (Z.min k (zlen (os_pending s))) in
  mk_os (os_file s ++ firstn (Z.to_nat n) (os_pending s)) [] (n =? zlen (os_pending s)) (os_calls s).

(** mapper.hpp:59, 73, 84: ofstream::write does nothing on a failed stream *)
Definition os_write (dev : device) (bs : list Z) (s : ofstream) : ofstream :=
  if os_good s then
    let s' := mk_os (os_file s) (os_pending s ++ bs) true (S (os_calls s)) in
    match dev (os_calls s) with
    | None => s'
    | Some k => os_flush k s'
    end
  else s.

(** mapper.hpp:247: the destructor closes the file, which takes [k] bytes of the buffer at most *)
Definition os_close (k : Z) (s : ofstream) : ofstream := if os_good s then os_flush k s else s.

(** m_fout and m_written, mapper.hpp:95-97 *)
Definition sfreezer : Type := (ofstream * Z)%type.

(** mapper.hpp:70-76 *)
Definition sfreeze_pod (dev : device) (size x : Z) (s : sfreezer) : sfreezer :=
  (os_write dev (to_bytes (Z.to_nat size) x) (fst s), u64 (snd s + size)).

(** mapper.hpp:78-88 *)
Definition sfreeze_vec (dev : device) (size : Z) (xs : list Z) (s : sfreezer) : sfreezer :=
  let s := sfreeze_pod dev 8 (zlen xs) s in
  let n_bytes := u64 (zlen xs * size) in
  (os_write dev (firstn (Z.to_nat n_bytes) (flat_map (to_bytes (Z.to_nat size)) xs)) (fst s), u64 (snd s + n_bytes)).

(** mapper.hpp:63-68 *)
Fixpoint sfreeze_visit (dev : device) (l : layout) (d : data) (s : sfreezer) : sfreezer :=
  match l, d with
  | LPod size _, DPod x => sfreeze_pod dev size x s
  | LVec size _, DVec xs => sfreeze_vec dev size xs s
  | LObj ms, DObj ds => sfreeze_members dev ms ds s
  | _, _ => s
  end
with sfreeze_members (dev : device) (ms : members) (ds : datas) (s : sfreezer) : sfreezer :=
  match ms, ds with
  | MCons _ l ms, DCons d ds => sfreeze_members dev ms ds (sfreeze_visit dev l d s)
  | _, _ => s
  end.

(** mapper.hpp:53-61 and 234-240: freeze to a stream *)
Definition freeze_stream (dev : device) (l : layout) (d : data) (flags : Z) (s : ofstream) : sfreezer :=
  sfreeze_visit dev l d (sfreeze_pod dev 8 flags (s, 0)).

(** mapper.hpp:242-247: freeze to a file: the file when the call has returned, and the result *)
Definition freeze_file (dev : device) (opened : bool) (last : Z) (l : layout) (d : data) (flags : Z) : list Z * Z :=
  let s := freeze_stream dev l d flags (os_open opened) in
  (os_file (os_close last (fst s)), snd s).

(** util.hpp:132-150: the characters of a string object with its terminator, and the range of an adaptor as offsets into them *)
Definition c_str (s : list Z) : list Z := s ++ [0].
(** util.hpp:142-150 *)
Definition stl_string_adaptor (s : list Z) : Z * Z := (0, zlen s + 1).
(** util.hpp:134-140 *)
Definition identity_adaptor (r : Z * Z) : Z * Z := r.

(** the bytes of a range of memory (util.hpp:132) *)
Definition range_bytes (mem : list Z) (r : Z * Z) : res (list Z) :=
  if (0 <=? fst r) && (fst r <=? snd r) && (snd r <=? zlen mem)
  then Ok (firstn (Z.to_nat (snd r - fst r)) (skipn (Z.to_nat (fst r)) mem)) else Ub OutOfBounds.
