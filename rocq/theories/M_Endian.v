(** Model of the code that looks at the bytes of integers, for both byte orders. The rest of the
    library uses integers only by their values. Misaligned reads are allowed, as in M_Mapper without
    [strict]. [big] says whether the machine is big-endian. *)
From Verif Require Import Base M_BitVector M_Mapper.

(** the bytes of an integer in memory, and back; used by the casts of mapper.hpp:59, 73, 84, 107, 121
    and 132 *)
Definition e_to_bytes (big : bool) (n : nat) (x : Z) : list Z :=
  if big then rev (to_bytes n x) else to_bytes n x.
(** the reads at mapper.hpp:107, 121 and 139 on a machine of either byte order *)
Definition e_of_bytes_as (big signed : bool) (size : Z) (bs : list Z) : Z :=
  of_bytes_as signed size (if big then rev bs else bs).

(** mapper.hpp:70-76 *)
Definition e_freeze_pod (big : bool) (size x : Z) (s : freezer) : freezer :=
  (fst s ++ e_to_bytes big (Z.to_nat size) x, u64 (snd s + size)).

(** mapper.hpp:78-88 *)
Definition e_freeze_vec (big : bool) (size : Z) (xs : list Z) (s : freezer) : freezer :=
  let s := e_freeze_pod big 8 (zlen xs) s in
  let n_bytes := u64 (zlen xs * size) in
  (fst s ++ firstn (Z.to_nat n_bytes) (flat_map (e_to_bytes big (Z.to_nat size)) xs), u64 (snd s + n_bytes)).

(** mapper.hpp:63-68 *)
Fixpoint e_freeze_visit (big : bool) (l : layout) (d : data) (s : freezer) : freezer :=
  match l, d with
  | LPod size _, DPod x => e_freeze_pod big size x s
  | LVec size _, DVec xs => e_freeze_vec big size xs s
  | LObj ms, DObj ds => e_freeze_members big ms ds s
  | _, _ => s
  end
with e_freeze_members (big : bool) (ms : members) (ds : datas) (s : freezer) : freezer :=
  match ms, ds with
  | MCons _ l ms, DCons d ds => e_freeze_members big ms ds (e_freeze_visit big l d s)
  | _, _ => s
  end.

(** mapper.hpp:53-61 and 234-247 *)
Definition e_freeze (big : bool) (l : layout) (d : data) (flags : Z) : freezer :=
  e_freeze_visit big l d (e_freeze_pod big 8 flags ([], 0)).

(** the reads of mapper.hpp:107, 121 and 132 *)
Definition e_read_as (big : bool) (mem : list Z) (size : Z) (signed : bool) (cur : Z) : res Z :=
  if (0 <=? cur) && (cur + size <=? zlen mem) then
    Ok (e_of_bytes_as big signed size (firstn (Z.to_nat size) (skipn (Z.to_nat cur) mem)))
  else Ub OutOfBounds.

(** the elements a mapped vector shows, mapper.hpp:132 *)
Fixpoint e_read_elems (big : bool) (mem : list Z) (size : Z) (signed : bool) (n : nat) (cur : Z) : res (list Z) :=
  match n with
  | O => Ok []
  | S n =>
      do x <- e_read_as big mem size signed cur;
      do xs <- e_read_elems big mem size signed n (cur + size);
      Ok (x :: xs)
  end.

(** mapper.hpp:118-124 *)
Definition e_map_pod (big : bool) (mem : list Z) (size : Z) (signed : bool) (cur : Z) : res (Z * Z) :=
  do x <- e_read_as big mem size signed cur;
  Ok (x, cur + size).

(** mapper.hpp:126-145; the elements are read at once, as in [map_vec] *)
Definition e_map_vec (big : bool) (mem : list Z) (size : Z) (signed : bool) (cur : Z) : res (list Z * Z) :=
  do (n, cur) <- e_map_pod big mem 8 false cur;
  let bytes := u64 (n * size) in
  do xs <- e_read_elems big mem size signed (Z.to_nat n) cur;
  Ok (xs, cur + bytes).

(** mapper.hpp:111-116 *)
Fixpoint e_map_visit (big : bool) (mem : list Z) (l : layout) (cur : Z) : res (data * Z) :=
  match l with
  | LPod size signed => do (x, cur) <- e_map_pod big mem size signed cur; Ok (DPod x, cur)
  | LVec size signed => do (xs, cur) <- e_map_vec big mem size signed cur; Ok (DVec xs, cur)
  | LObj ms => do (ds, cur) <- e_map_members big mem ms cur; Ok (DObj ds, cur)
  end
with e_map_members (big : bool) (mem : list Z) (ms : members) (cur : Z) : res (datas * Z) :=
  match ms with
  | MNil => Ok (DNil, cur)
  | MCons _ l ms =>
      do (d, cur) <- e_map_visit big mem l cur;
      do (ds, cur) <- e_map_members big mem ms cur;
      Ok (DCons d ds, cur)
  end.

(** mapper.hpp:102-109, 147-149 and 249-261 *)
Definition e_map_at (big : bool) (mem : list Z) (l : layout) (base : Z) : res (data * Z) :=
  do (_, cur) <- e_map_pod big mem 8 false base;
  do (d, cur) <- e_map_visit big mem l cur;
  Ok (d, cur - base).

(** the byte at offset [i] of an array of words: bit_vector.hpp:283 *)
Definition e_byte (big : bool) (ws : list Z) (i : Z) : res Z :=
  do w <- rd ws (i / 8);
  Ok (Z.land (Z.shiftr w (8 * (if big then 7 - i mod 8 else i mod 8))) 0xFF).

(** [n] bytes from offset [i] (the read at bit_vector.hpp:284) *)
Fixpoint e_bytes (big : bool) (ws : list Z) (i : Z) (n : nat) : res (list Z) :=
  match n with
  | O => Ok []
  | S n =>
      do b <- e_byte big ws i;
      do bs <- e_bytes big ws (i + 1) n;
      Ok (b :: bs)
  end.

(** bit_vector.hpp:280-285 *)
Definition e_get_word56 (big : bool) (bv : bit_vector) (pos : Z) : res Z :=
  do bs <- e_bytes big (bv_words bv) (pos / 8) 8;
  shr (e_of_bytes_as big false 8 bs) (pos mod 8).
