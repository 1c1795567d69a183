(** Model of map() where mapped vectors are kept as pointers, with and without the warmup flag. *)
From Verif Require Import Base M_Mapper.

(** What map() leaves in an object: integers, and vectors as the position of m_data in the memory and m_size
    (mapper.hpp:118-145, mappable_vector.hpp:119-120) *)
Inductive ldata : Type :=
| LDPod (x : Z)
| LDVec (pos n : Z)
| LDObj (ds : ldatas)
with ldatas : Type :=
| LDNil
| LDCons (d : ldata) (ds : ldatas).

(** mapper.hpp:126-145. [warm]: the flag warmup is set. The elements read at 138-140 are thrown away. The end of the elements is
    computed without a check that they lie inside the memory; only what is read is checked. *)
Definition lmap_vec (warm strict : bool) (addr : Z) (mem : list Z) (size : Z) (signed : bool) (cur : Z) : res (Z * Z * Z) :=
  do (n, cur) <- map_pod strict addr mem 8 false cur;
  let pos := cur in
  let bytes := u64 (n * size) in
  do _ <- (if warm then read_elems strict addr mem size signed (Z.to_nat n) pos else Ok []);
  Ok (pos, n, cur + bytes).

(** mapper.hpp:111-116 *)
Fixpoint lmap_visit (warm strict : bool) (addr : Z) (mem : list Z) (l : layout) (cur : Z) : res (ldata * Z) :=
  match l with
  | LPod size signed => do (x, cur) <- map_pod strict addr mem size signed cur; Ok (LDPod x, cur)
  | LVec size signed => do (pos, n, cur) <- lmap_vec warm strict addr mem size signed cur; Ok (LDVec pos n, cur)
  | LObj ms => do (ds, cur) <- lmap_members warm strict addr mem ms cur; Ok (LDObj ds, cur)
  end
with lmap_members (warm strict : bool) (addr : Z) (mem : list Z) (ms : members) (cur : Z) : res (ldatas * Z) :=
  match ms with
  | MNil => Ok (LDNil, cur)
  | MCons _ l ms =>
      do (d, cur) <- lmap_visit warm strict addr mem l cur;
      do (ds, cur) <- lmap_members warm strict addr mem ms cur;
      Ok (LDCons d ds, cur)
  end.

(** mapper.hpp:102-109, 147-149 and 249-261 *)
Definition lmap_at (warm strict : bool) (addr : Z) (mem : list Z) (l : layout) (base : Z) : res (ldata * Z) :=
  do (_, cur) <- map_pod strict addr mem 8 false base;
  do (d, cur) <- lmap_visit warm strict addr mem l cur;
  Ok (d, cur - base).

(** mappable_vector.hpp:101-104: element [i] of a mapped vector *)
Definition lget (strict : bool) (addr : Z) (mem : list Z) (size : Z) (signed : bool) (pos n i : Z) : res Z :=
  assert! (i <? n);
  read_as strict addr mem size signed (pos + i * size).

(** all that the object shows: its integers and the elements of its vectors, read one after the other
    (mappable_vector.hpp:101-104) *)
Fixpoint lread (strict : bool) (addr : Z) (mem : list Z) (l : layout) (d : ldata) : res data :=
  match l, d with
  | LPod _ _, LDPod x => Ok (DPod x)
  | LVec size signed, LDVec pos n => do xs <- read_elems strict addr mem size signed (Z.to_nat n) pos; Ok (DVec xs)
  | LObj ms, LDObj ds => do ds <- lread_members strict addr mem ms ds; Ok (DObj ds)
  | _, _ => Ub Dangling
  end
with lread_members (strict : bool) (addr : Z) (mem : list Z) (ms : members) (ds : ldatas) : res datas :=
  match ms, ds with
  | MNil, LDNil => Ok DNil
  | MCons _ l ms, LDCons d ds =>
      do d <- lread strict addr mem l d;
      do ds <- lread_members strict addr mem ms ds;
      Ok (DCons d ds)
  | _, _ => Ub Dangling
  end.
