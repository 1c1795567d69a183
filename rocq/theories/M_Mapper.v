(** Model of mapper.hpp and of the map() members of the structures.

    A map() template names the members of a structure in order; it is a [layout], and the values of
    the members are [data]. Bytes are numbers below 256 and words are stored little-endian; sizeof
    of an integer type is also its alignment. File output does not fail. *)
From Coq Require Strings.String.
From Verif Require Import Base M_BitVector M_RsBitVector M_Darray M_EliasFano M_Gamma M_Util M_Bp M_Cartesian M_Topk.
Import String.StringSyntax.
Local Open Scope string_scope.
Local Open Scope Z_scope.

(** friendly_name of mapper.hpp:65 *)
Definition name := String.string.

(** an integer type: its size in bytes and whether it is signed; a mappable_vector of one; or a
    class with a map() member (mapper.hpp:63-88) *)
Inductive layout : Type :=
| LPod (size : Z) (signed : bool)
| LVec (size : Z) (signed : bool)
| LObj (ms : members)
with members : Type :=
| MNil
| MCons (friendly_name : name) (l : layout) (ms : members).

(** the values of such a type (mapper.hpp:63-88) *)
Inductive data : Type :=
| DPod (x : Z)
| DVec (xs : list Z)
| DObj (ds : datas)
with datas : Type :=
| DNil
| DCons (d : data) (ds : datas).

(** the bytes of an integer and back (mapper.hpp:59, 73, 84, 107, 121) *)
Fixpoint to_bytes (n : nat) (x : Z) : list Z :=
  match n with
  | O => []
  | S n => x mod 256 :: to_bytes n (x / 256)
  end.
(** the bytes read at mapper.hpp:107, 121, little-endian *)
Fixpoint of_bytes (bs : list Z) : Z :=
  match bs with
  | [] => 0
  | b :: bs => b + 256 * of_bytes bs
  end.
(** the bytes read at mapper.hpp:121 as a signed or unsigned type *)
Definition of_bytes_as (signed : bool) (size : Z) (bs : list Z) : Z :=
  let x := of_bytes bs in
  if signed && (2 ^ (8 * size - 1) <=? x) then x - 2 ^ (8 * size) else x.

(** ** mapper.hpp:51-98 *)

(** m_fout and m_written (mapper.hpp:95-97) *)
Definition freezer : Type := (list Z * Z)%type.

(** mapper.hpp:70-76 *)
Definition freeze_pod (size x : Z) (s : freezer) : freezer :=
  (fst s ++ to_bytes (Z.to_nat size) x, u64 (snd s + size)).

(** mapper.hpp:78-88 *)
Definition freeze_vec (size : Z) (xs : list Z) (s : freezer) : freezer :=
  let s := freeze_pod 8 (zlen xs) s in
  let n_bytes := u64 (zlen xs * size) in
  (fst s ++ firstn (Z.to_nat n_bytes) (flat_map (to_bytes (Z.to_nat size)) xs), u64 (snd s + n_bytes)).

(** mapper.hpp:63-68. Members that do not fit the layout cannot occur in C++. *)
Fixpoint freeze_visit (l : layout) (d : data) (s : freezer) : freezer :=
  match l, d with
  | LPod size _, DPod x => freeze_pod size x s
  | LVec size _, DVec xs => freeze_vec size xs s
  | LObj ms, DObj ds => freeze_members ms ds s
  | _, _ => s
  end
with freeze_members (ms : members) (ds : datas) (s : freezer) : freezer :=
  match ms, ds with
  | MCons _ l ms, DCons d ds => freeze_members ms ds (freeze_visit l d s)
  | _, _ => s
  end.

(** mapper.hpp:53-61 and 234-247: the bytes written and the result *)
Definition freeze (l : layout) (d : data) (flags : Z) : freezer :=
  freeze_visit l d (freeze_pod 8 flags ([], 0)).

(** ** mapper.hpp:100-156 *)

(** Reads of an object at position [cur] of memory [mem] that starts at address [addr]. With
    [strict] a misaligned read is undefined, as in the C++ standard; without it is allowed, as on
    the machines the library targets. mapper.hpp:107, 121, 139. *)
Definition read_as (strict : bool) (addr : Z) (mem : list Z) (size : Z) (signed : bool) (cur : Z) : res Z :=
  if strict && negb ((addr + cur) mod size =? 0) then Ub Misaligned
  else if (0 <=? cur) && (cur + size <=? zlen mem) then
    Ok (of_bytes_as signed size (firstn (Z.to_nat size) (skipn (Z.to_nat cur) mem)))
  else Ub OutOfBounds.

(** the elements a mapped vector shows (mapper.hpp:132, mappable_vector.hpp:101-104) *)
Fixpoint read_elems (strict : bool) (addr : Z) (mem : list Z) (size : Z) (signed : bool) (n : nat) (cur : Z) : res (list Z) :=
  match n with
  | O => Ok []
  | S n =>
      do x <- read_as strict addr mem size signed cur;
      do xs <- read_elems strict addr mem size signed n (cur + size);
      Ok (x :: xs)
  end.

(** mapper.hpp:118-124 *)
Definition map_pod (strict : bool) (addr : Z) (mem : list Z) (size : Z) (signed : bool) (cur : Z) : res (Z * Z) :=
  do x <- read_as strict addr mem size signed cur;
  Ok (x, cur + size).

(** mapper.hpp:126-145. The vector keeps a pointer into the memory; here it gets its elements at
    once, as with the warmup flag, so memory that is too short is noticed here and not at the first
    use of a missing element. *)
Definition map_vec (strict : bool) (addr : Z) (mem : list Z) (size : Z) (signed : bool) (cur : Z) : res (list Z * Z) :=
  do (n, cur) <- map_pod strict addr mem 8 false cur;
  let bytes := u64 (n * size) in
  do xs <- read_elems strict addr mem size signed (Z.to_nat n) cur;
  Ok (xs, cur + bytes).

(** mapper.hpp:111-116 *)
Fixpoint map_visit (strict : bool) (addr : Z) (mem : list Z) (l : layout) (cur : Z) : res (data * Z) :=
  match l with
  | LPod size signed => do (x, cur) <- map_pod strict addr mem size signed cur; Ok (DPod x, cur)
  | LVec size signed => do (xs, cur) <- map_vec strict addr mem size signed cur; Ok (DVec xs, cur)
  | LObj ms => do (ds, cur) <- map_members strict addr mem ms cur; Ok (DObj ds, cur)
  end
with map_members (strict : bool) (addr : Z) (mem : list Z) (ms : members) (cur : Z) : res (datas * Z) :=
  match ms with
  | MNil => Ok (DNil, cur)
  | MCons _ l ms =>
      do (d, cur) <- map_visit strict addr mem l cur;
      do (ds, cur) <- map_members strict addr mem ms cur;
      Ok (DCons d ds, cur)
  end.

(** mapper.hpp:102-109, 147-149 and 249-261: the members and the bytes read *)
Definition map_at (strict : bool) (addr : Z) (mem : list Z) (l : layout) (base : Z) : res (data * Z) :=
  do (_, cur) <- map_pod strict addr mem 8 false base;
  do (d, cur) <- map_visit strict addr mem l cur;
  Ok (d, cur - base).

(** ** mapper.hpp:158-230 *)

(** mapper.hpp:27-38; shared pointers to nodes are the nodes *)
Inductive size_node : Type := Node (node_name : name) (size : Z) (children : list size_node).

(** mapper.hpp:168-207: m_size after the visit and the children added to the current node *)
Fixpoint sizeof_visit (l : layout) (d : data) (friendly_name : name) (m_size : Z) : Z * list size_node :=
  match l, d with
  | LPod size _, DPod _ => (u64 (m_size + size), [])
  | LVec size _, DVec xs =>
      let checkpoint := m_size in
      let m_size := u64 (m_size + 8) in
      let m_size := u64 (m_size + u64 (zlen xs * size)) in
      (m_size, [Node friendly_name (sub64 m_size checkpoint) []])
  | LObj ms, DObj ds =>
      let checkpoint := m_size in
      let '(m_size, children) := sizeof_members ms ds m_size in
      (m_size, [Node friendly_name (sub64 m_size checkpoint) children])
  | _, _ => (m_size, [])
  end
with sizeof_members (ms : members) (ds : datas) (m_size : Z) : Z * list size_node :=
  match ms, ds with
  | MCons friendly_name l ms, DCons d ds =>
      let '(m_size, n1) := sizeof_visit l d friendly_name m_size in
      let '(m_size, n2) := sizeof_members ms ds m_size in
      (m_size, n1 ++ n2)
  | _, _ => (m_size, [])
  end.

(** mapper.hpp:263-269 *)
Definition size_of (l : layout) (d : data) : Z := fst (sizeof_visit l d "" 0).

(** mapper.hpp:271-278 *)
Definition size_tree_of (l : layout) (d : data) (friendly_name : name) : res size_node :=
  match snd (sizeof_visit l d friendly_name 0) with
  | [] => Ub AssertFailed
  | node :: _ => Ok node
  end.

(** ** the structures *)

(** the type uint64_t or size_t of a member (bit_vector.hpp:525) *)
Notation uint64 := (LPod 8 false).
(** the type mappable_vector<uint64_t> of a member (bit_vector.hpp:526) *)
Notation vec_uint64 := (LVec 8 false).

(** visiting a base class in place (rs_bit_vector.hpp:28, bp_vector.hpp:30) *)
Fixpoint app_members (a b : members) : members :=
  match a with
  | MNil => b
  | MCons n l a => MCons n l (app_members a b)
  end.
(** the members of a base class first (rs_bit_vector.hpp:28, bp_vector.hpp:30) *)
Fixpoint app_datas (a b : datas) : datas :=
  match a with
  | DNil => b
  | DCons d a => DCons d (app_datas a b)
  end.

(** a structure: its map() and its members (e.g. bit_vector.hpp:227-232) *)
Record mappable (A : Type) := mk_map { layout_of : layout; data_of : A -> data }.
Arguments mk_map {A} _ _.
Arguments layout_of {A} _.
Arguments data_of {A} _ _.

(** mappable_vector.hpp:119-120 of an integer type *)
Definition vec_map (size : Z) (signed : bool) : mappable (list Z) := mk_map (LVec size signed) DVec.

(** bit_vector.hpp:227-232 *)
Definition bv_members : members := MCons "m_size" uint64 (MCons "m_bits" vec_uint64 MNil).
(** bit_vector.hpp:227-232, the values *)
Definition bv_datas (bv : bit_vector) : datas := DCons (DPod (bv_size bv)) (DCons (DVec (bv_words bv)) DNil).
(** bit_vector.hpp:227-232 *)
Definition bv_map : mappable bit_vector := mk_map (LObj bv_members) (fun bv => DObj (bv_datas bv)).

(** rs_bit_vector.hpp:26-34; the base class is visited in place *)
Definition rs_members : members := app_members bv_members
  (MCons "m_block_rank_pairs" vec_uint64 (MCons "m_select_hints" vec_uint64 (MCons "m_select0_hints" vec_uint64 MNil))).
(** rs_bit_vector.hpp:26-34, the values *)
Definition rs_datas (rs : rs_bit_vector) : datas := app_datas (bv_datas (rs_bv rs))
  (DCons (DVec (rs_pairs rs)) (DCons (DVec (rs_hints rs)) (DCons (DVec (rs_hints0 rs)) DNil))).
(** rs_bit_vector.hpp:26-34 *)
Definition rs_map : mappable rs_bit_vector := mk_map (LObj rs_members) (fun rs => DObj (rs_datas rs)).

(** bp_vector.hpp:28-36 *)
Definition bp_members : members := app_members rs_members
  (MCons "m_internal_nodes" uint64 (MCons "m_block_excess_min" (LVec 2 true) (MCons "m_superblock_excess_min" (LVec 4 true) MNil))).
(** bp_vector.hpp:28-36, the values *)
Definition bp_datas (bp : bp_vector) : datas := app_datas (rs_datas (bp_rs bp))
  (DCons (DPod (bp_internal_nodes bp)) (DCons (DVec (bp_block_excess_min bp)) (DCons (DVec (bp_superblock_excess_min bp)) DNil))).
(** bp_vector.hpp:28-36 *)
Definition bp_map : mappable bp_vector := mk_map (LObj bp_members) (fun bp => DObj (bp_datas bp)).

(** cartesian_tree.hpp:149-154 *)
Definition ct_map : mappable bp_vector := mk_map (LObj (MCons "m_bp" (LObj bp_members) MNil)) (fun ct => DObj (DCons (DObj (bp_datas ct)) DNil)).

(** darray.hpp:57-65 *)
Definition da_map : mappable darray := mk_map
  (LObj (MCons "m_positions" uint64 (MCons "m_block_inventory" (LVec 8 true) (MCons "m_subblock_inventory" (LVec 2 false) (MCons "m_overflow_positions" vec_uint64 MNil)))))
  (fun d => DObj (DCons (DPod (da_positions d)) (DCons (DVec (da_blocks d)) (DCons (DVec (da_subs d)) (DCons (DVec (da_ovf d)) DNil))))).

(** darray64.hpp:56-64 *)
Definition d64_map : mappable darray64 := mk_map
  (LObj (MCons "m_num_ones" uint64 (MCons "m_bits" (layout_of bv_map) (MCons "m_block_inventory" vec_uint64 (MCons "m_subblock_inventory" (LVec 2 false) MNil)))))
  (fun d => DObj (DCons (DPod (d64_num_ones d)) (DCons (data_of bv_map (d64_bits d)) (DCons (DVec (d64_blocks d)) (DCons (DVec (d64_subs d)) DNil))))).

(** elias_fano.hpp:80-90 *)
Definition ef_map : mappable elias_fano := mk_map
  (LObj (MCons "m_size" uint64 (MCons "m_high_bits" (layout_of bv_map) (MCons "m_high_bits_d1" (layout_of da_map) (MCons "m_high_bits_d0" (layout_of da_map)
    (MCons "m_low_bits" (layout_of bv_map) (MCons "m_l" (LPod 1 false) MNil)))))))
  (fun ef => DObj (DCons (DPod (ef_size ef)) (DCons (data_of bv_map (ef_high ef)) (DCons (data_of da_map (ef_d1 ef)) (DCons (data_of da_map (ef_d0 ef))
    (DCons (data_of bv_map (ef_low ef)) (DCons (DPod (ef_l ef)) DNil))))))).

(** elias_fano_list.hpp:57-62 *)
Definition efl_map : mappable elias_fano := mk_map
  (LObj (MCons "m_ef" (layout_of ef_map) MNil)) (fun l => DObj (DCons (data_of ef_map l) DNil)).

(** elias_fano_compressed_list.hpp:61-67 *)
Definition efc_map : mappable ef_compressed := mk_map
  (LObj (MCons "m_ef" (layout_of ef_map) (MCons "m_bits" (layout_of bv_map) MNil)))
  (fun l => DObj (DCons (data_of ef_map (efc_ef l)) (DCons (data_of bv_map (efc_bits l)) DNil))).

(** gamma_vector.hpp:59-65, gamma_bit_vector.hpp:65-71 *)
Definition gamma_map : mappable gamma := mk_map
  (LObj (MCons "m_high_bits" (layout_of d64_map) (MCons "m_low_bits" (layout_of bv_map) MNil)))
  (fun g => DObj (DCons (data_of d64_map (g_high g)) (DCons (data_of bv_map (g_low g)) DNil))).

(** nibble_vector.hpp:42-47 *)
Definition nv_map : mappable nibble_vector := mk_map
  (LObj (MCons "m_size" uint64 (MCons "m_nibbles" (LVec 1 false) MNil)))
  (fun v => DObj (DCons (DPod (nv_size v)) (DCons (DVec (nv_nibbles v)) DNil))).

(** topk_vector.hpp:168-174 with a vector of uint64_t *)
Definition tk_map : mappable (topk_vector Z) := mk_map
  (LObj (MCons "m_v" vec_uint64 (MCons "m_cartesian_tree" (layout_of ct_map) MNil)))
  (fun tk => DObj (DCons (DVec (tk_v tk)) (DCons (data_of ct_map (tk_tree tk)) DNil))).
