(** Member values and frozen sizes, stated without the visitors. *)
From Verif Require Import Base Spec M_Mapper.

(** the values of an integer type *)
Definition in_type (size : Z) (signed : bool) (x : Z) : Prop :=
  if signed then - 2 ^ (8 * size - 1) <= x < 2 ^ (8 * size - 1) else 0 <= x < 2 ^ (8 * size).

(** the member values are values of the member types *)
Fixpoint typed (l : layout) (d : data) : Prop :=
  match l, d with
  | LPod size signed, DPod x => 0 < size /\ in_type size signed x
  | LVec size signed, DVec xs => 0 < size /\ Forall (in_type size signed) xs
  | LObj ms, DObj ds => typed_members ms ds
  | _, _ => False
  end
with typed_members (ms : members) (ds : datas) : Prop :=
  match ms, ds with
  | MNil, DNil => True
  | MCons _ l ms, DCons d ds => typed l d /\ typed_members ms ds
  | _, _ => False
  end.

(** the bytes the members take: vectors with a 64-bit length *)
Fixpoint frozen_size (l : layout) (d : data) : Z :=
  match l, d with
  | LPod size _, DPod _ => size
  | LVec size _, DVec xs => 8 + size * zlen xs
  | LObj ms, DObj ds => frozen_sizes ms ds
  | _, _ => 0
  end
with frozen_sizes (ms : members) (ds : datas) : Z :=
  match ms, ds with
  | MCons _ l ms, DCons d ds => frozen_size l d + frozen_sizes ms ds
  | _, _ => 0
  end.

(** the size tree: a node for each vector and each class, none for an integer *)
Fixpoint nodes (l : layout) (d : data) (nm : name) : list size_node :=
  match l, d with
  | LVec _ _, DVec _ => [Node nm (frozen_size l d) []]
  | LObj ms, DObj ds => [Node nm (frozen_size l d) (member_nodes ms ds)]
  | _, _ => []
  end
with member_nodes (ms : members) (ds : datas) : list size_node :=
  match ms, ds with
  | MCons nm l ms, DCons d ds => nodes l d nm ++ member_nodes ms ds
  | _, _ => []
  end.

(** every object read by map is aligned, for members frozen at address [pos] *)
Fixpoint aligned (l : layout) (d : data) (pos : Z) : bool :=
  match l, d with
  | LPod size _, DPod _ => pos mod size =? 0
  | LVec size _, DVec xs => (pos mod 8 =? 0) && ((zlen xs =? 0) || ((pos + 8) mod size =? 0))
  | LObj ms, DObj ds => aligned_members ms ds pos
  | _, _ => true
  end
with aligned_members (ms : members) (ds : datas) (pos : Z) : bool :=
  match ms, ds with
  | MCons _ l ms, DCons d ds => aligned l d pos && aligned_members ms ds (pos + frozen_size l d)
  | _, _ => true
  end.

(** freezing [x] and mapping the bytes gives the members of [x] and the number of bytes *)
Definition roundtrips {A} (M : mappable A) (x : A) : Prop :=
  forall flags addr pre post, 0 <= flags < 2 ^ 64 ->
  exists bytes written, freeze (layout_of M) (data_of M x) flags = (bytes, written) /\ written = zlen bytes /\
  map_at false addr (pre ++ bytes ++ post) (layout_of M) (zlen pre) = Ok (data_of M x, written).
