(** Several objects in one file. *)
From Verif Require Import Base M_Mapper S_Mapper.

(** objects that can be frozen, with the flags to freeze them with *)
Definition freezable (os : list (layout * data * Z)) : Prop := Forall (fun o => let '(l, d, flags) := o in
  typed l d /\ 8 + frozen_size l d < 2 ^ 64 /\ 0 <= flags < 2 ^ 64) os.

(** all objects are read at aligned addresses, the first one being frozen at address [pos] *)
Fixpoint all_aligned (os : list (layout * data * Z)) (pos : Z) : bool :=
  match os with
  | [] => true
  | (l, d, _) :: os => (pos mod 8 =? 0) && aligned l d (pos + 8) && all_aligned os (pos + 8 + frozen_size l d)
  end.

(** the frozen object ends at a word boundary if it starts at one, exactly if [ok x] *)
Definition whole_words {A} (M : mappable A) (ok : A -> bool) : Prop := forall x,
  (frozen_size (layout_of M) (data_of M x) mod 8 =? 0) = ok x.

(** a bit_vector or an rs_bit_vector *)
Definition words_object (o : layout * data * Z) : Prop :=
  (exists bv flags, o = (layout_of bv_map, data_of bv_map bv, flags)) \/ (exists rs flags, o = (layout_of rs_map, data_of rs_map rs, flags)).
