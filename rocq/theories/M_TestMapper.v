(** Model of test_mapper.cpp. A mappable_vector is its elements. The file is a list of bytes, and the
    memory it is mapped to starts at address [addr]. As in M_Tests, a failed check is [Ok false]. The arrays are parameters; in the code they are
    {1, 2, 3, 4} and {1, 2}, and the number is 42. *)
From Verif Require Import Base M_Mapper M_Tests.
Import String.StringSyntax.
Local Open Scope string_scope.
Local Open Scope Z_scope.

(** std::equal (test_mapper.cpp:27): the elements of the first range against those that start at the second *)
Fixpoint std_equal (xs ys : list Z) : res bool :=
  match xs, ys with
  | [], _ => Ok true
  | x :: xs, y :: ys => require! (x =? y); std_equal xs ys
  | _, [] => Ub OutOfBounds
  end.

(** test_mapper.cpp:8-31. The check at 11 of the empty vector is left out: the vector is the array from the start. *)
Definition test_basic_map (strict : bool) (addr : Z) (nums : list Z) : res bool :=
  let vec := nums in
  require! (4 =? zlen vec);
  do x <- rd vec 0;
  require! (1 =? x);
  do y <- rd vec 3;
  require! (4 =? y);
  let '(file, _) := freeze (layout_of (vec_map 4 true)) (DVec vec) 0 in
  do (d, _) <- map_at strict addr file (layout_of (vec_map 4 true)) 0;
  match d with
  | DVec mapped_vec =>
      require! (zlen vec =? zlen mapped_vec);
      std_equal vec mapped_vec
  | _ => Ok false
  end.

(** test_mapper.cpp:33-55: m_a and m_b *)
Definition complex_map : mappable (Z * list Z) := mk_map
  (LObj (MCons "m_a" uint64 (MCons "m_b" (LVec 4 false) MNil)))
  (fun s => DObj (DCons (DPod (fst s)) (DCons (DVec (snd s)) DNil))).

(** test_mapper.cpp:57-76; the default-constructed object of 65-66 is (0, []) *)
Definition test_complex_struct (strict : bool) (addr : Z) (s : Z * list Z) : res bool :=
  let '(file, _) := freeze (layout_of complex_map) (data_of complex_map s) 0 in
  require! (24 =? size_of (layout_of complex_map) (data_of complex_map s));
  do (d, _) <- map_at strict addr file (layout_of complex_map) 0;
  match d with
  | DObj (DCons (DPod m_a) (DCons (DVec m_b) DNil)) =>
      require! (fst s =? m_a);
      require! (zlen (snd s) =? zlen m_b);
      Ok true
  | _ => Ok false
  end.
