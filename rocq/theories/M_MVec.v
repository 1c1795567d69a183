(** Model of mappable_vector.hpp with the buffers it owns. *)
From Verif Require Import Base.

(** m_data: null, the start of an allocated buffer, or memory mapped from a file, which stays mapped (mappable_vector.hpp:119, mapper.hpp:132) *)
Inductive ptr : Type :=
| Null
| Heap (b : nat)
| File (xs : list Z).

(** mappable_vector.hpp:119-121. The deleter is the buffer it releases; an array and a heap-allocated
    std::vector are both one buffer. *)
Record vec := mk_vec { m_data : ptr; m_size : Z; m_deleter : option nat }.

(** allocated buffers in order; [None] once released (new and delete at mappable_vector.hpp:45-46, 76-78) *)
Definition heap : Type := list (option (list Z)).

(** list helper of [free] (mappable_vector.hpp:46, 78) *)
Fixpoint update {A} (l : list A) (i : nat) (x : A) : list A :=
  match l, i with
  | [], _ => []
  | _ :: l, O => x :: l
  | y :: l, S i => y :: update l i x
  end.

(** new at mappable_vector.hpp:45 and 76 *)
Definition alloc (h : heap) (xs : list Z) : heap * nat := (h ++ [Some xs], length h).

(** the deleters at mappable_vector.hpp:46 and 78; delete of a released or unknown buffer is undefined *)
Definition free (h : heap) (b : nat) : res heap :=
  match nth_error h b with
  | Some (Some _) => Ok (update h b None)
  | _ => Ub Dangling
  end.

(** the elements from [off] up to [off + n] of a pointer, as read by std::copy at
    mappable_vector.hpp:48-50; none are read when n = 0 *)
Definition deref (h : heap) (p : ptr) (off n : Z) : res (list Z) :=
  if n =? 0 then Ok [] else
  do xs <- match p with
           | Null => Ub OutOfBounds
           | File xs => Ok xs
           | Heap b => match nth_error h b with Some (Some xs) => Ok xs | _ => Ub Dangling end
           end;
  if (0 <=? off) && (0 <=? n) && (off + n <=? zlen xs) then Ok (firstn (Z.to_nat n) (skipn (Z.to_nat off) xs))
  else Ub OutOfBounds.

(** mappable_vector.hpp:33-37 *)
Definition vec_default : vec := mk_vec Null 0 None.

(** mappable_vector.hpp:55-59 *)
Definition vec_destroy (h : heap) (v : vec) : res heap :=
  match m_deleter v with
  | Some b => free h b
  | None => Ok h
  end.

(** mappable_vector.hpp:39-53, for the elements [xs] of the range; allocation does not fail *)
Definition vec_of (h : heap) (xs : list Z) : heap * vec :=
  let '(h, b) := alloc h xs in (h, mk_vec (Heap b) (zlen xs) (Some b)).

(** mappable_vector.hpp:61-66 *)
Definition vec_swap (v other : vec) : vec * vec :=
  (mk_vec (m_data other) (m_size other) (m_deleter other), mk_vec (m_data v) (m_size v) (m_deleter v)).

(** mappable_vector.hpp:68-70: the temporary is destroyed after the swap *)
Definition vec_clear (h : heap) (v : vec) : res (heap * vec) :=
  let '(tmp, v) := vec_swap vec_default v in
  do h <- vec_destroy h tmp;
  Ok (h, v).

(** mappable_vector.hpp:72-81: the heap, this vector and the std::vector afterwards *)
Definition vec_steal (h : heap) (v : vec) (src : list Z) : res (heap * vec * list Z) :=
  do (h, v) <- vec_clear h v;
  let v := mk_vec (m_data v) (zlen src) (m_deleter v) in
  if m_size v =? 0 then Ok (h, v, src)
  else let '(h, b) := alloc h src in Ok (h, mk_vec (Heap b) (m_size v) (Some b), []).

(** mapper.hpp:126-145: clear, then point into the file *)
Definition vec_map_file (h : heap) (v : vec) (xs : list Z) : res (heap * vec) :=
  do (h, v) <- vec_clear h v;
  Ok (h, mk_vec (File xs) (zlen xs) (m_deleter v)).

(** mappable_vector.hpp:101-104 *)
Definition vec_get (h : heap) (v : vec) (i : Z) : res Z :=
  assert! ((0 <=? i) && (i <? m_size v));
  do xs <- deref h (m_data v) i 1;
  match xs with x :: _ => Ok x | [] => Ub OutOfBounds end.

(** ** Programs over named vectors *)

(** the range given to a constructor or to assign: a container that is not a mappable_vector; the
    mappable_vector [j], taken by reference; or a pair of iterators begin() + a, begin() + b of [j] (mappable_vector.hpp:40, 84, 93-99) *)
Inductive range : Type :=
| RList (xs : list Z)
| RVec (j : nat)
| RIter (j : nat) (a b : Z).

(** the program's buffers, living vectors and std::vectors (mappable_vector.hpp:72, 119-121) *)
Record state := mk_st { st_heap : heap; st_vecs : nat -> option vec; st_std : nat -> list Z }.

(** assignment to a variable of the program (callers of mappable_vector.hpp:33-87) *)
Definition set {A} (f : nat -> A) (i : nat) (x : A) : nat -> A := fun j => if Nat.eqb j i then x else f j.

(** use of a vector that does not live is undefined (callers of mappable_vector.hpp:33-87) *)
Definition the {A} (x : option A) : res A :=
  match x with
  | Some x => Ok x
  | None => Ub Dangling
  end.

(** what the callee holds: a container or a vector by reference, or two pointers (mappable_vector.hpp:40, 84) *)
Inductive arg : Type :=
| AList (xs : list Z)
| AVec (j : nat)
| APtrs (p : ptr) (a b : Z).
(** evaluation of the argument expression (mappable_vector.hpp:40, 84, 93-99) *)
Definition pass (vs : nat -> option vec) (r : range) : res arg :=
  match r with
  | RList xs => Ok (AList xs)
  | RVec j => Ok (AVec j)
  | RIter j a b => do v <- the (vs j); Ok (APtrs (m_data v) a b)
  end.
(** boost::begin to boost::end of it, mappable_vector.hpp:44-50 *)
Definition elements (h : heap) (vs : nat -> option vec) (a : arg) : res (list Z) :=
  match a with
  | AList xs => Ok xs
  | AVec j => do v <- the (vs j); deref h (m_data v) 0 (m_size v)
  | APtrs p a b => deref h p a (b - a)
  end.

(** the calls of a program: constructors, destructor, members, mapper::map of a file with elements
    [xs], and setting a std::vector (mappable_vector.hpp:33-87, mapper.hpp:126-145) *)
Inductive vop : Type :=
| VNew (i : nat)
| VFrom (i : nat) (r : range)
| VDestroy (i : nat)
| VSwap (i j : nat)
| VClear (i : nat)
| VSteal (i k : nat)
| VAssign (i : nat) (r : range)
| VMap (i : nat) (xs : list Z)
| SSet (k : nat) (xs : list Z).

(** one call of mappable_vector.hpp:33-87 or mapper.hpp:126-145 *)
Definition step (s : state) (o : vop) : res state :=
  let 'mk_st h vs sv := s in
  match o with
  | VNew i => Ok (mk_st h (set vs i (Some vec_default)) sv)
  | VFrom i r =>
      do a <- pass vs r;
      do xs <- elements h vs a;
      let '(h, v) := vec_of h xs in Ok (mk_st h (set vs i (Some v)) sv)
  | VDestroy i =>
      do v <- the (vs i);
      do h <- vec_destroy h v;
      Ok (mk_st h (set vs i None) sv)
  | VSwap i j =>
      do v <- the (vs i);
      do w <- the (vs j);
      let '(v, w) := vec_swap v w in Ok (mk_st h (set (set vs i (Some v)) j (Some w)) sv)
  | VClear i =>
      do v <- the (vs i);
      do (h, v) <- vec_clear h v;
      Ok (mk_st h (set vs i (Some v)) sv)
  | VSteal i k =>
      do v <- the (vs i);
      do (h, v, src) <- vec_steal h v (sv k);
      Ok (mk_st h (set vs i (Some v)) (set sv k src))
  (* mappable_vector.hpp:83-87 *)
  | VAssign i r =>
      do a <- pass vs r;
      do v <- the (vs i);
      do (h, v) <- vec_clear h v;
      let vs := set vs i (Some v) in
      do xs <- elements h vs a;
      let '(h, tmp) := vec_of h xs in
      let '(tmp, v) := vec_swap tmp v in
      do h <- vec_destroy h tmp;
      Ok (mk_st h (set vs i (Some v)) sv)
  | VMap i xs =>
      do v <- the (vs i);
      do (h, v) <- vec_map_file h v xs;
      Ok (mk_st h (set vs i (Some v)) sv)
  | SSet k xs => Ok (mk_st h vs (set sv k xs))
  end.

(** a program calling mappable_vector.hpp:33-87 and mapper.hpp:126-145 *)
Fixpoint run (s : state) (os : list vop) : res state :=
  match os with
  | [] => Ok s
  | o :: os => do s <- step s o; run s os
  end.

(** before the first call of mappable_vector.hpp:33-87 *)
Definition start : state := mk_st [] (fun _ => None) (fun _ => []).
