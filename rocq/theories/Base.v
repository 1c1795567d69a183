(** Machine words, outcomes and checked memory access shared by the model.

    Nothing here models a particular function of the library; the definitions
    give meaning to the C++ constructs the library uses. *)

From Coq Require Export ZArith List Bool Lia.
Export ListNotations.
Open Scope Z_scope.

(** ** Outcomes *)

(** Why an execution has no defined result. Met e.g. at mappable_vector.hpp:102-103 (bounds), bit_vector.hpp:50 (shift, pointer), bp_vector.cpp:178 (shift by 64), mapper.hpp:121 (alignment), bit_vector.hpp:64 (assert), perftest_cartesian_tree.cpp:18 (division). *)
Inductive reason : Type :=
| OutOfBounds      (** array read or write outside the array *)
| BadShift         (** shift amount negative or >= the width of the type *)
| Dangling         (** write through a pointer to released or foreign memory *)
| SignedOverflow   (** signed integer overflow *)
| Misaligned       (** object read through a pointer that is not aligned for its type *)
| AssertFailed     (** an [assert] of the source fails *)
| OutOfFuel        (** the model's loop bound was exhausted (the loop may not end) *)
| DivByZero.       (** integer division or remainder by zero *)

(** The outcome of any call, e.g. of bit_vector.hpp:243-248: a value, or no defined result. *)
Inductive res (A : Type) : Type :=
| Ok (a : A)
| Ub (r : reason).
Arguments Ok {A} a.
Arguments Ub {A} r.

(** One statement after the other, e.g. bit_vector.hpp:48-50. *)
Definition bind {A B} (m : res A) (f : A -> res B) : res B :=
  match m with Ok a => f a | Ub r => Ub r end.

(** Notation of [bind], e.g. for bit_vector.hpp:48-50. *)
Notation "'do' x <- m ; k" := (bind m (fun x => k))
  (at level 200, x pattern, m at level 100, k at level 200, right associativity).

(** [assert c] of the source. E.g. bit_vector.hpp:64. *)
Definition assert_ {A} (c : bool) (k : res A) : res A :=
  if c then k else Ub AssertFailed.
(** Notation of [assert_], e.g. for bit_vector.hpp:64. *)
Notation "'assert!' c ; k" := (assert_ c k)
  (at level 200, c at level 100, k at level 200, right associativity).

(** ** Fixed-width integers *)

(** Conversion to uint64_t or size_t, e.g. util.hpp:250. *)
Definition u64 (x : Z) : Z := x mod 2 ^ 64.
(** Conversion to uint16_t, e.g. darray.hpp:119. *)
Definition u16 (x : Z) : Z := x mod 2 ^ 16.
(** Conversion to uint8_t, e.g. bp_vector.cpp:31. *)
Definition u8 (x : Z) : Z := x mod 2 ^ 8.
(** Two's complement conversion to int64_t, e.g. darray.hpp:117. *)
Definition i64 (x : Z) : Z := (x + 2 ^ 63) mod 2 ^ 64 - 2 ^ 63.
(** Conversion to int32_t, e.g. cartesian_tree.hpp:116. *)
Definition i32 (x : Z) : Z := (x + 2 ^ 31) mod 2 ^ 32 - 2 ^ 31.
(** Conversion to int16_t, the elements of bp_vector.hpp:98. *)
Definition i16 (x : Z) : Z := (x + 2 ^ 15) mod 2 ^ 16 - 2 ^ 15.
(** Conversion to a signed char, bp_vector.cpp:40. *)
Definition i8 (x : Z) : Z := (x + 2 ^ 7) mod 2 ^ 8 - 2 ^ 7.

(** The values of uint64_t, e.g. of the parameter of bit_vector.hpp:40. *)
Definition is_u64 (x : Z) : Prop := 0 <= x < 2 ^ 64.

(** [~x] on uint64_t e.g. bit_vector.hpp:58 *)
Definition not64 (x : Z) : Z := u64 (Z.lnot x).

(** [x << s] and [x >> s] on uint64_t, undefined when [s >= 64]. E.g. bit_vector.hpp:50. *)
Definition shl (x s : Z) : res Z :=
  if (0 <=? s) && (s <? 64) then Ok (u64 (Z.shiftl x s)) else Ub BadShift.
(** E.g. bit_vector.hpp:35. *)
Definition shr (x s : Z) : res Z :=
  if (0 <=? s) && (s <? 64) then Ok (Z.shiftr x s) else Ub BadShift.

(** What an oversized shift does. [strict_shift] makes it undefined behaviour;
    [loose_shift f] lets it produce an arbitrary value [f x s]. For bit_vector.hpp:258 and bp_vector.cpp:178, 239. *)
Definition shift_policy := Z -> Z -> res Z.
(** See [shift_policy]; bp_vector.cpp:178 read by the standard. *)
Definition strict_shift : shift_policy := fun _ _ => Ub BadShift.
(** See [shift_policy]; bp_vector.cpp:178 on an actual machine. *)
Definition loose_shift (f : Z -> Z -> Z) : shift_policy := fun x s => Ok (f x s).
(** [x << s] under a policy, e.g. bp_vector.cpp:178. *)
Definition shl_p (sp : shift_policy) (x s : Z) : res Z :=
  if (0 <=? s) && (s <? 64) then Ok (u64 (Z.shiftl x s)) else sp x s.

(** ** Arrays *)

(** size() of a vector, e.g. mappable_vector.hpp:89-91. *)
Definition zlen {A} (l : list A) : Z := Z.of_nat (length l).

(** Checked read [v[i]]. mappable_vector.hpp:101-104; operator[] of std::vector, e.g. bit_vector.hpp:58. *)
Definition rd {A} (l : list A) (i : Z) : res A :=
  if (0 <=? i) && (i <? zlen l) then
    match nth_error l (Z.to_nat i) with Some x => Ok x | None => Ub OutOfBounds end
  else Ub OutOfBounds.

(** A list with one element replaced, for [wr] (bit_vector.hpp:58). *)
Fixpoint upd {A} (l : list A) (n : nat) (x : A) : list A :=
  match l, n with
  | [], _ => []
  | _ :: t, O => x :: t
  | h :: t, S n => h :: upd t n x
  end.

(** Checked write [v[i] = x]. E.g. bit_vector.hpp:58. *)
Definition wr {A} (l : list A) (i : Z) (x : A) : res (list A) :=
  if (0 <=? i) && (i <? zlen l) then Ok (upd l (Z.to_nat i) x) else Ub OutOfBounds.

(** [a - b] on uint64_t / size_t: exact without borrow, wrapping with one. E.g. elias_fano_list.hpp:49. *)
Definition sub64 (a b : Z) : Z := if b <=? a then a - b else u64 (a - b).

(** [a % b] on unsigned integers, e.g. perftest_cartesian_tree.cpp:18 *)
Definition umod (a b : Z) : res Z := if b =? 0 then Ub DivByZero else Ok (a mod b).
