(** Several objects frozen to one stream and mapped from there one after the other. *)
From Verif Require Import Base M_Mapper.

(** One call of freeze with the stream for each object, with its flags (mapper.hpp:234-240): what the stream has got and the sum
    of the numbers returned. The stream is modelled as in M_Mapper: everything written arrives. *)
Fixpoint freeze_all (os : list (layout * data * Z)) : list Z * Z :=
  match os with
  | [] => ([], 0)
  | (l, d, flags) :: os =>
      let (bytes, written) := freeze l d flags in
      let (rest, sum) := freeze_all os in
      (bytes ++ rest, written + sum)
  end.

(** One call of map for each object, at the address where the one before it ended (mapper.hpp:249-255): the objects and the
    sum of the numbers returned *)
Fixpoint map_all (strict : bool) (addr : Z) (mem : list Z) (ls : list layout) (base : Z) : res (list data * Z) :=
  match ls with
  | [] => Ok ([], 0)
  | l :: ls =>
      do (d, n) <- map_at strict addr mem l base;
      do (ds, sum) <- map_all strict addr mem ls (base + n);
      Ok (d :: ds, n + sum)
  end.
