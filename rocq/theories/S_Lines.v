(** What the line readers of util.hpp make of a last line without newline. *)
From Verif Require Import Base S_Util.

(** the characters of a nonempty [l] from the last multiple of 65535 below its length *)
Definition last_chunk (l : list Z) : list Z := skipn (Z.to_nat (65535 * ((zlen l - 1) / 65535))) l.

(** a last line without newline, as it is read *)
Definition tail_result (trim : bool) (p line : list Z) : Prop :=
  if trim then trimmed (p ++ last_chunk p) line else line = p ++ last_chunk p.
