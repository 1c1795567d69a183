(** Model of size_node::dump in mapper.hpp. *)
From Coq Require Import Strings.String Strings.Ascii.
From Verif Require Import Base M_Mapper.
Local Open Scope string_scope.
Local Open Scope Z_scope.

(** operator<< of a size_t: decimal digits (mapper.hpp:43) *)
Definition digit (d : Z) : ascii := ascii_of_nat (48 + Z.to_nat d).
(** the decimal digits of mapper.hpp:43, last first *)
Fixpoint digits (fuel : nat) (x : Z) (acc : string) : string :=
  match fuel with
  | O => acc
  | S fuel =>
      let acc := String (digit (x mod 10)) acc in
      if x / 10 =? 0 then acc else digits fuel (x / 10) acc
  end.
(** mapper.hpp:43 *)
Definition print_size (x : Z) : string := digits 20 x "".

(** std::string(n, ' '); mapper.hpp:41 *)
Fixpoint spaces (n : nat) : string :=
  match n with
  | O => ""
  | S n => String " " (spaces n)
  end.

(** mapper.hpp:40-47: the characters written to the stream; the recursion is the C++ one *)
Fixpoint dump (node : size_node) (depth : nat) : string :=
  match node with
  | Node name size children =>
      spaces (depth * 4) ++ name ++ ": " ++ print_size size ++ String "010" "" ++
      fold_right (fun child rest => dump child (S depth) ++ rest) "" children
  end.
