(** The lines of a dump. *)
From Coq Require Import Strings.String Strings.Ascii.
From Verif Require Import Base M_Mapper.
Local Open Scope string_scope.
Local Open Scope Z_scope.

(** depth, name and size of the nodes, parents first *)
Fixpoint preorder (depth : nat) (t : size_node) : list (nat * name * Z) :=
  match t with Node nm size cs => (depth, nm, size) :: flat_map (preorder (S depth)) cs end.

(** [s] is the decimal numeral of [x], without leading zeros *)
Fixpoint value (acc : Z) (s : string) : option Z :=
  match s with
  | EmptyString => Some acc
  | String c s => let d := Z.of_nat (nat_of_ascii c) - 48 in if (0 <=? d) && (d <? 10) then value (10 * acc + d) s else None
  end.
Definition numeral (s : string) (x : Z) : Prop :=
  value 0 s = Some x /\ s <> "" /\ (String.get 0 s = Some "0"%char -> s = "0").

Fixpoint blank (n : nat) : string := match n with O => "" | S n => " " ++ blank n end.

(** one line for one node *)
Definition line_for (n : nat * name * Z) (line : string) : Prop :=
  let '(depth, nm, size) := n in
  exists num, numeral num size /\ line = blank (4 * depth) ++ nm ++ ": " ++ num ++ String "010" "".

Fixpoint sizes_in (t : size_node) : Prop :=
  match t with Node _ size cs => 0 <= size < 2 ^ 64 /\ fold_right (fun c P => sizes_in c /\ P) True cs end.
