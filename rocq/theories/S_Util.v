(** Specification side for vbyte.hpp, nibble_vector.hpp and util.hpp. *)
From Verif Require Import Base.

(** The pieces between newline characters; nothing after a final newline *)
Fixpoint split_lines (l : list Z) : list (list Z) :=
  match l with
  | [] => []
  | c :: l =>
      if c =? 10 then [] :: split_lines l
      else match split_lines l with
           | [] => [[c]]
           | p :: ps => (c :: p) :: ps
           end
  end.

(** [q] is [p] without one trailing carriage return *)
Definition without_cr (p q : list Z) : Prop :=
  p = q ++ [13] \/ (p = q /\ forall r, p <> r ++ [13]).

(** The characters up to and including the next newline, and those after it *)
Fixpoint next_line (l : list Z) : list Z :=
  match l with
  | [] => []
  | c :: l => if c =? 10 then [c] else c :: next_line l
  end.
Definition after_line (l : list Z) : list Z := skipn (length (next_line l)) l.

Definition newline_char (c : Z) : Prop := c = 10 \/ c = 13.

(** [t] is [s] without its trailing newline characters *)
Definition trimmed (s t : list Z) : Prop :=
  exists tail, s = t ++ tail /\ Forall newline_char tail /\
    forall t' c, t = t' ++ [c] -> ~ newline_char c.

(** A text file: no NUL character, the last line ends in a newline *)
Definition terminated (l : list Z) : Prop := l = [] \/ exists q, l = q ++ [10].
Definition no_nul (l : list Z) : Prop := ~ In 0 l.

(** What a line of the file is read as: itself with its newline, or without the trailing
    newline characters *)
Definition line_result (trim : bool) (p line : list Z) : Prop :=
  if trim then trimmed (p ++ [10]) line else line = p ++ [10].

(** ceil(b / 7), b the number of significant bits (at least 1) *)
Definition vbytes_spec (val : Z) : Z := if val =? 0 then 1 else (Z.log2 val + 1 + 6) / 7.
