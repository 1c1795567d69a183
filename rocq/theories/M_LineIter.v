(** Model of the line iterators of util.hpp as iterators: the pointers they form, their copies and
    their comparison. M_Util models the lines they read. *)
From Verif Require Import Base M_Util.

(** ** buffer_line_iterator *)

(** util.hpp:176-193, where the increment of m_cur_pos at 187 is defined up to the end of the buffer *)
Definition bl_step (buf : list Z) (it : bl_iter) : res bl_iter :=
  do next <- bl_increment buf it;
  match bl_pos next with
  | Some pos => if pos <=? zlen buf then Ok next else Ub OutOfBounds
  | None => Ok next
  end.

(** [for (it = begin; it != end; ++it) visit( *it )], util.hpp:165-171 and 220-228, with these increments *)
Fixpoint bl_walk (fuel : nat) (buf : list Z) (it : bl_iter) : res (list (list Z)) :=
  if bl_at_end it then Ok []
  else
    match fuel with
    | O => Ub OutOfFuel
    | S fuel =>
        do next <- bl_step buf it;
        do rest <- bl_walk fuel buf next;
        Ok (bl_value it :: rest)
    end.
(** all lines of util.hpp:220-228, with these increments *)
Definition bl_lines_strict (buf : list Z) : res (list (list Z)) :=
  do it <- bl_step buf (mk_bl (Some 0) []);
  bl_walk (S (S (length buf))) buf it.

(** begin() of util.hpp:220-223 after [n] increments; the pointers of M_Util *)
Fixpoint bl_nth (buf : list Z) (n : nat) : res bl_iter :=
  match n with
  | O => bl_new buf
  | S n => do it <- bl_nth buf n; bl_increment buf it
  end.

(** util.hpp:195-197 *)
Definition bl_equal (a b : bl_iter) : bool :=
  match bl_pos a, bl_pos b with
  | None, None => true
  | Some p, Some q => p =? q
  | _, _ => false
  end.

(** ** line_iterator *)

(** util.hpp:86-88: m_line, whether m_file is not null, and m_trim_newline, which is [None] while it
    has no value. All iterators are over one file; what is left of it is passed along. *)
Record file_iter := mk_fi { fi_line : list Z; fi_open : bool; fi_trim : option bool }.

(** util.hpp:58-60 *)
Definition fi_default : file_iter := mk_fi [] false None.
(** util.hpp:62-65 *)
Definition fi_new (trim : bool) : file_iter := mk_fi [] true (Some trim).

(** the implicit copy constructor (util.hpp:51-89) reads every member; reading m_trim_newline before it has a
    value is undefined *)
Definition fi_copy (it : file_iter) : res file_iter :=
  match fi_trim it with
  | None => Ub Dangling
  | Some _ => Ok it
  end.

(** util.hpp:70-75 *)
Definition fi_increment (file : list Z) (it : file_iter) : res (list Z * file_iter) :=
  if fi_open it then
    match fi_trim it with
    | None => Ub Dangling
    | Some trim =>
        do (r, file) <- fast_getline file trim;
        match r with
        | Some line => Ok (file, mk_fi line true (Some trim))
        | None => Ok (file, mk_fi [] false (Some trim))
        end
    end
  else Ub AssertFailed.

(** util.hpp:77-80 *)
Definition fi_equal (a b : file_iter) : bool := eqb (fi_open a) (fi_open b).

(** util.hpp:93-95: the two iterators are copied into the pair *)
Definition file_lines (trim : bool) : res (file_iter * file_iter) :=
  do first <- fi_copy (fi_new trim);
  do last <- fi_copy fi_default;
  Ok (first, last).

(** [b = a; ++a; ++b] (util.hpp:51-89) *)
Definition advance_both (file : list Z) (a : file_iter) : res (file_iter * file_iter) :=
  do b <- fi_copy a;
  do (file, a) <- fi_increment file a;
  do (_, b) <- fi_increment file b;
  Ok (a, b).

(** [for (it = first; it != last; ++it) visit( *it )] over the iterators of lines(), not copied (util.hpp:93-95) *)
Fixpoint fi_visit (fuel : nat) (file : list Z) (it : file_iter) : res (list (list Z)) :=
  if fi_equal it fi_default then Ok []
  else
    match fuel with
    | O => Ub OutOfFuel
    | S fuel =>
        do (file, next) <- fi_increment file it;
        do rest <- fi_visit fuel file next;
        Ok (fi_line it :: rest)
    end.
(** all lines of util.hpp:93-95 *)
Definition fi_lines (file : list Z) (trim : bool) : res (list (list Z)) :=
  fi_visit (S (S (length file))) file (fi_new trim).
