(** The line iterators of util.hpp, the size tree of mapper.hpp, element access of mappable_vector.hpp and the callers of
    topk_vector's enumerator as compiled with NDEBUG. M_Nd and M_NdBp have the other functions. *)
From Verif Require Import Base M_Util M_LineIter M_AutoFile M_Mapper M_MVec M_Topk M_NdBp.

(** ** buffer_line_iterator *)

(** util.hpp:176-193. Without the assertion of line 177 a null m_cur_pos is compared with m_end and then dereferenced. *)
Definition nd_bl_increment (buf : list Z) (it : bl_iter) : res bl_iter :=
  match bl_pos it with
  | None => Ub Dangling
  | Some pos =>
      if zlen buf <=? pos then Ok (mk_bl None (bl_value it))
      else
        let rest := skipn (Z.to_nat pos) buf in
        let n := line_len rest in
        let piece := firstn n rest in
        do cr <- (match n with
                  | O => Ok false
                  | S n => do c <- rd piece (Z.of_nat n); Ok (c =? CR)
                  end);
        Ok (mk_bl (Some (pos + Z.of_nat n + 1)) (if (cr : bool) then firstn (n - 1) piece else piece))
  end.

(** util.hpp:165-171 *)
Definition nd_bl_new (buf : list Z) : res bl_iter := nd_bl_increment buf (mk_bl (Some 0) []).

(** util.hpp:199-203 without the assertion of line 201: m_cur_value whatever m_cur_pos is *)
Definition nd_bl_deref (it : bl_iter) : res (list Z) := Ok (bl_value it).

(** [for (it = begin; it != end; ++it) visit( *it )] over util.hpp:220-228 *)
Fixpoint nd_bl_visit (fuel : nat) (buf : list Z) (it : bl_iter) : res (list (list Z)) :=
  if bl_at_end it then Ok []
  else
    match fuel with
    | O => Ub OutOfFuel
    | S fuel =>
        do next <- nd_bl_increment buf it;
        do rest <- nd_bl_visit fuel buf next;
        Ok (bl_value it :: rest)
    end.
(** all lines of util.hpp:220-228 *)
Definition nd_bl_lines (buf : list Z) : res (list (list Z)) :=
  do it <- nd_bl_new buf;
  nd_bl_visit (S (S (length buf))) buf it.

(** util.hpp:176-193, where the increment of m_cur_pos at 187 is defined up to the end of the buffer *)
Definition nd_bl_step (buf : list Z) (it : bl_iter) : res bl_iter :=
  do next <- nd_bl_increment buf it;
  match bl_pos next with
  | Some pos => if pos <=? zlen buf then Ok next else Ub OutOfBounds
  | None => Ok next
  end.

(** [for (it = begin; it != end; ++it) visit( *it )], util.hpp:165-171 and 220-228, with these increments *)
Fixpoint nd_bl_walk (fuel : nat) (buf : list Z) (it : bl_iter) : res (list (list Z)) :=
  if bl_at_end it then Ok []
  else
    match fuel with
    | O => Ub OutOfFuel
    | S fuel =>
        do next <- nd_bl_step buf it;
        do rest <- nd_bl_walk fuel buf next;
        Ok (bl_value it :: rest)
    end.
(** all lines of util.hpp:220-228, with these increments *)
Definition nd_bl_lines_strict (buf : list Z) : res (list (list Z)) :=
  do it <- nd_bl_step buf (mk_bl (Some 0) []);
  nd_bl_walk (S (S (length buf))) buf it.

(** begin() of util.hpp:220-223 after [n] increments; the pointers of M_Util *)
Fixpoint nd_bl_nth (buf : list Z) (n : nat) : res bl_iter :=
  match n with
  | O => nd_bl_new buf
  | S n => do it <- nd_bl_nth buf n; nd_bl_increment buf it
  end.

(** util.hpp:176-193 on an iterator of [m], see M_AutoFile *)
Definition nd_ml_increment (m : mmap_lines) (size : Z) (it : bl_iter) : res bl_iter :=
  match m with
  | Some buf => nd_bl_increment buf it
  | None =>
      match bl_pos it with
      | None => Ub Dangling
      | Some pos => if size <=? pos then Ok (mk_bl None (bl_value it)) else Ub Dangling
      end
  end.

(** ** line_iterator *)

(** util.hpp:70-75. Without the assertion of line 71 fgets (line 30) is called with a null FILE. *)
Definition nd_li_increment (it : line_iter) : res line_iter :=
  match li_file it with
  | None => Ub Dangling
  | Some file =>
      do (r, file) <- fast_getline file (li_trim it);
      match r with
      | Some line => Ok (mk_li line (Some file) (li_trim it))
      | None => Ok (mk_li [] None (li_trim it))
      end
  end.

(** util.hpp:77-84: iterating from the first to the second iterator of lines() (93-95) *)
Fixpoint nd_li_visit (fuel : nat) (it : line_iter) : res (list (list Z)) :=
  match li_file it with
  | None => Ok []
  | Some _ =>
      match fuel with
      | O => Ub OutOfFuel
      | S fuel =>
          do next <- nd_li_increment it;
          do rest <- nd_li_visit fuel next;
          Ok (li_line it :: rest)
      end
  end.
(** all lines of lines(), util.hpp:93-95 *)
Definition nd_lines_visited (file : list Z) (trim : bool) : res (list (list Z)) :=
  nd_li_visit (S (S (length file))) (li_new file trim).

(** util.hpp:70-75 on the iterators of M_LineIter; a null FILE as above *)
Definition nd_fi_increment (file : list Z) (it : file_iter) : res (list Z * file_iter) :=
  if fi_open it then
    match fi_trim it with
    | None => Ub Dangling
    | Some trim =>
        do (r, file) <- fast_getline file trim;
        match r with
        | Some line => Ok (file, mk_fi line true (Some trim))
        | None => Ok (file, mk_fi [] false (Some trim))
        end
    end
  else Ub Dangling.

(** [b = a; ++a; ++b] (util.hpp:51-89) *)
Definition nd_advance_both (file : list Z) (a : file_iter) : res (file_iter * file_iter) :=
  do b <- fi_copy a;
  do (file, a) <- nd_fi_increment file a;
  do (_, b) <- nd_fi_increment file b;
  Ok (a, b).

(** [for (it = first; it != last; ++it) visit( *it )] over the iterators of lines(), not copied (util.hpp:93-95) *)
Fixpoint nd_fi_visit (fuel : nat) (file : list Z) (it : file_iter) : res (list (list Z)) :=
  if fi_equal it fi_default then Ok []
  else
    match fuel with
    | O => Ub OutOfFuel
    | S fuel =>
        do (file, next) <- nd_fi_increment file it;
        do rest <- nd_fi_visit fuel file next;
        Ok (fi_line it :: rest)
    end.
(** all lines of util.hpp:93-95 *)
Definition nd_fi_lines (file : list Z) (trim : bool) : res (list (list Z)) :=
  nd_fi_visit (S (S (length file))) file (fi_new trim).

(** ** size_tree_of, operator[], the enumerator of topk_vector *)

(** mapper.hpp:271-278. Without the assertions of lines 214 and 276 the first child of a node without children
    is read out of bounds. *)
Definition nd_size_tree_of (l : layout) (d : data) (friendly_name : name) : res size_node :=
  rd (snd (sizeof_visit l d friendly_name 0)) 0.

(** mappable_vector.hpp:101-104 without the assertion of line 102 *)
Definition nd_vec_get (h : heap) (v : vec) (i : Z) : res Z :=
  do xs <- deref h (m_data v) i 1;
  match xs with x :: _ => Ok x | [] => Ub OutOfBounds end.

(** a caller of topk_vector.hpp:51-83: next() n times, each time value() or [None] if next() is false *)
Fixpoint nd_te_run {T} (cs : bool) (h : heap_ops (queue_element T)) (tk : topk_vector T) (n : nat) (s : tk_enum T) : res (list (option (T * Z))) :=
  match n with
  | O => Ok []
  | S n =>
      do (hasnext, s) <- nd_te_next cs h tk s;
      do r <- nd_te_run cs h tk n s;
      Ok ((if hasnext then te_cur s else None) :: r)
  end.
