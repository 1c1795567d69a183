(** Model of mappable_vector.hpp where exceptions are thrown: an allocation fails, or reading the range
    does. The caller catches every exception and goes on. *)
From Verif Require Import Base M_MVec.

(** what goes wrong in one call: new throws (mappable_vector.hpp:45, 76); the assignment to m_deleter
    throws (46, 78; boost::function allocates when the functor does not fit in it); an iterator of the
    range throws after so many elements (48-50) *)
Record weather := mk_weather { w_new : bool; w_deleter : bool; w_range : option Z }.

(** mappable_vector.hpp:39-53 over the argument [a]; [None] if it throws. The destructor of a vector
    whose constructor throws is not called, and that of m_deleter releases nothing. What was copied
    into a buffer nobody can reach is not modelled. *)
Definition xvec_of (w : weather) (h : heap) (vs : nat -> option vec) (a : arg) : res (heap * option vec) :=
  if w_new w then Ok (h, None)
  else
    do xs <- elements h vs a;
    let '(h, b) := alloc h xs in
    if w_deleter w then Ok (h, None)
    else if match w_range w with Some n => n <? zlen xs | None => false end then Ok (h, None)
    else Ok (h, Some (mk_vec (Heap b) (zlen xs) (Some b))).

(** mappable_vector.hpp:72-81: the heap, this vector and the std::vector afterwards, and whether it throws *)
Definition xvec_steal (w : weather) (h : heap) (v : vec) (src : list Z) : res (heap * vec * list Z * bool) :=
  do (h, v) <- vec_clear h v;
  let v := mk_vec (m_data v) (zlen src) (m_deleter v) in
  if m_size v =? 0 then Ok (h, v, src, false)
  else if w_new w then Ok (h, v, src, true)
  else
    let '(h, b) := alloc h src in
    if w_deleter w then Ok (h, v, [], true)
    else Ok (h, mk_vec (Heap b) (m_size v) (Some b), [], false).

(** one call, and whether it throws. mappable_vector.hpp:55-70 and mapper.hpp:126-145 throw nothing. *)
Definition xstep (s : state) (w : weather) (o : vop) : res (state * bool) :=
  let 'mk_st h vs sv := s in
  match o with
  | VFrom i r =>
      do a <- pass vs r;
      do (h, v) <- xvec_of w h vs a;
      match v with
      | Some v => Ok (mk_st h (set vs i (Some v)) sv, false)
      | None => Ok (mk_st h vs sv, true)
      end
  | VSteal i k =>
      do v <- the (vs i);
      do (h, v, src, t) <- xvec_steal w h v (sv k);
      Ok (mk_st h (set vs i (Some v)) (set sv k src), t)
  (* mappable_vector.hpp:83-87 *)
  | VAssign i r =>
      do a <- pass vs r;
      do v <- the (vs i);
      do (h, v) <- vec_clear h v;
      let vs := set vs i (Some v) in
      do (h, tmp) <- xvec_of w h vs a;
      match tmp with
      | Some tmp =>
          let '(tmp, v) := vec_swap tmp v in
          do h <- vec_destroy h tmp;
          Ok (mk_st h (set vs i (Some v)) sv, false)
      | None => Ok (mk_st h vs sv, true)
      end
  | _ => do s <- step s o; Ok (s, false)
  end.

(** a program: which calls threw (calling mappable_vector.hpp:33-87) *)
Fixpoint xrun (s : state) (os : list (weather * vop)) : res (state * list bool) :=
  match os with
  | [] => Ok (s, [])
  | (w, o) :: os =>
      do (s, t) <- xstep s w o;
      do (s, ts) <- xrun s os;
      Ok (s, t :: ts)
  end.
