(** Model of the lifetimes in util.hpp: auto_file, which owns a FILE, and mmap_lines, which owns the
    memory its iterators read. M_Util models what is read. *)
From Coq Require Import String.
From Verif Require Import Base M_Util M_LineIter.

(** what the program does to its files, in order; a file is named by the number of the fopen call that
    returned it. The calls at util.hpp:102, 33 and 115. *)
Inductive event := EOpen (f : nat) | EUse (f : nat) | EClose (f : nat).

(** the file system: the number of fopen calls so far, the files that are open, and the events so far. What fopen and fclose (util.hpp:102, 115) change. *)
Record fs := mk_fs { fs_calls : nat; fs_open : list nat; fs_trace : list event }.
(** Before the first fopen (util.hpp:102). *)
Definition fs0 : fs := mk_fs 0 [] [].

(** fopen at util.hpp:102 (C library): [can] decides which calls succeed; [None] is a null pointer. The mode is left out *)
Definition fopen (can : string -> nat -> bool) (w : fs) (name : string) : option nat * fs :=
  let f := fs_calls w in
  if can name f then (Some f, mk_fs (S f) (f :: fs_open w) (fs_trace w ++ [EOpen f]))
  else (None, mk_fs (S f) (fs_open w) (fs_trace w)).
(** fclose at util.hpp:115 (C library), undefined unless the file is open; its result is ignored there *)
Definition fclose (w : fs) (f : nat) : res fs :=
  if in_dec Nat.eq_dec f (fs_open w)
  then Ok (mk_fs (fs_calls w) (remove Nat.eq_dec f (fs_open w)) (fs_trace w ++ [EClose f]))
  else Ub Dangling.
(** any other call on a file, such as fgets at util.hpp:33 *)
Definition fuse (w : fs) (f : nat) : res fs :=
  if in_dec Nat.eq_dec f (fs_open w)
  then Ok (mk_fs (fs_calls w) (fs_open w) (fs_trace w ++ [EUse f]))
  else Ub Dangling.

(** util.hpp:129: m_file, [None] for a null pointer *)
Record auto_file := mk_af { af_file : option nat }.

(** util.hpp:104-106 *)
Definition af_message (name : string) : string := ("Unable to open file '" ++ name ++ "'.")%string.

(** util.hpp:99-110: the object, or the message of the exception *)
Definition af_new (can : string -> nat -> bool) (w : fs) (name : string) : (auto_file + string) * fs :=
  let (file, w) := fopen can w name in
  match file with
  | None => (inr (af_message name), w)
  | Some _ => (inl (mk_af file), w)
  end.
(** util.hpp:112-117 *)
Definition af_delete (w : fs) (a : auto_file) : res fs :=
  match af_file a with
  | Some f => fclose w f
  | None => Ok w
  end.
(** util.hpp:119-122 *)
Definition af_get (a : auto_file) : option nat := af_file a.

(** The callers: a block that declares an auto_file with a name, statements in it, and statements after
    the block; a use of what get() of the [k]-th innermost auto_file returns; a throw. [Keep k] stores what
    get() returns in a variable outside of all blocks, and [UseKept] uses that. The private copy operations
    (util.hpp:125-127) leave no other way to share a file. *)
Inductive prog :=
| Ret
| Throw (msg : string)
| Use (k : nat) (rest : prog)
| Keep (k : nat) (rest : prog)
| UseKept (rest : prog)
| Block (name : string) (body rest : prog).

(** a call with a null FILE is undefined, as is a variable that is not there; e.g. fgets at util.hpp:33. *)
Definition use (w : fs) (f : option nat) : res fs :=
  match f with Some f => fuse w f | None => Ub OutOfBounds end.

(** [Some msg]: ended by an exception. At the end of a block, and while an exception leaves it, the
    destructor runs; it does not if the constructor threw. A caller of util.hpp:99-122. *)
Fixpoint exec (can : string -> nat -> bool) (env : list auto_file) (kept : option nat) (w : fs) (p : prog)
  : res (option string * option nat * fs) :=
  match p with
  | Ret => Ok (None, kept, w)
  | Throw msg => Ok (Some msg, kept, w)
  | Use k rest =>
      match nth_error env k with
      | Some a => do w <- use w (af_get a); exec can env kept w rest
      | None => Ub OutOfBounds
      end
  | Keep k rest =>
      match nth_error env k with
      | Some a => exec can env (af_get a) w rest
      | None => Ub OutOfBounds
      end
  | UseKept rest => do w <- use w kept; exec can env kept w rest
  | Block name body rest =>
      match af_new can w name with
      | (inr msg, w) => Ok (Some msg, kept, w)
      | (inl a, w) =>
          do (o, kept, w) <- exec can (a :: env) kept w body;
          do w <- af_delete w a;
          match o with
          | Some msg => Ok (Some msg, kept, w)
          | None => exec can env kept w rest
          end
      end
  end.

(** ** mmap_lines *)

(** util.hpp:216-231: m_map, the mapped characters; [None] after the destructor of m_map (boost) has unmapped them *)
Definition mmap_lines := option (list Z).

(** util.hpp:199-203 *)
Definition bl_deref (it : bl_iter) : res (list Z) :=
  match bl_pos it with
  | None => Ub AssertFailed
  | Some _ => Ok (bl_value it)
  end.
(** util.hpp:176-193 on an iterator of [m], whose m_end is [size] characters after m_buffer: reading a character of a buffer
    that is no longer mapped is undefined; the pointers themselves are still compared *)
Definition ml_increment (m : mmap_lines) (size : Z) (it : bl_iter) : res bl_iter :=
  match m with
  | Some buf => bl_increment buf it
  | None =>
      match bl_pos it with
      | None => Ub AssertFailed
      | Some pos => if size <=? pos then Ok (mk_bl None (bl_value it)) else Ub Dangling
      end
  end.
