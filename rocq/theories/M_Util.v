(** Model of vbyte.hpp, nibble_vector.hpp and the functions of util.hpp.
    Bytes and characters are integers 0..255. *)
From Verif Require Import Base M_Broadword.

(** util.hpp:265-271 at size_t *)
Definition ceil_div64 (dividend divisor : Z) : Z := sub64 (u64 (dividend + divisor)) 1 / divisor.

(** ** vbyte.hpp *)

(** vbyte.hpp:7-12 *)
Definition vbyte_size (val : Z) : res Z :=
  do r <- msb_opt val;
  let bits := match r with Some b => b | None => 0 end in
  Ok (ceil_div64 (bits + 1) 7).

(** vbyte.hpp:18-22; the loop variable [b] counts down from [n - 1], its wrap-around below 0 ends
    the loop *)
Fixpoint append_vbyte_loop (n : nat) (v : list Z) (val : Z) : res (list Z) :=
  match n with
  | O => Ok v
  | S b =>
      do s <- shr val (Z.of_nat b * 7);
      let chunk := Z.lor (u8 (Z.land s 127)) (match b with O => 0 | S _ => 128 end) in
      append_vbyte_loop b (v ++ [chunk]) val
  end.

(** vbyte.hpp:14-24: the vector and the returned number of chunks *)
Definition append_vbyte (v : list Z) (val : Z) : res (list Z * Z) :=
  do chunks <- vbyte_size val;
  do v <- append_vbyte_loop (Z.to_nat chunks) v val;
  Ok (v, chunks).

(** vbyte.hpp:32-36; each iteration reads one byte of [v] *)
Fixpoint decode_vbyte_loop (fuel : nat) (v : list Z) (pos val : Z) : res (Z * Z) :=
  match fuel with
  | O => Ub OutOfFuel
  | S fuel =>
      do chunk <- rd v pos;
      do sh <- shl val 7;
      let val := Z.lor sh (Z.land chunk 127) in
      if negb (Z.land chunk 128 =? 0) then decode_vbyte_loop fuel v (pos + 1) val
      else Ok (pos + 1, val)
  end.

(** vbyte.hpp:26-39: the returned length and [val] *)
Definition decode_vbyte (v : list Z) (offset : Z) : res (Z * Z) :=
  do (pos, val) <- decode_vbyte_loop (S (length v)) v offset 0;
  Ok (sub64 pos offset, val).

(** ** nibble_vector.hpp *)

(** nibble_vector.hpp:64-65; size() (54-56) is a field *)
Record nibble_vector := mk_nv { nv_size : Z; nv_nibbles : list Z }.

(** nibble_vector.hpp:13-15 *)
Definition nv_default : nibble_vector := mk_nv 0 [].

(** nibble_vector.hpp:24-38. [*iter << (parity * 4)] is an int; only its conversion to uint8_t is kept *)
Fixpoint nv_loop (from : list Z) (nibbles : list Z) (parity : bool) (cur_byte size : Z) : res nibble_vector :=
  match from with
  | [] => Ok (mk_nv size (if parity then nibbles ++ [cur_byte] else nibbles))
  | x :: from =>
      assert! (x <? 16);
      let cur_byte := u8 (Z.lor cur_byte (Z.shiftl x (Z.b2z parity * 4))) in
      let parity := negb parity in
      if negb parity then nv_loop from (nibbles ++ [cur_byte]) parity 0 (size + 1)
      else nv_loop from nibbles parity cur_byte (size + 1)
  end.

(** nibble_vector.hpp:17-40 *)
Definition nv_build (from : list Z) : res nibble_vector := nv_loop from [] false 0 0.

(** nibble_vector.hpp:58-61 *)
Definition nv_get (n : nibble_vector) (pos : Z) : res Z :=
  assert! (pos <? nv_size n);
  do b <- rd (nv_nibbles n) (pos / 2);
  Ok (Z.land (Z.shiftr b (pos mod 2 * 4)) 15).

(** ** util.hpp: int2nat and nat2int *)

(** an int64_t expression: undefined when not representable (util.hpp:250, 259) *)
Definition int64 (x : Z) : res Z :=
  if (- 2 ^ 63 <=? x) && (x <? 2 ^ 63) then Ok x else Ub SignedOverflow.

(** util.hpp:247-254 *)
Definition int2nat (x : Z) : res Z :=
  if x <? 0 then
    do a <- int64 (-2 * x);
    do b <- int64 (a - 1);
    Ok (u64 b)
  else
    do a <- int64 (2 * x);
    Ok (u64 a).

(** util.hpp:256-263 *)
Definition nat2int (n : Z) : res Z :=
  if negb (n mod 2 =? 0) then int64 (- i64 (u64 (n + 1) / 2))
  else Ok (i64 (n / 2)).

(** ** util.hpp: lines *)

(** newline (util.hpp:19, 183) *)
Definition LF : Z := 10.
(** util.hpp:18, 189 *)
Definition CR : Z := 13.

(** util.hpp:183-185: the number of characters before the next newline or the end *)
Fixpoint line_len (l : list Z) : nat :=
  match l with
  | [] => O
  | c :: l => if c =? LF then O else S (line_len l)
  end.

(** util.hpp:205-208: m_cur_pos is [None] when null, else [Some] the offset from m_buffer; the
    buffer is the extra argument. The pointer m_end + 1 formed at line 187 after a last line without
    newline is not undefined here; M_LineIter makes it so. *)
Record bl_iter := mk_bl { bl_pos : option Z; bl_value : list Z }.

(** util.hpp:176-193 *)
Definition bl_increment (buf : list Z) (it : bl_iter) : res bl_iter :=
  match bl_pos it with
  | None => Ub AssertFailed
  | Some pos =>
      if zlen buf <=? pos then Ok (mk_bl None (bl_value it))
      else
        let rest := skipn (Z.to_nat pos) buf in
        let n := line_len rest in
        let piece := firstn n rest in
        do cr <- (match n with
                  | O => Ok false
                  | S n => do c <- rd piece (Z.of_nat n); Ok (c =? CR)
                  end);
        Ok (mk_bl (Some (pos + Z.of_nat n + 1)) (if (cr : bool) then firstn (n - 1) piece else piece))
  end.

(** util.hpp:165-171 *)
Definition bl_new (buf : list Z) : res bl_iter := bl_increment buf (mk_bl (Some 0) []).

(** util.hpp:195-197 [equal] against the end iterator *)
Definition bl_at_end (it : bl_iter) : bool := match bl_pos it with None => true | Some _ => false end.

(** [for (it = begin; it != end; ++it) visit( *it )] over util.hpp:220-228 *)
Fixpoint bl_visit (fuel : nat) (buf : list Z) (it : bl_iter) : res (list (list Z)) :=
  if bl_at_end it then Ok []
  else
    match fuel with
    | O => Ub OutOfFuel
    | S fuel =>
        do next <- bl_increment buf it;
        do rest <- bl_visit fuel buf next;
        Ok (bl_value it :: rest)
    end.
(** all lines of util.hpp:220-228 *)
Definition bl_lines (buf : list Z) : res (list (list Z)) :=
  do it <- bl_new buf;
  bl_visit (S (S (length buf))) buf it.

(** util.hpp:15-23 on the reversed string *)
Fixpoint trim_rev (s : list Z) : list Z :=
  match s with
  | [] => []
  | c :: s' => if (c =? CR) || (c =? LF) then trim_rev s' else s
  end.
(** util.hpp:15-23 *)
Definition trim_newline_chars (s : list Z) : list Z := rev (trim_rev (rev s)).

(** util.hpp:29 *)
Definition max_buffer : Z := 65536.

(** The C function fgets: the at most [n] characters it reads from [input] (through the first
    newline), and what is left of the file (util.hpp:33) *)
Fixpoint fgets_chars (n : Z) (input : list Z) : list Z * list Z :=
  match input with
  | [] => ([], [])
  | c :: input' =>
      if n <=? 0 then ([], input)
      else if c =? LF then ([c], input')
      else let (a, b) := fgets_chars (n - 1) input' in (c :: a, b)
  end.

(** [fgets(buffer, max_buffer, input)]: [None] at the end of the file (util.hpp:33) *)
Definition fgets (input : list Z) : option (list Z * list Z) :=
  match input with
  | [] => None
  | _ => Some (fgets_chars (max_buffer - 1) input)
  end.

(** a char array read as a C string (util.hpp:40) *)
Fixpoint cstr (l : list Z) : list Z :=
  match l with
  | [] => []
  | c :: l => if c =? 0 then [] else c :: cstr l
  end.

(** the last character, [rbegin] of an empty string being undefined (util.hpp:41) *)
Definition last_char (l : list Z) : res Z := rd l (zlen l - 1).

(** util.hpp:32-44; [buffer] is [None] while uninitialised. The result is [None] for
    [return false]. *)
Fixpoint getline_loop (fuel : nat) (line : list Z) (buffer : option (list Z)) (input : list Z)
  : res (option (list Z) * list Z) :=
  match fuel with
  | O => Ub OutOfFuel
  | S fuel =>
      let '(got, buffer, input) :=
        match fgets input with
        | Some (chars, input) => (true, Some chars, input)
        | None => (false, buffer, input)
        end in
      if negb got && (zlen line =? 0) then Ok (None, input)
      else
        match buffer with
        | None => Ub OutOfBounds
        | Some chars =>
            let line := line ++ cstr chars in
            do c <- last_char line;
            if negb got || (c =? LF) then Ok (Some line, input)
            else getline_loop fuel line buffer input
        end
  end.

(** util.hpp:26-49 on the rest of a file: the line, or [None] when it returns false, and the rest *)
Definition fast_getline (input : list Z) (trim : bool) : res (option (list Z) * list Z) :=
  do (r, input) <- getline_loop (S (S (length input))) [] None input;
  Ok (option_map (if trim then trim_newline_chars else fun s => s) r, input).

(** util.hpp:86-88: m_line, and the rest of the file or [None] when m_file is null *)
Record line_iter := mk_li { li_line : list Z; li_file : option (list Z); li_trim : bool }.

(** util.hpp:62-65 *)
Definition li_new (file : list Z) (trim : bool) : line_iter := mk_li [] (Some file) trim.

(** util.hpp:70-75; fast_getline clears the line before returning false (line 28) *)
Definition li_increment (it : line_iter) : res line_iter :=
  match li_file it with
  | None => Ub AssertFailed
  | Some file =>
      do (r, file) <- fast_getline file (li_trim it);
      match r with
      | Some line => Ok (mk_li line (Some file) (li_trim it))
      | None => Ok (mk_li [] None (li_trim it))
      end
  end.

(** util.hpp:77-84: iterating from the first to the second iterator of lines() (93-95) *)
Fixpoint li_visit (fuel : nat) (it : line_iter) : res (list (list Z)) :=
  match li_file it with
  | None => Ok []
  | Some _ =>
      match fuel with
      | O => Ub OutOfFuel
      | S fuel =>
          do next <- li_increment it;
          do rest <- li_visit fuel next;
          Ok (li_line it :: rest)
      end
  end.
(** all lines of lines(), util.hpp:93-95 *)
Definition lines_visited (file : list Z) (trim : bool) : res (list (list Z)) :=
  li_visit (S (S (length file))) (li_new file trim).
