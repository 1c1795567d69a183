(** Model of bit_vector.hpp. *)
From Verif Require Import Base M_Broadword.

(** util.hpp:265-271 [ceil_div] and bit_vector.hpp:14-17 [words_for]. Sizes are exact
    integers, so the wrap of [n + 63] for n > 2^64 - 64 is not represented; M_Wrap has it. *)
Definition ceil_div (a b : Z) : Z := (a + b - 1) / b.
(** bit_vector.hpp:14-17 *)
Definition words_for (n : Z) : Z := ceil_div n 64.

(** ** bit_vector_builder *)

(** bit_vector.hpp:183-187. [b_bits] is the content of the [std::vector] [m_bits];
    [b_cap] its capacity and [b_gen] the identity of the buffer it currently owns
    (it changes at every reallocation). [b_cur] is [m_cur_word]: a pointer into buffer
    [fst] at word [snd]; [None] is the uninitialised pointer of the constructor. *)
Record builder := mk_builder {
  b_bits : list Z;
  b_size : Z;
  b_cap : Z;
  b_gen : Z;
  b_cur : option (Z * Z)
}.

(** How [std::vector] chooses a new capacity from the old capacity and the needed
    size; the result is raised to the needed size where it is used. The vector is m_bits of bit_vector.hpp:184; the standard leaves the choice open. *)
Definition growth := Z -> Z -> Z.

(** A vector that must hold [n] words: reallocate when [n] exceeds the capacity. The std::vector calls at bit_vector.hpp:41, 47, 90, 94, 104, 127. *)
Definition v_need (gr : growth) (b : builder) (n : Z) : builder :=
  if n <=? b_cap b then b
  else mk_builder (b_bits b) (b_size b) (Z.max n (gr (b_cap b) n)) (b_gen b + 1) (b_cur b).

(** assignment to m_bits (bit_vector.hpp:184) *)
Definition with_bits (b : builder) (ws : list Z) : builder :=
  mk_builder ws (b_size b) (b_cap b) (b_gen b) (b_cur b).
(** assignment to m_size (bit_vector.hpp:185) *)
Definition with_size (b : builder) (n : Z) : builder :=
  mk_builder (b_bits b) n (b_cap b) (b_gen b) (b_cur b).
(** [m_cur_word = &m_bits.back()]; bit_vector.hpp:32, 48, 97, 105, 144 *)
Definition set_cur_back (b : builder) : builder :=
  mk_builder (b_bits b) (b_size b) (b_cap b) (b_gen b) (Some (b_gen b, zlen (b_bits b) - 1)).

(** [m_bits.push_back(w)]; bit_vector.hpp:47, 90, 94 *)
Definition v_push (gr : growth) (b : builder) (w : Z) : builder :=
  let b := v_need gr b (zlen (b_bits b) + 1) in with_bits b (b_bits b ++ [w]).
(** [m_bits.resize(n)] / [insert(end, n - size, 0)] for n >= size *)
Definition v_grow (gr : growth) (b : builder) (n : Z) : builder :=
  let b := v_need gr b n in
  with_bits b (b_bits b ++ repeat 0 (Z.to_nat (n - zlen (b_bits b)))).

(** [*m_cur_word |= x]; bit_vector.hpp:50, 92 *)
Definition cur_or (b : builder) (x : Z) : res builder :=
  match b_cur b with
  | Some (g, i) =>
      if g =? b_gen b then
        do w <- rd (b_bits b) i;
        do ws <- wr (b_bits b) i (Z.lor w x);
        Ok (with_bits b ws)
      else Ub Dangling
  | None => Ub Dangling
  end.

(** [m_bits[i] = f(m_bits[i])]; bit_vector.hpp:58-59, 72-73, 77-78 *)
Definition mod_word (ws : list Z) (i : Z) (f : Z -> Z) : res (list Z) :=
  do w <- rd ws i; wr ws i (f w).

(** bit_vector.hpp:27-38. The fresh vector has capacity equal to its size. *)
Definition new_builder (size : Z) (init : bool) : res builder :=
  let n := words_for size in
  let fill := if init then 2 ^ 64 - 1 else 0 in
  let ws := repeat fill (Z.to_nat n) in
  if size =? 0 then Ok (mk_builder ws size n 0 None)
  else
    let b := set_cur_back (mk_builder ws size n 0 None) in
    if init && negb (size mod 64 =? 0) then
      do w <- rd ws (n - 1);
      do w' <- shr w (64 - size mod 64);
      do ws' <- wr ws (n - 1) w';
      Ok (with_bits b ws')
    else Ok b.

(** bit_vector.hpp:40-42 *)
Definition reserve (gr : growth) (b : builder) (size : Z) : builder :=
  v_need gr b (words_for size).

(** bit_vector.hpp:44-52 *)
Definition push_back (gr : growth) (b : builder) (x : bool) : res builder :=
  let pos_in_word := b_size b mod 64 in
  let b := if pos_in_word =? 0 then set_cur_back (v_push gr b 0) else b in
  do x' <- shl (Z.b2z x) pos_in_word;
  do b <- cur_or b x';
  Ok (with_size b (b_size b + 1)).

(** bit_vector.hpp:54-60 *)
Definition bset (b : builder) (pos : Z) (x : bool) : res builder :=
  let word := pos / 64 in
  let pos_in_word := pos mod 64 in
  do m <- shl 1 pos_in_word;
  do ws <- mod_word (b_bits b) word (fun w => Z.land w (not64 m));
  do x' <- shl (Z.b2z x) pos_in_word;
  do ws <- mod_word ws word (fun w => Z.lor w x');
  Ok (with_bits b ws).

(** the assert of lines 66 and 85: no spurious bits *)
Definition no_spurious (bits len : Z) : res bool :=
  if len =? 64 then Ok true else do s <- shr bits len; Ok (s =? 0).

(** bit_vector.hpp:62-80; [pos + len] wraps *)
Definition set_bits (b : builder) (pos bits len : Z) : res builder :=
  assert! (u64 (pos + len) <=? b_size b);
  do ok <- no_spurious bits len;
  assert! ok;
  if len =? 0 then Ok b
  else
    do mask <- (if len =? 64 then Ok (2 ^ 64 - 1) else do m <- shl 1 len; Ok (u64 (m - 1)));
    let word := pos / 64 in
    let pos_in_word := pos mod 64 in
    do m <- shl mask pos_in_word;
    do ws <- mod_word (b_bits b) word (fun w => Z.land w (not64 m));
    do x <- shl bits pos_in_word;
    do ws <- mod_word ws word (fun w => Z.lor w x);
    let stored := 64 - pos_in_word in
    if stored <? len then
      do m <- shr mask stored;
      do ws <- mod_word ws (word + 1) (fun w => Z.land w (not64 m));
      do x <- shr bits stored;
      do ws <- mod_word ws (word + 1) (fun w => Z.lor w x);
      Ok (with_bits b ws)
    else Ok (with_bits b ws).

(** bit_vector.hpp:82-98 *)
Definition append_bits (gr : growth) (b : builder) (bits len : Z) : res builder :=
  do ok <- no_spurious bits len;
  assert! ok;
  if len =? 0 then Ok b
  else
    let pos_in_word := b_size b mod 64 in
    let b := with_size b (b_size b + len) in
    if pos_in_word =? 0 then Ok (set_cur_back (v_push gr b bits))
    else
      do x <- shl bits pos_in_word;
      do b <- cur_or b x;
      if 64 - pos_in_word <? len then
        do y <- shr bits (64 - pos_in_word);
        Ok (set_cur_back (v_push gr b y))
      else Ok (set_cur_back b).

(** bit_vector.hpp:100-107 *)
Definition zero_extend (gr : growth) (b : builder) (n : Z) : res builder :=
  let b := with_size b (b_size b + n) in
  let needed := u64 (words_for (b_size b) - zlen (b_bits b)) in
  if needed =? 0 then Ok b
  else Ok (set_cur_back (v_grow gr b (zlen (b_bits b) + needed))).

(** bit_vector.hpp:109-118; [fuel] bounds the number of full words *)
Fixpoint one_extend_loop (gr : growth) (fuel : nat) (b : builder) (n : Z) : res (builder * Z) :=
  if 64 <=? n then
    match fuel with
    | O => Ub OutOfFuel
    | S fuel =>
        do b <- append_bits gr b (2 ^ 64 - 1) 64;
        one_extend_loop gr fuel b (n - 64)
    end
  else Ok (b, n).
(** bit_vector.hpp:109-118 *)
Definition one_extend (gr : growth) (b : builder) (n : Z) : res builder :=
  do (b, n) <- one_extend_loop gr (Z.to_nat (n / 64)) b n;
  if n =? 0 then Ok b
  else
    do x <- shr (2 ^ 64 - 1) (64 - n);
    append_bits gr b x n.

(** bit_vector.hpp:134-138: the loop over all words of [rhs] but the last. [cur] is the
    index [cur_word] points to. *)
Fixpoint append_loop (ws : list Z) (cur shift : Z) (rhs : list Z) : res (list Z * Z) :=
  match rhs with
  | [] => Ok (ws, cur)
  | w :: rhs =>
      do x <- shl w shift;
      do ws <- mod_word ws cur (fun c => Z.lor c x);
      do y <- shr w (64 - shift);
      do ws <- wr ws (cur + 1) y;
      append_loop ws (cur + 1) shift rhs
  end.

(** bit_vector.hpp:120-145. [rhs] is another builder (not an alias of [b]). *)
Definition append (gr : growth) (b rhs : builder) : res builder :=
  if b_size rhs =? 0 then Ok b
  else
    let pos := zlen (b_bits b) in
    let shift := b_size b mod 64 in
    let b := with_size b (b_size b + b_size rhs) in
    let n := words_for (b_size b) in
    (* resize: shrinking would drop words *)
    let b := if n <? pos then with_bits b (firstn (Z.to_nat n) (b_bits b)) else v_grow gr b n in
    if shift =? 0 then
      (* std::copy *)
      if pos + zlen (b_bits rhs) <=? zlen (b_bits b) then
        Ok (set_cur_back (with_bits b
              (firstn (Z.to_nat pos) (b_bits b) ++ b_bits rhs ++
               skipn (Z.to_nat (pos + zlen (b_bits rhs))) (b_bits b))))
      else Ub OutOfBounds
    else
      do last_w <- rd (b_bits rhs) (zlen (b_bits rhs) - 1);
      do (ws, cur) <- append_loop (b_bits b) (pos - 1) shift (removelast (b_bits rhs));
      do x <- shl last_w shift;
      do ws <- mod_word ws cur (fun c => Z.lor c x);
      if cur <? zlen ws - 1 then
        do y <- shr last_w (64 - shift);
        do ws <- wr ws (cur + 1) y;
        Ok (set_cur_back (with_bits b ws))
      else Ok (set_cur_back (with_bits b ws)).

(** bit_vector.hpp:152-162: the loop, returning the rewritten words and the remainder *)
Fixpoint reverse_loop (shift remainder : Z) (ws : list Z) : res (list Z * Z) :=
  match ws with
  | [] => Ok ([], remainder)
  | w :: ws =>
      do (cur, remainder) <-
        (if shift =? 64 then Ok (w, remainder)
         else do x <- shl w shift; do r <- shr w (64 - shift); Ok (Z.lor remainder x, r));
      do (ws, r) <- reverse_loop shift remainder ws;
      Ok (reverse_bits cur :: ws, r)
  end.

(** bit_vector.hpp:147-165 *)
Definition reverse (b : builder) : res builder :=
  let shift := 64 - b_size b mod 64 in
  do (ws, remainder) <- reverse_loop shift 0 (b_bits b);
  assert! (remainder =? 0);
  Ok (with_bits b (rev ws)).

(** bit_vector.hpp:176-181; exchanging the vectors exchanges their capacities and buffers, so each
    [m_cur_word] keeps pointing into the buffer that travels with it *)
Definition builder_swap (this other : builder) : builder * builder :=
  (mk_builder (b_bits other) (b_size other) (b_cap other) (b_gen other) (b_cur other),
   mk_builder (b_bits this) (b_size this) (b_cap this) (b_gen this) (b_cur this)).

(** ** bit_vector *)

(** bit_vector.hpp:525-526; [m_bits] as the list of its words. size() (239-241) and data() (347-350) are the fields,
    and the list stands for size(), begin(), end() and data() of mappable_vector.hpp:89-99 and 106-108 as well. The
    prefetch of mappable_vector.hpp:110-112 has no effect on results and is left out. *)
Record bit_vector := mk_bv { bv_size : Z; bv_words : list Z }.

(** bit_vector.hpp:191-193 *)
Definition bv_empty : bit_vector := mk_bv 0 [].

(** bit_vector.hpp:201-215: the loop of the range constructor *)
Fixpoint range_loop (from : list bool) (bits : list Z) (mask cur_val size : Z)
  : list Z * Z * Z * Z :=
  match from with
  | [] => (bits, mask, cur_val, size)
  | x :: from =>
      let cur_val := if x then Z.lor cur_val mask else cur_val in
      let mask := u64 (Z.shiftl mask 1) in
      let size := size + 1 in
      if mask =? 0 then range_loop from (bits ++ [cur_val]) 1 0 size
      else range_loop from bits mask cur_val size
  end.

(** bit_vector.hpp:195-220 *)
Definition bv_range (from : list bool) : bit_vector :=
  let '(bits, mask, cur_val, size) := range_loop from [] 1 0 0 in
  let bits := if mask =? 1 then bits else bits ++ [cur_val] in
  mk_bv size bits.

(** bit_vector.hpp:222-225 with 167-170 *)
Definition bv_of_builder (b : builder) : res bit_vector :=
  assert! (words_for (b_size b) =? zlen (b_bits b));
  Ok (mk_bv (b_size b) (b_bits b)).

(** bit_vector.hpp:243-249 *)
Definition bv_get (bv : bit_vector) (pos : Z) : res bool :=
  assert! (pos <? bv_size bv);
  let block := pos / 64 in
  assert! (block <? zlen (bv_words bv));
  let shift := pos mod 64 in
  do w <- rd (bv_words bv) block;
  do x <- shr w shift;
  Ok (negb (Z.land x 1 =? 0)).

(** bit_vector.hpp:251-264. [1ULL << len] (line 258) is evaluated also for len = 64. [pos + len] wraps. *)
Definition get_bits (sp : shift_policy) (bv : bit_vector) (pos len : Z) : res Z :=
  assert! (u64 (pos + len) <=? bv_size bv);
  if len =? 0 then Ok 0
  else
    let block := pos / 64 in
    let shift := pos mod 64 in
    do m <- shl_p sp 1 len;
    let mask := Z.lor (if len =? 64 then 2 ^ 64 - 1 else 0) (u64 (m - 1)) in
    do w <- rd (bv_words bv) block;
    do x <- shr w shift;
    if shift + len <=? 64 then Ok (Z.land x mask)
    else
      do w1 <- rd (bv_words bv) (block + 1);
      do y <- shl w1 (64 - shift);
      Ok (Z.lor x (Z.land y mask)).

(** bit_vector.hpp:267-277 *)
Definition get_word (bv : bit_vector) (pos : Z) : res Z :=
  assert! (pos <? bv_size bv);
  let block := pos / 64 in
  let shift := pos mod 64 in
  do w <- rd (bv_words bv) block;
  do word <- shr w shift;
  if negb (shift =? 0) && (block + 1 <? zlen (bv_words bv)) then
    do w1 <- rd (bv_words bv) (block + 1);
    do y <- shl w1 (64 - shift);
    Ok (Z.lor word y)
  else Ok word.

(** bit_vector.hpp:280-285 on a little-endian machine: the unaligned 8-byte load starts at
    byte [pos / 8]; it must lie inside the array. *)
Definition byte_of_words (ws : list Z) (i : Z) : res Z :=
  do w <- rd ws (i / 8);
  Ok (Z.land (Z.shiftr w (8 * (i mod 8))) 0xFF).
(** the 8 bytes read at bit_vector.hpp:284 *)
Fixpoint load_le (ws : list Z) (i : Z) (n : nat) : res Z :=
  match n with
  | O => Ok 0
  | S n =>
      do b <- byte_of_words ws i;
      do r <- load_le ws (i + 1) n;
      Ok (b + 2 ^ 8 * r)
  end.
(** bit_vector.hpp:280-285 *)
Definition get_word56 (bv : bit_vector) (pos : Z) : res Z :=
  do w <- load_le (bv_words bv) (pos / 8) 8;
  shr w (pos mod 8).

(** bit_vector.hpp:294-299 *)
Fixpoint predecessor0_loop (fuel : nat) (ws : list Z) (block word : Z) : res Z :=
  do o <- msb_opt word;
  match o with
  | Some ret => Ok (block * 64 + ret)
  | None =>
      match fuel with
      | O => Ub OutOfFuel
      | S fuel =>
          assert! (negb (block =? 0));
          do w <- rd ws (block - 1);
          predecessor0_loop fuel ws (block - 1) (not64 w)
      end
  end.
(** bit_vector.hpp:287-300 *)
Definition predecessor0 (bv : bit_vector) (pos : Z) : res Z :=
  assert! (pos <? bv_size bv);
  let block := pos / 64 in
  let shift := 64 - pos mod 64 - 1 in
  do w <- rd (bv_words bv) block;
  do x <- shl (not64 w) shift;
  do word <- shr x shift;
  predecessor0_loop (S (Z.to_nat block)) (bv_words bv) block word.

(** bit_vector.hpp:308-314 *)
Fixpoint successor0_loop (fuel : nat) (ws : list Z) (block word : Z) : res Z :=
  do o <- lsb_opt word;
  match o with
  | Some ret => Ok (block * 64 + ret)
  | None =>
      match fuel with
      | O => Ub OutOfFuel
      | S fuel =>
          assert! (block + 1 <? zlen ws);
          do w <- rd ws (block + 1);
          successor0_loop fuel ws (block + 1) (not64 w)
      end
  end.
(** bit_vector.hpp:302-315 *)
Definition successor0 (bv : bit_vector) (pos : Z) : res Z :=
  assert! (pos <? bv_size bv);
  let block := pos / 64 in
  let shift := pos mod 64 in
  do w <- rd (bv_words bv) block;
  do x <- shr (not64 w) shift;
  do word <- shl x shift;
  successor0_loop (S (length (bv_words bv))) (bv_words bv) block word.

(** bit_vector.hpp:324-329 *)
Fixpoint predecessor1_loop (fuel : nat) (ws : list Z) (block word : Z) : res Z :=
  do o <- msb_opt word;
  match o with
  | Some ret => Ok (block * 64 + ret)
  | None =>
      match fuel with
      | O => Ub OutOfFuel
      | S fuel =>
          assert! (negb (block =? 0));
          do w <- rd ws (block - 1);
          predecessor1_loop fuel ws (block - 1) w
      end
  end.
(** bit_vector.hpp:317-330 *)
Definition predecessor1 (bv : bit_vector) (pos : Z) : res Z :=
  assert! (pos <? bv_size bv);
  let block := pos / 64 in
  let shift := 64 - pos mod 64 - 1 in
  do w <- rd (bv_words bv) block;
  do x <- shl w shift;
  do word <- shr x shift;
  predecessor1_loop (S (Z.to_nat block)) (bv_words bv) block word.

(** bit_vector.hpp:338-344 *)
Fixpoint successor1_loop (fuel : nat) (ws : list Z) (block word : Z) : res Z :=
  do o <- lsb_opt word;
  match o with
  | Some ret => Ok (block * 64 + ret)
  | None =>
      match fuel with
      | O => Ub OutOfFuel
      | S fuel =>
          assert! (block + 1 <? zlen ws);
          do w <- rd ws (block + 1);
          successor1_loop fuel ws (block + 1) w
      end
  end.
(** bit_vector.hpp:332-345 *)
Definition successor1 (bv : bit_vector) (pos : Z) : res Z :=
  assert! (pos <? bv_size bv);
  let block := pos / 64 in
  let shift := pos mod 64 in
  do w <- rd (bv_words bv) block;
  do x <- shr w shift;
  do word <- shl x shift;
  successor1_loop (S (length (bv_words bv))) (bv_words bv) block word.

(** ** bit_vector::enumerator (bit_vector.hpp:352-428). The bit vector pointer is the
    extra argument [bv]; prefetch has no effect. *)
Record enumerator := mk_enum { e_pos : Z; e_buf : Z; e_avail : Z }.

(** bit_vector.hpp:358-365 *)
Definition enum_new (pos : Z) : enumerator := mk_enum pos 0 0.

(** bit_vector.hpp:418-422 *)
Definition fill_buf (bv : bit_vector) (e : enumerator) : res enumerator :=
  do w <- get_word bv (e_pos e);
  Ok (mk_enum (e_pos e) w 64).

(** bit_vector.hpp:367-375 *)
Definition enum_next (bv : bit_vector) (e : enumerator) : res (bool * enumerator) :=
  do e <- (if e_avail e =? 0 then fill_buf bv e else Ok e);
  Ok (negb (Z.land (e_buf e) 1 =? 0),
      mk_enum (e_pos e + 1) (Z.shiftr (e_buf e) 1) (e_avail e - 1)).

(** bit_vector.hpp:377-390 *)
Definition enum_take (bv : bit_vector) (e : enumerator) (l : Z) : res (Z * enumerator) :=
  do e <- (if e_avail e <? l then fill_buf bv e else Ok e);
  do (val, buf) <-
    (if l =? 64 then Ok (e_buf e, e_buf e)
     else
       do m <- shl 1 l;
       do s <- shr (e_buf e) l;
       Ok (Z.land (e_buf e) (u64 (m - 1)), s));
  Ok (val, mk_enum (e_pos e + l) buf (u64 (e_avail e - l))).

(** bit_vector.hpp:396-401 *)
Fixpoint skip_zeros_loop (fuel : nat) (bv : bit_vector) (e : enumerator) (zs : Z)
  : res (enumerator * Z) :=
  if e_buf e =? 0 then
    match fuel with
    | O => Ub OutOfFuel
    | S fuel =>
        do e' <- fill_buf bv (mk_enum (e_pos e + e_avail e) (e_buf e) 0);
        skip_zeros_loop fuel bv e' (zs + e_avail e)
    end
  else Ok (e, zs).

(** bit_vector.hpp:392-409 *)
Definition enum_skip_zeros (bv : bit_vector) (e : enumerator) : res (Z * enumerator) :=
  do (e, zs) <- skip_zeros_loop (S (S (length (bv_words bv)))) bv e 0;
  do l <- lsb (e_buf e);
  do s <- shr (e_buf e) l;
  Ok (zs + l, mk_enum (e_pos e + (l + 1)) (Z.shiftr s 1) (u64 (e_avail e - (l + 1)))).

(** ** bit_vector::unary_enumerator (bit_vector.hpp:430-522). [m_data] is the extra
    argument [ws]. *)
Record unary_enum := mk_unary { u_pos : Z; u_buf : Z }.

(** bit_vector.hpp:437-444 *)
Definition unary_new (ws : list Z) (pos : Z) : res unary_enum :=
  do w <- rd ws (pos / 64);
  do m <- shl (2 ^ 64 - 1) (pos mod 64);
  Ok (mk_unary pos (Z.land w m)).

(** [x & ~uint64_t(63)], e.g. bit_vector.hpp:461, 479, 496, 515 *)
Definition align64 (x : Z) : Z := 64 * (x / 64).

(** bit_vector.hpp:455-458 *)
Fixpoint unary_next_loop (fuel : nat) (ws : list Z) (pos buf : Z) : res (Z * Z * Z) :=
  do o <- lsb_opt buf;
  match o with
  | Some r => Ok (pos, buf, r)
  | None =>
      match fuel with
      | O => Ub OutOfFuel
      | S fuel =>
          do w <- rd ws ((pos + 64) / 64);
          unary_next_loop fuel ws (pos + 64) w
      end
  end.

(** bit_vector.hpp:451-463 *)
Definition unary_next (ws : list Z) (e : unary_enum) : res (Z * unary_enum) :=
  do (pos, buf, pos_in_word) <- unary_next_loop (S (length ws)) ws (u_pos e) (u_buf e);
  let p := align64 pos + pos_in_word in
  Ok (p, mk_unary p (Z.land buf (u64 (buf - 1)))).

(** bit_vector.hpp:471-475 and, the same text on a copy of m_position, 489-493 *)
Fixpoint skip_loop (fuel : nat) (ws : list Z) (k skipped pos buf : Z) : res (Z * Z * Z) :=
  let w := popcount buf in
  if skipped + w <=? k then
    match fuel with
    | O => Ub OutOfFuel
    | S fuel =>
        do b <- rd ws ((pos + 64) / 64);
        skip_loop fuel ws k (skipped + w) (pos + 64) b
    end
  else Ok (skipped, pos, buf).
(** bit_vector.hpp:507-511 *)
Fixpoint skip0_loop (fuel : nat) (ws : list Z) (k skipped pos buf : Z) : res (Z * Z * Z) :=
  let w := popcount buf in
  if skipped + w <=? k then
    match fuel with
    | O => Ub OutOfFuel
    | S fuel =>
        do b <- rd ws ((pos + 64) / 64);
        skip0_loop fuel ws k (skipped + w) (pos + 64) (not64 b)
    end
  else Ok (skipped, pos, buf).

(** bit_vector.hpp:466-480 *)
Definition unary_skip (ws : list Z) (e : unary_enum) (k : Z) : res unary_enum :=
  do (skipped, pos, buf) <- skip_loop (S (length ws)) ws k 0 (u_pos e) (u_buf e);
  assert! (negb (buf =? 0));
  do pos_in_word <- select_in_word buf (k - skipped);
  do m <- shl (2 ^ 64 - 1) pos_in_word;
  Ok (mk_unary (align64 pos + pos_in_word) (Z.land buf m)).

(** bit_vector.hpp:483-498 *)
Definition unary_skip_no_move (ws : list Z) (e : unary_enum) (k : Z) : res Z :=
  do (skipped, pos, buf) <- skip_loop (S (length ws)) ws k 0 (u_pos e) (u_buf e);
  assert! (negb (buf =? 0));
  do pos_in_word <- select_in_word buf (k - skipped);
  Ok (align64 pos + pos_in_word).

(** bit_vector.hpp:501-516 *)
Definition unary_skip0 (ws : list Z) (e : unary_enum) (k : Z) : res unary_enum :=
  do m0 <- shl (2 ^ 64 - 1) (u_pos e mod 64);
  let buf0 := Z.land (not64 (u_buf e)) m0 in
  do (skipped, pos, buf) <- skip0_loop (S (length ws)) ws k 0 (u_pos e) buf0;
  assert! (negb (buf =? 0));
  do pos_in_word <- select_in_word buf (k - skipped);
  do m <- shl (2 ^ 64 - 1) pos_in_word;
  Ok (mk_unary (align64 pos + pos_in_word) (Z.land (not64 buf) m)).
